(** A wired network has a next step. *)
From Verif Require Import Base ListLemmas Messaging_Model Messaging_Spec Messaging_Proofs Messaging_Proofs2 Projection_Model Projection_Proofs
  Delta_Model Delta_Spec Delta_Proofs Neuron_Model Neuron_Proofs2 Pipeline_Model Pipeline_Spec Pipeline_Proofs Pipeline_Proofs2 Stdp_Model Additive_Model Additive_Proofs Train_Model
  Net_Model Net_Spec Net_Proofs Net_Proofs2 Net_Proofs3 Net_Proofs4 Net_Proofs5 Safe_Spec Safe_Proofs.

(** ** The queue of one projection *)
Section Queue.
Variables (u : uid) (P : impact -> Prop).
Definition msg_fit (m : message) : Prop := exists t pre post f l, m = ImpactMsg u t pre post f l /\ Forall P l.
Definition q_fit (q : queue) : Prop := Forall (fun e => msg_fit (snd e)) q.
Lemma q_push_fit k i q : P i -> q_fit q -> q_fit (q_push k i q).
Proof.
  intros Hi. induction 1 as [|[k' m] q (t & pre & post & f & l & E & Hl) Hq IH]; cbn [q_push]; [constructor|]. cbn [snd] in E. subst m. destruct (N.eqb k k').
  - constructor; [|exact Hq]. cbn [snd push_impact]. do 5 eexists. split; [reflexivity|]. apply Forall_app. auto.
  - constructor; [|exact IH]. cbn [snd]. do 5 eexists. eauto.
Qed.
Lemma schedule_fit h step key i q : ph_uid h = u -> P i -> q_fit q -> q_fit (schedule h step key i q).
Proof.
  intros Hh Hi Hq. unfold schedule. destruct (q_find key q); [now apply q_push_fit|]. apply Forall_app. split; [exact Hq|].
  constructor; [|constructor]. cbn [snd]. rewrite Hh. do 5 eexists. split; [reflexivity|auto].
Qed.
Lemma do_synapses_fit h step l : ph_uid h = u -> (forall i s, nth_error l i = Some s -> P (impact_of i s)) ->
  forall idx q q', q_fit q -> do_synapses h step l idx q = Ret q' -> q_fit q'.
Proof.
  intros Hh Hl. induction idx as [|i t IH]; intros q q' Hq H; cbn [do_synapses] in H.
  - now injection H as <-.
  - destruct (nth_error l i) as [s|] eqn:E; [|discriminate]. eapply IH; [|exact H]. apply schedule_fit; auto.
Qed.
Lemma do_spikes_fit h step : ph_uid h = u -> forall spikes p q p' q', (forall i s, nth_error (p_syn p) i = Some s -> P (impact_of i s)) ->
  q_fit q -> do_spikes h step spikes p q = Ret (p', q') -> q_fit q'.
Proof.
  intros Hh. induction spikes as [|n t IH]; intros p q p' q' Hp Hq H; cbn [do_spikes] in H.
  - injection H as <- <-. auto.
  - unfold find_synapses in H.
    match type of H with obind ?e _ = _ => destruct e as [q1| |] eqn:E end; cbn [obind] in H; try discriminate.
    assert (Hp' : forall i s, nth_error (p_syn (reindex p)) i = Some s -> P (impact_of i s)) by (rewrite reindex_syn; exact Hp).
    eapply do_synapses_fit in E; [|exact Hh|exact Hp'|exact Hq]. exact (IH _ _ _ _ Hp' E H).
Qed.
Lemma calculate_fit h step ms p q p' q' o : ph_uid h = u -> (forall i s, nth_error (p_syn p) i = Some s -> P (impact_of i s)) ->
  q_fit q -> calculate_projection h step ms p q = Ret (p', q', o) -> q_fit q' /\ Forall msg_fit (sent_msgs [o]).
Proof.
  intros Hh Hp Hq H. unfold calculate_projection in H.
  destruct (do_spikes _ _ _ _ _) as [[p1 q1]| |] eqn:E; cbn [obind fst snd] in H; try discriminate.
  apply do_spikes_fit in E; [|exact Hh|exact Hp|exact Hq].
  destruct (q_find step q1) as [m|] eqn:Ef; injection H as <- <- <-.
  - split.
    + unfold q_fit, q_erase in *. rewrite Forall_forall in *. intros x Hx. apply filter_In in Hx as [Hx _]. auto.
    + cbn [sent_msgs flat_map app]. constructor; [|constructor]. clear -E Ef.
      induction E as [|[k' m'] q Hm Hq IH]; cbn [q_find] in Ef; [discriminate|]. destruct (N.eqb step k'); [|auto].
      injection Ef as ->. exact Hm.
  - split; [exact E|constructor].
Qed.
End Queue.

Section Safe.
Variables pow2f expf : flt -> flt.
Variables (extra : list subscr) (pops0 : list (uid * npop)) (projs0 : list nproj).
Hypothesis Hsound : sound_network pops0 projs0.
Hypothesis Hwired : wired extra pops0 projs0.

(** ** Synapses *)
Definition hits (w : nproj) (i : impact) : Prop := forall u a, In (u, a) pops0 -> reaches extra w u -> fits a i.
Definition syns (w0 w : nproj) : Prop := fixed w = fixed w0 /\ (np_forced w0 = true -> delta_synapses w = delta_synapses w0).
Definition proj_inv (w0 w : nproj) : Prop := syns w0 w /\ q_fit (np_uid w) (hits w) (np_queue w).
Lemma reaches_fixed w w' u : np_uid w' = np_uid w -> np_post w' = np_post w -> reaches extra w' u -> reaches extra w u.
Proof. intros H1 H2. unfold reaches. now rewrite H1, H2. Qed.
Lemma fixed_post w w' : fixed w = fixed w' -> np_post w = np_post w'.
Proof. unfold fixed. intros H. congruence. Qed.
Lemma syn_hits w0 w s : In w0 projs0 -> syns w0 w -> In s (delta_synapses w) -> forall i, hits w (impact_of i s).
Proof.
  intros Hw0 [Hf Hd] Hs i u a Hu Hr. apply (reaches_fixed w0) in Hr; [|now apply (fixed_uid w w0)|now apply fixed_post].
  destruct (fixed_ends w w0 Hf) as [_ _]. 
  assert (Hm : exists s0, In s0 (delta_synapses w0) /\ sy_to s0 = sy_to s /\ d_type (sy_params s0) = d_type (sy_params s)).
  { assert (E : map (fun s => (sy_from s, sy_to s, d_delay (sy_params s), d_type (sy_params s))) (delta_synapses w) =
                map (fun s => (sy_from s, sy_to s, d_delay (sy_params s), d_type (sy_params s))) (delta_synapses w0)) by (unfold fixed in Hf; congruence).
    apply (in_map (fun s => (sy_from s, sy_to s, d_delay (sy_params s), d_type (sy_params s)))) in Hs. rewrite E in Hs.
    apply in_map_iff in Hs as (s0 & E0 & Hs0). exists s0. split; [exact Hs0|]. split; congruence. }
  destruct Hm as (s0 & Hs0 & Eto & Ety). destruct (wi_synapses _ _ _ Hwired u a w0 s0 Hu Hw0 Hr Hs0) as (H1 & H2 & H3).
  unfold fits, impact_of. cbn [i_post i_type i_value]. split.
  - rewrite Eto in H1. unfold w32. rewrite N.mod_small; [exact H1|].
    pose proof (sn_sizes _ _ Hsound) as Hz. rewrite Forall_forall in Hz. specialize (Hz _ Hu). cbn [snd] in Hz.
    change (2 ^ 32)%N with two32. lia.
  - rewrite Ety in *. destruct (d_type (sy_params s)) eqn:Et.
    5:{ destruct (H3 eq_refl) as (p & Ep). assert (Efo : np_forced w0 = true) by (unfold np_forced; now rewrite Ep).
        rewrite (Hd Efo) in Hs. destruct (wi_synapses _ _ _ Hwired u a w0 s Hu Hw0 Hr Hs) as (_ & H2' & _). now rewrite Et in H2'. }
    all: destruct a as [[?|?|?]|?|?]; cbn [takes] in *; try exact H2; try (intros; discriminate); (split; [apply H2|intros; discriminate]).
Qed.

(** ** Training, learning and the step of a projection *)
Lemma inv_kept w0 w w' : kept w w' -> proj_inv w0 w -> proj_inv w0 w'.
Proof.
  intros K [[H1 H2] H3]. split; [split|].
  - rewrite (kept_fixed _ _ K). exact H1.
  - intros Hf. rewrite <- (H2 Hf). destruct K as (_ & _ & _ & _ & _ & K6).
    assert (Hfw : np_forced w = true) by (unfold fixed in H1; congruence). unfold np_forced in Hfw.
    unfold delta_synapses. destruct (np_kind w) as [p|l p|l p]; try discriminate. destruct (np_kind w') as [p'|l' p'|l' p']; try contradiction. now subst.
  - destruct K as (K1 & _ & K3 & _ & K5 & _). rewrite K1, K5. eapply Forall_impl; [|exact H3].
    intros e (t & pre & post & f & l & E & Hl). do 5 eexists. split; [exact E|]. eapply Forall_impl; [|exact Hl].
    intros i Hi u a Hu Hr. apply (Hi u a Hu). eapply reaches_fixed; eauto.
Qed.
Lemma inv_lock w0 w bs : proj_inv w0 w -> proj_inv w0 (relock bs w).
Proof.
  intros H. unfold relock. revert w H. induction bs as [|b bs IH]; intros w H; cbn [fold_left]; [exact H|]. apply IH. exact H.
Qed.
Lemma inv_learn bs projs : Forall2 proj_inv projs0 projs -> Forall2 proj_inv projs0 (learn_all bs projs).
Proof.
  intros H. rewrite learn_all_map. change (fun w => fold_left (fun w on => set_lock (negb on) w) bs w) with (relock bs).
  clear Hwired Hsound. induction H; cbn [map]; constructor; auto. now apply inv_lock.
Qed.
Lemma inv_step w0 w step ms w' o : In w0 projs0 -> nproj_ok w -> proj_inv w0 w -> nproj_step expf step ms w = Ret (w', o) ->
  proj_inv w0 w' /\ Forall (msg_fit (np_uid w) (hits w)) (sent_msgs [o]).
Proof.
  intros Hw0 [Hk _] [Hs Hq] E. destruct (nproj_step_spec expf step ms w Hk) as (k' & q' & o' & dp & Es & _ & Hst & Hc).
  rewrite E in Es. injection Es as -> ->.
  destruct (calculate_fit (np_uid w) (hits w) (np_head w) step (heard w ms) (delta_proj w) (np_queue w) dp q' o') as [Hq' Ho]; auto.
  { intros i s Hi. rewrite delta_proj_syn in Hi. apply nth_error_In in Hi. eapply syn_hits; eauto. }
  split; [|exact Ho]. split; [|exact Hq']. split.
  - rewrite (nproj_step_fixed expf step ms w _ _ Hk E). apply Hs.
  - intros Hf. rewrite <- (proj2 Hs Hf). assert (Hfw : np_forced w = true) by (destruct Hs as [H1 _]; unfold fixed in H1; congruence).
    unfold np_forced, delta_synapses in *. cbn [np_with np_kind]. destruct (np_kind w) as [p|l p|l p]; try discriminate.
    destruct k'; cbn [stepped] in Hst; try contradiction. exact Hst.
Qed.
(** What a projection sends does no harm. *)
Lemma fit_harmless w0 w m : In w0 projs0 -> fixed w = fixed w0 -> msg_fit (np_uid w) (hits w) m -> harmless extra pops0 projs0 m.
Proof.
  intros Hw0 Hf (t & pre & post & f & l & -> & Hl) u a Hu Hto. cbn [message_fits]. eapply Forall_impl; [|exact Hl]. intros i Hi.
  apply (Hi u a Hu). destruct (fixed_uid _ _ Hf) as (Eu & Eh & _). cbn [to_population] in Hto. apply orb_true_iff in Hto as [Hto|Hto]; [|now right].
  apply andb_true_iff in Hto as [Hn He]. apply negb_true_iff, N.eqb_neq in Hn. apply existsb_exists in He as (h & Hh & Hb).
  apply in_map_iff in Hh as (v & <- & Hv). apply andb_true_iff in Hb as [Hb1 Hb2]. apply N.eqb_eq in Hb1, Hb2. cbn [np_head ph_uid ph_post] in *.
  assert (v = w0). { apply (NoDup_map_inj np_uid projs0); auto; [apply (sn_projs _ _ Hsound)|congruence]. } subst v.
  left. split; [exact Hn|]. rewrite (fixed_post _ _ Hf). exact Hb2.
Qed.
Lemma nprojs_inv step inbox : forall ps0 projs projs' outs, (forall w, In w ps0 -> In w projs0) ->
  Forall2 proj_inv ps0 projs -> Forall nproj_ok projs ->
  nprojs_alone expf step inbox projs = Ret (projs', outs) ->
  Forall2 proj_inv ps0 projs' /\ Forall (harmless extra pops0 projs0) (sent_msgs outs).
Proof.
  intros ps0 projs projs' outs Hin H. revert projs' outs Hin. induction H as [|w0 w ps0 projs Hw _ IH]; intros projs' outs Hin Hok E; cbn [nprojs_alone] in E.
  - injection E as <- <-. split; constructor.
  - apply Forall_cons_iff in Hok as [Hw1 Hok].
    destruct (nproj_step expf step (inbox w) w) as [[w' o]| |] eqn:E1; cbn [obind] in E; try discriminate.
    destruct (nprojs_alone expf step inbox projs) as [[projs1 outs1]| |] eqn:E2; cbn [obind fst snd] in E; try discriminate. injection E as <- <-.
    destruct (IH projs1 outs1) as [H1 H2]; [intros v Hv; apply Hin; now right|exact Hok|reflexivity|].
    assert (Hw0 : In w0 projs0) by (apply Hin; now left).
    destruct (inv_step w0 w step (inbox w) w' o Hw0 Hw1 Hw E1) as [H3 H4]. split; [constructor; assumption|].
    rewrite sent_msgs_cons. apply Forall_app. split; [|exact H2]. eapply Forall_impl; [|exact H4]. intros m. apply (fit_harmless w0 w m Hw0). apply (proj1 Hw).
Qed.

(** ** The next step *)
Local Notation S_ := (nS0 extra projs0).
Record safe (prev : list message) (k : nbackend) : Prop := mkSafe {
  sa_ready : nready extra projs0 (map fst pops0) prev k;
  sa_pops : pops_like pops0 (nb_pops k);
  sa_projs : Forall2 proj_inv projs0 (nb_projs k);
  sa_prev : Forall (harmless extra pops0 projs0) prev }.
Lemma safe_step prev k : safe prev k -> Forall (harmless extra pops0 projs0) (pending (nb_bus k)) ->
  exists k' r, nbackend_step pow2f expf (pending (nb_bus k)) k = Ret (k', r) /\ safe (sent_msgs (r_proj_out (nr_msgs r))) k' /\
    pending (nb_bus k') = [].
Proof.
  intros [R Hp Hj Hprev] Hext. pose proof (sn_projs _ _ Hsound) as Hpd. pose proof (sn_pops _ _ Hsound) as Hud. pose proof R as R0.
  assert (Hstep : exists k' r, nbackend_step pow2f expf (pending (nb_bus k)) k = Ret (k', r) /\ pops_like pops0 (nb_pops k') /\
            Forall2 proj_inv projs0 (nb_projs k') /\ Forall (harmless extra pops0 projs0) (sent_msgs (r_proj_out (nr_msgs r))) /\ pending (nb_bus k') = []).
  { destruct R as [G Ho Hus Hsz Hhs Hok W0 W1]. remember (pending (nb_bus k)) as ext eqn:Eext.
    unfold nbackend_step.
    destruct (route_good S_ (nb_bus k) G) as (b1 & E1 & G1 & O1 & S1 & P1 & R1). rewrite E1. cbn [obind]. rewrite <- Eext in R1.
    assert (B1 : forall u, In u (map fst pops0) -> waiting b1 1 u = npop_box extra projs0 prev ext u).
    { intros u Hu. rewrite R1, (W1 u Hu). unfold npop_box. rewrite filter_app. f_equal. apply filter_ext. intros m. apply nS0_population. }
    assert (Hnd : NoDup (map fst (nb_pops k))) by (rewrite Hus; exact Hud).
    pose proof (npops_phase_eq pow2f S_ (nb_step k) (nb_pops k) (nb_projs k) b1 G1 O1 Hnd) as HP.
    rewrite (npops_alone_ext pow2f (nb_step k) (waiting b1 1) (npop_box extra projs0 prev ext)) in HP by (intros u Hu; apply B1; congruence).
    assert (Hkinds : kinds_ok (nb_projs k)) by (eapply Forall_impl; [|exact Hok]; intros w; apply proj1).
    destruct (npops_ret pow2f (nb_step k) (npop_box extra projs0 prev ext) pops0 (nb_pops k) (nb_projs k) Hp Hsz Hkinds) as (pops' & projs1 & pout & EP & Hp').
    { intros u a Hu. unfold npop_box. apply Forall_forall. intros m Hm. apply filter_In in Hm as [Hm Hto].
      assert (Hh : harmless extra pops0 projs0 m) by (rewrite Forall_forall in Hprev, Hext; apply in_app_or in Hm as [Hm|Hm]; auto). exact (Hh u a Hu Hto). }
    rewrite EP in HP. destruct HP as (b2 & E2 & G2 & O2 & S2 & Z2 & Y2). rewrite E2. cbn [obind].
    destruct (npops_facts pow2f (nb_step k) (npop_box extra projs0 prev ext) _ _ _ _ _ Hnd Hsz Hkinds EP) as (F1 & F2 & F2' & Hsp & F4 & F5 & _ & F7).
    pose proof (kept_all_ok _ _ _ F5 Hok F4) as Hok1. pose proof (kept_all_fixed _ _ _ F5) as Hfx1. rewrite Hhs in Hfx1.
    destruct (route_good S_ b2 G2) as (b3 & E3 & G3 & O3 & S3 & P3 & R3). rewrite E3. cbn [obind].
    destruct (map_fixed_uid _ _ Hfx1) as [Hu1 Hh1].
    assert (Hnd' : NoDup (map np_uid projs1)) by (rewrite Hu1; exact Hpd).
    pose proof (nprojs_phase_eq expf S_ (nb_step k) projs1 b3 G3 O3 Hnd') as HQ.
    destruct (nprojs_facts expf (nb_step k) (fun w => waiting b3 0 (np_uid w)) projs1 Hok1) as (projs' & jout & EQ & K1 & K2 & K3 & K4).
    rewrite EQ in HQ. destruct HQ as (b4 & E4 & G4 & O4 & S4 & Z4 & Y4). rewrite E4. cbn [obind].
    destruct (route_good S_ b4 G4) as (b5 & E5 & G5 & O5 & S5 & P5 & R5). rewrite E5. cbn [obind].
    do 2 eexists. split; [reflexivity|]. cbn [nb_bus nb_pops nb_projs nr_msgs r_proj_out]. split; [exact Hp'|]. apply and_assoc. split; [|exact P5].
    assert (Hj1 : Forall2 proj_inv projs0 projs1).
    { revert Hj F5. generalize (nb_projs k). generalize (stdp_uids (nb_pops k)). intros us l Hl Hr. clear -Hl Hr.
      eapply Forall2_trans3; [|exact Hl|exact Hr]. intros a b c H [K _]. eapply inv_kept; eauto. }
    exact (nprojs_inv (nb_step k) _ projs0 projs1 projs' jout (fun w Hw => Hw) Hj1 Hok1 EQ). }
  destruct Hstep as (k' & r & E & H1 & H2 & H3 & H4). exists k', r. split; [exact E|]. split; [|exact H4].
  destruct (nstep_eq pow2f expf extra projs0 (map fst pops0) Hpd Hud prev k k' r R0 E) as (_ & R2 & _). split; assumption.
Qed.
Lemma safe_ops prev k ops b x bs : safe prev k -> forallb outside ops = true -> run (nb_bus k) ops = Ret (b, x) ->
  safe prev (mkNB b (nb_pops k) (learn_all bs (nb_projs k)) (nb_step k)).
Proof.
  intros [R Hp Hj Hprev] Hops E. split; cbn [nb_pops nb_projs]; auto; [|now apply inv_learn].
  destruct R as [G Ho Hus Hsz Hhs Hok W0 W1]. destruct (outside_run S_ ops (nb_bus k) b x G Hops E) as (G' & W & S').
  split; cbn [nb_bus nb_pops nb_projs]; auto; try congruence.
  - now rewrite learn_all_fixed.
  - now apply learn_all_ok.
  - intros w Hw. rewrite W. auto.
  - intros v Hv. rewrite W. auto.
Qed.
Lemma safe_init k : nbackend_init extra pops0 projs0 = Ret k -> safe [] k.
Proof.
  intros E. destruct (nbackend_init_ready extra pops0 projs0 Hsound) as (k1 & E1 & Ep & Ej & _ & R). rewrite E in E1. injection E1 as <-.
  split; [exact R| | |constructor].
  - rewrite Ep. pose proof (wi_settled _ _ _ Hwired) as Hse. unfold pops_like. clear -Hse. induction pops0 as [|[u a] l IH]; constructor.
    + split; [reflexivity|]. split; [apply same_kind_refl|]. apply (Hse u a). now left.
    + apply IH. intros v b Hv. apply (Hse v b). now right.
  - rewrite Ej. pose proof (sn_queues _ _ Hsound) as Hq. clear -Hq. induction Hq as [|w l Hw _ IH]; constructor; auto.
    split; [split; auto|]. rewrite Hw. constructor.
Qed.
(** Left alone. *)
Lemma safe_alone : forall learns prev k, safe prev k -> pending (nb_bus k) = [] ->
  exists k' tr, nbackend_run pow2f expf (map (mkTurn []) learns) k = Ret (k', tr).
Proof.
  induction learns as [|c learns IH]; intros prev k Hsa Hpe; cbn [map nbackend_run tu_ops tu_learn run obind fst snd]; [eauto|].
  pose proof (safe_ops prev k [] (nb_bus k) [] c Hsa eq_refl eq_refl) as Hsa1.
  destruct (safe_step prev _ Hsa1) as (k2 & r & Es & Hsa2 & Hp2); [cbn [nb_bus]; rewrite Hpe; constructor|].
  cbn [nb_bus] in Es. rewrite Es. cbn [obind fst snd]. destruct (IH _ k2 Hsa2 Hp2) as (k' & tr & E). rewrite E. cbn [obind fst snd]. eauto.
Qed.
Lemma init_pending k : nbackend_init extra pops0 projs0 = Ret k -> pending (nb_bus k) = [].
Proof.
  intros H. unfold nbackend_init in H. match type of H with obind ?e _ = _ => destruct e as [[b tr]| |] eqn:E end; cbn [obind fst] in H; try discriminate.
  injection H as <-. cbn [nb_bus]. cbn [run exec obind fst snd] in E.
  match type of E with obind ?e _ = _ => destruct e as [[b1 tr1]| |] eqn:E1 end; cbn [obind fst snd] in E; try discriminate. injection E as -> _.
  assert (Hops : Forall (fun o => exists ty r ss, o = OSubscribe 0 ty r ss) (extra_ops extra ++ ninit_ops projs0)).
  { apply Forall_app. split; [|apply ninit_ops_subscribe]. unfold extra_ops. apply Forall_map, Forall_forall. intros s _. eauto. }
  assert (Hq : forall ops b b' t, Forall (fun o => exists ty r ss, o = OSubscribe 0 ty r ss) ops -> b_route b = [] -> Forall (fun e => e_send e = []) (b_eps b) ->
     run b ops = Ret (b', t) -> b_route b' = [] /\ Forall (fun e => e_send e = []) (b_eps b')).
  { clear. induction ops as [|o ops IH]; intros b b' t Hf H1 H2 H; cbn [run] in H; [injection H as <- <-; auto|].
    apply Forall_cons_iff in Hf as [(ty & r & ss & ->) Hf]. rewrite (exec_ep (OSubscribe 0 ty r ss) 0 b eq_refl) in H. unfold on_ep in H.
    destruct (ep_find 0 b) as [e|] eqn:Ee; cbn [obind ep_effect fst snd] in H; [|discriminate].
    destruct (run _ ops) as [[b2 t2]| |] eqn:Er; cbn [obind fst snd] in H; try discriminate. injection H as <- <-.
    apply (IH _ _ _ Hf) in Er; [exact Er|exact H1|]. unfold ep_put. cbn [b_eps]. apply Forall_forall. intros x Hx. apply in_map_iff in Hx as (y & <- & Hy).
    rewrite Forall_forall in H2. destruct (Nat.eqb _ _); [|now apply H2].
    assert (He : In e (b_eps b)) by (unfold ep_find in Ee; apply find_some in Ee; apply Ee). rewrite <- (H2 e He).
    unfold subscribe. destruct (sub_find _ _); reflexivity. }
  assert (H0 : Forall (fun e => e_send e = []) (b_eps (create_endpoint bus_init))) by (repeat constructor).
  destruct (Hq _ (create_endpoint bus_init) _ _ Hops eq_refl H0 E1) as [R1 R2]. unfold pending. rewrite R1. cbn [app].
  clear -R2. induction R2 as [|e l He _ IH]; cbn [filter]; [reflexivity|]. destruct (e_alive e); cbn [flat_map]; [|exact IH]. now rewrite He.
Qed.
(** A run whose outside messages do no harm leads to a safe state. *)
Lemma safe_run : forall turns prev k k' tr, safe prev k -> Forall (fun u => forallb outside (tu_ops u) = true) turns ->
  nbackend_run pow2f expf turns k = Ret (k', tr) -> (forall t r, nth_error tr t = Some r -> Forall (harmless extra pops0 projs0) (r_ext (nr_msgs r))) ->
  exists prev', safe prev' k'.
Proof.
  induction turns as [|u turns IH]; intros prev k k' tr Hsa Hf H Hh; cbn [nbackend_run] in H.
  - injection H as <- <-. eauto.
  - apply Forall_cons_iff in Hf as [Hops Hf].
    destruct (run (nb_bus k) (tu_ops u)) as [[b trb]| |] eqn:Er; cbn [obind fst] in H; try discriminate.
    pose proof (safe_ops prev k _ b trb (tu_learn u) Hsa Hops Er) as Hsa1.
    set (k1 := mkNB b (nb_pops k) (learn_all (tu_learn u) (nb_projs k)) (nb_step k)) in *. change (pending b) with (pending (nb_bus k1)) in H.
    destruct (nbackend_step pow2f expf (pending (nb_bus k1)) k1) as [[k2 r]| |] eqn:Es; cbn [obind fst snd] in H; try discriminate.
    destruct (nbackend_run pow2f expf turns k2) as [[k3 tr']| |] eqn:Eb; cbn [obind fst snd] in H; try discriminate.
    injection H as <- <-.
    destruct (nstep_eq pow2f expf extra projs0 (map fst pops0) (sn_projs _ _ Hsound) (sn_pops _ _ Hsound) prev k1 k2 r (sa_ready _ _ Hsa1) Es) as (_ & _ & X1 & _).
    destruct (safe_step prev k1 Hsa1) as (k2' & r' & Es' & Hsa2 & _). { rewrite <- X1. apply (Hh 0 r eq_refl). }
    rewrite Es in Es'. injection Es' as <- <-. apply (IH _ k2 k3 tr' Hsa2 Hf Eb). intros t r0 Ht. apply (Hh (S t) r0). exact Ht.
Qed.
End Safe.
