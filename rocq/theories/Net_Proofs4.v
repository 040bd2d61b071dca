(** Runs of a network. *)
From Verif Require Import Base ListLemmas Messaging_Model Messaging_Spec Messaging_Proofs Messaging_Proofs2 Projection_Model Projection_Spec Projection_Proofs
  Delta_Model Delta_Spec Delta_Proofs Neuron_Model Pipeline_Model Pipeline_Spec Pipeline_Proofs Pipeline_Proofs2
  Stdp_Model Additive_Model Additive_Spec Additive_Proofs Train_Model Train_Proofs Net_Model Net_Spec Net_Proofs Net_Proofs2 Net_Proofs3.

Lemma fixed_uid w w' : fixed w = fixed w' -> np_uid w = np_uid w' /\ np_head w = np_head w' /\ stdp_pops w = stdp_pops w'.
Proof.
  unfold fixed, np_head. intros H.
  pose proof (f_equal (fun x => fst (fst (fst (fst (fst x))))) H) as H1. pose proof (f_equal (fun x => snd (fst (fst (fst (fst x))))) H) as H2.
  pose proof (f_equal (fun x => snd (fst (fst (fst x)))) H) as H3. pose proof (f_equal (fun x => snd (fst (fst x))) H) as H4.
  pose proof (f_equal (fun x => snd (fst x)) H) as H5. cbn [fst snd] in *. split; [exact H1|]. split; [congruence|exact H5].
Qed.
Lemma fixed_to extra w w' m : fixed w = fixed w' -> to_nproj extra w m = to_nproj extra w' m.
Proof.
  intros H. destruct (fixed_uid _ _ H) as (H1 & H2 & H3). unfold to_nproj. rewrite H1, H3.
  pose proof (f_equal ph_pre H2) as H4. cbn [np_head ph_pre] in H4. now rewrite H4.
Qed.
Lemma map_fixed_uid l l' : map fixed l = map fixed l' -> map np_uid l = map np_uid l' /\ map np_head l = map np_head l'.
Proof.
  revert l'. induction l as [|w l IH]; intros [|w' l'] H; cbn [map] in *; try discriminate; [auto|].
  assert (H1 : fixed w = fixed w') by (apply (f_equal (fun x => hd (fixed w) x)) in H; exact H).
  assert (H2 : map fixed l = map fixed l') by (apply (f_equal (@tl _)) in H; exact H).
  destruct (IH l' H2) as [-> ->]. destruct (fixed_uid _ _ H1) as (-> & -> & _). auto.
Qed.
Lemma fixed_In l l' w : map fixed l = map fixed l' -> In w l -> exists w0, In w0 l' /\ fixed w0 = fixed w.
Proof. intros H Hin. apply (in_map fixed) in Hin. rewrite H in Hin. apply in_map_iff in Hin as (w0 & E & Hin). eauto. Qed.
Lemma learn_all_spec (P : nproj -> nproj -> Prop) : (forall w, P w w) -> (forall w w' b, P w w' -> P w (set_lock b w')) ->
  forall bs projs, Forall2 P projs (learn_all bs projs).
Proof.
  intros Hr Hs bs projs. assert (H0 : Forall2 P projs projs) by (induction projs; constructor; auto). revert H0. unfold learn_all.
  assert (forall l, Forall2 P projs l -> Forall2 P projs (fold_left (fun ps on => learn on ps) bs l)); [|auto].
  induction bs as [|b bs IH]; intros l H; cbn [fold_left]; [exact H|]. apply IH. unfold learn. clear -H Hs. induction H; cbn [map]; constructor; auto.
Qed.
Lemma learn_all_fixed bs projs : map fixed (learn_all bs projs) = map fixed projs.
Proof.
  pose proof (learn_all_spec (fun w w' => fixed w' = fixed w) (fun w => eq_refl) (fun w w' b H => H) bs projs) as H.
  induction H; cbn [map]; congruence.
Qed.
Lemma learn_all_ok bs projs : Forall nproj_ok projs -> Forall nproj_ok (learn_all bs projs).
Proof.
  intros H0. pose proof (learn_all_spec (fun w w' => np_kind w' = np_kind w /\ np_queue w' = np_queue w) (fun w => conj eq_refl eq_refl) (fun w w' b H => H) bs projs) as H.
  induction H as [|w w' t t' [H1 H2] _ IH]; [constructor|]. apply Forall_cons_iff in H0 as [Ha Hb]. constructor; [|auto].
  unfold nproj_ok in *. now rewrite H1, H2.
Qed.

Section Run.
Variables pow2f expf : flt -> flt.
Variables (extra : list subscr) (projs0 : list nproj) (us : list uid).
Hypothesis Hpd : NoDup (map np_uid projs0).
Hypothesis Hud : NoDup us.
Local Notation S_ := (nS0 extra projs0).
Local Notation hs := (map np_head projs0).
Definition npop_box (prev ext : list message) (u : uid) : list message := filter (to_population hs extra u) (prev ++ ext).
Definition nproj_box (ext spikes : list message) (w : nproj) : list message := filter (to_nproj extra w) (ext ++ spikes).

Record nready (prev : list message) (k : nbackend) : Prop := mkNReady {
  nrd_good : good S_ (nb_bus k);
  nrd_own : own_sent (nb_bus k) = [];
  nrd_us : map fst (nb_pops k) = us;
  nrd_sizes : Forall (fun e => (N.of_nat (size (snd e)) <= two32)%N) (nb_pops k);
  nrd_hs : map fixed (nb_projs k) = map fixed projs0;
  nrd_ok : Forall nproj_ok (nb_projs k);
  nrd_w0 : forall w, In w projs0 -> waiting (nb_bus k) 0 (np_uid w) = [];
  nrd_w1 : forall u, In u us -> waiting (nb_bus k) 1 u = filter (to_population hs extra u) prev }.

(** What one step does. *)
Record step_facts (prev : list message) (n : N) (r : nrecord) : Prop := mkSF {
  sf_us : map fst (nr_pops r) = us;
  sf_us' : map fst (nr_pops' r) = us;
  sf_stdp : stdp_uids (nr_pops' r) = stdp_uids (nr_pops r);
  sf_ok : Forall nproj_ok (nr_projs r);
  sf_ok1 : Forall nproj_ok (nr_trained r);
  sf_ok' : Forall nproj_ok (nr_projs' r);
  sf_hs : map fixed (nr_projs r) = map fixed projs0;
  sf_hs1 : map fixed (nr_trained r) = map fixed projs0;
  sf_hs' : map fixed (nr_projs' r) = map fixed projs0;
  sf_train : Forall2 (projs_result (stdp_uids (nr_pops r))) (nr_projs r) (nr_trained r);
  sf_pops : forall i u a, nth_error (nr_pops r) i = Some (u, a) -> exists a' o,
    nth_error (r_pop_in (nr_msgs r)) i = Some (npop_box prev (r_ext (nr_msgs r)) u) /\
    nth_error (nr_pops' r) i = Some (u, a') /\ nth_error (r_pop_out (nr_msgs r)) i = Some o /\
    pop_result pow2f u n (npop_box prev (r_ext (nr_msgs r)) u) (nr_projs r) (nr_trained r) a a' o;
  sf_projs : forall j w, nth_error (nr_trained r) j = Some w -> exists w' o,
    nth_error (r_proj_in (nr_msgs r)) j = Some (nproj_box (r_ext (nr_msgs r)) (sent_msgs (r_pop_out (nr_msgs r))) w) /\
    nth_error (nr_projs' r) j = Some w' /\ nth_error (r_proj_out (nr_msgs r)) j = Some o /\
    nproj_step expf n (nproj_box (r_ext (nr_msgs r)) (sent_msgs (r_pop_out (nr_msgs r))) w) w = Ret (w', o) }.

Lemma kept_all_fixed us' l l' : Forall2 (projs_result us') l l' -> map fixed l' = map fixed l.
Proof. induction 1 as [|w w' t t' [K _] _ IH]; cbn [map]; [reflexivity|]. rewrite IH. f_equal. now apply kept_fixed. Qed.
Lemma kept_all_ok us' l l' : Forall2 (projs_result us') l l' -> Forall nproj_ok l -> kinds_ok l' -> Forall nproj_ok l'.
Proof.
  induction 1 as [|w w' t t' [K _] _ IH]; intros H Hk; [constructor|]. apply Forall_cons_iff in H as [H1 H2]. apply Forall_cons_iff in Hk as [K1 K2].
  constructor; [|auto]. destruct K as (_ & _ & _ & _ & K5 & _). split; [exact K1|]. rewrite K5. apply H1.
Qed.

Lemma nstep_eq prev k k' r : nready prev k -> nbackend_step pow2f expf (pending (nb_bus k)) k = Ret (k', r) ->
  step_facts prev (nb_step k) r /\ nready (sent_msgs (r_proj_out (nr_msgs r))) k' /\
  r_ext (nr_msgs r) = pending (nb_bus k) /\ nr_pops r = nb_pops k /\ nr_projs r = nb_projs k /\
  nb_pops k' = nr_pops' r /\ nb_projs k' = nr_projs' r /\ nb_step k' = add64 (nb_step k) 1.
Proof.
  intros R H. destruct R as [G Ho Hus Hsz Hhs Hok W0 W1]. remember (pending (nb_bus k)) as ext eqn:Eext.
  unfold nbackend_step in H.
  destruct (route_good S_ (nb_bus k) G) as (b1 & E1 & G1 & O1 & S1 & P1 & R1). rewrite E1 in H. cbn [obind] in H. rewrite <- Eext in R1.
  assert (B1 : forall u, In u us -> waiting b1 1 u = npop_box prev ext u).
  { intros u Hu. rewrite R1, (W1 u Hu). unfold npop_box. rewrite filter_app. f_equal.
    apply filter_ext. intros m. apply nS0_population. }
  assert (B0 : forall w, In w projs0 -> waiting b1 0 (np_uid w) = filter (to_nproj extra w) ext).
  { intros w Hw. rewrite R1, (W0 w Hw). cbn [app]. apply filter_ext. intros m. now apply nS0_projection. }
  assert (Hnd : NoDup (map fst (nb_pops k))) by (rewrite Hus; exact Hud).
  pose proof (npops_phase_eq pow2f S_ (nb_step k) (nb_pops k) (nb_projs k) b1 G1 O1 Hnd) as HP.
  rewrite (npops_alone_ext pow2f (nb_step k) (waiting b1 1) (npop_box prev ext)) in HP by (intros u Hu; apply B1; congruence).
  destruct (npops_alone pow2f (nb_step k) (npop_box prev ext) (nb_pops k) (nb_projs k)) as [[[pops' projs1] pout]| |] eqn:EP.
  2,3: rewrite HP in H; discriminate.
  destruct HP as (b2 & E2 & G2 & O2 & S2 & Z2 & Y2). rewrite E2 in H. cbn [obind] in H.
  assert (Hkinds : kinds_ok (nb_projs k)) by (eapply Forall_impl; [|exact Hok]; intros w; apply proj1).
  destruct (npops_facts pow2f (nb_step k) (npop_box prev ext) _ _ _ _ _ Hnd Hsz Hkinds EP) as (F1 & F2 & F2' & Hsp & F4 & F5 & _ & F7).
  pose proof (kept_all_ok _ _ _ F5 Hok F4) as Hok1. pose proof (kept_all_fixed _ _ _ F5) as Hfx1. rewrite Hhs in Hfx1.
  destruct (route_good S_ b2 G2) as (b3 & E3 & G3 & O3 & S3 & P3 & R3). rewrite E3 in H. cbn [obind] in H.
  rewrite (own_pending b2 (g_ids S_ b2 G2) O2), S2, S1 in R3. cbn [app] in R3.
  assert (B3 : forall w, In w projs1 -> waiting b3 0 (np_uid w) = nproj_box ext (sent_msgs pout) w).
  { intros w Hw. destruct (fixed_In projs1 projs0 w Hfx1 Hw) as (w0 & Hw0 & Ew).
    destruct (fixed_uid _ _ Ew) as (Eu & _ & _). rewrite <- Eu, R3, Z2, (B0 w0 Hw0). unfold nproj_box. rewrite filter_app. f_equal.
    - apply filter_ext. intros m. now apply fixed_to.
    - apply filter_ext. intros m. rewrite <- (fixed_to extra w0 w m Ew). now apply nS0_projection. }
  destruct (map_fixed_uid _ _ Hfx1) as [Hu1 Hh1].
  assert (Hnd' : NoDup (map np_uid projs1)) by (rewrite Hu1; exact Hpd).
  pose proof (nprojs_phase_eq expf S_ (nb_step k) projs1 b3 G3 O3 Hnd') as HQ.
  rewrite (nprojs_alone_ext expf (nb_step k) _ (nproj_box ext (sent_msgs pout)) projs1 B3) in HQ.
  destruct (nprojs_facts expf (nb_step k) (nproj_box ext (sent_msgs pout)) projs1 Hok1) as (projs' & jout & EQ & K1 & K2 & K3 & K4).
  rewrite EQ in HQ. destruct HQ as (b4 & E4 & G4 & O4 & S4 & Z4 & Y4). rewrite E4 in H. cbn [obind] in H.
  destruct (route_good S_ b4 G4) as (b5 & E5 & G5 & O5 & S5 & P5 & R5). rewrite E5 in H. cbn [obind] in H.
  rewrite (own_pending b4 (g_ids S_ b4 G4) O4), S4, S3 in R5. cbn [app] in R5.
  injection H as <- <-. cbn [nr_msgs nr_pops nr_projs nr_trained nr_pops' nr_projs' r_ext r_proj_out nb_pops nb_projs nb_step].
  split; [|split; [|auto 10]].
  - split; cbn [nr_msgs nr_pops nr_projs nr_trained nr_pops' nr_projs' r_ext r_pop_in r_pop_out r_proj_in r_proj_out]; auto; try congruence.
    + intros i u a Hi. destruct (F7 i u a Hi) as (a' & o & H1 & H2 & H3). exists a', o. split; [|auto].
      rewrite nth_error_map, Hi. cbn [option_map fst]. f_equal. apply B1. rewrite <- Hus. apply nth_error_In in Hi. exact (in_map fst _ _ Hi).
    + intros j w Hj. destruct (K4 j w Hj) as (w' & o & H1 & H2 & H3). exists w', o. split; [|auto].
      rewrite nth_error_map, Hj. cbn [option_map]. f_equal. apply B3. eapply nth_error_In; eauto.
  - split; cbn [nb_bus nb_pops nb_projs]; auto; try congruence.
    + clear -F2 Hsz. revert pops' F2. induction Hsz as [|e l He Hl IH]; intros [|e' l'] E; cbn [map] in E; try discriminate; constructor;
        injection E as E1 E2; auto. cbn beta. now rewrite E1.
    + intros w Hw. rewrite R5, Y4, impact_not_wanted by exact K2. rewrite app_nil_r.
      assert (Hm : mem (np_uid w) (map np_uid projs1) = true) by (apply mem_In; rewrite Hu1; now apply in_map).
      now rewrite Hm.
    + intros u Hu. rewrite R5, Z4, R3, Y2.
      assert (Hm : mem u (map fst (nb_pops k)) = true) by (apply mem_In; now rewrite Hus).
      rewrite Hm, spike_not_wanted by exact Hsp. cbn [app]. apply filter_ext. intros m. apply nS0_population.
Qed.

(** ** Runs *)
Definition nbefore (prev : list message) (tr : list nrecord) (t : nat) : list message :=
  match t with 0 => prev | S _ => sent_before (map nr_msgs tr) t end.
Lemma nrun_facts : forall turns prev k k' tr, nready prev k -> Forall (fun u => forallb outside (tu_ops u) = true) turns ->
  nbackend_run pow2f expf turns k = Ret (k', tr) -> (nb_step k < two64)%N ->
  length tr = length turns /\
  (forall t r u, nth_error tr t = Some r -> nth_error turns t = Some u ->
     step_facts (nbefore prev tr t) ((nb_step k + N.of_nat t) mod two64) r /\
     nr_pops r = fst (after tr (nb_pops k) (nb_projs k) t) /\
     nr_projs r = learn_all (tu_learn u) (snd (after tr (nb_pops k) (nb_projs k) t))) /\
  (nb_pops k', nb_projs k') = after tr (nb_pops k) (nb_projs k) (length tr) /\ nready (nbefore prev tr (length tr)) k'.
Proof.
  induction turns as [|u turns IH]; intros prev k k' tr R Hf H Hlt; cbn [nbackend_run] in H.
  - injection H as <- <-. split; [reflexivity|]. split; [|auto]. intros t r u Ht. destruct t; discriminate.
  - apply Forall_cons_iff in Hf as [Hops Hf].
    destruct (run (nb_bus k) (tu_ops u)) as [[b trb]| |] eqn:Er; cbn [obind fst] in H; try discriminate.
    set (k1 := mkNB b (nb_pops k) (learn_all (tu_learn u) (nb_projs k)) (nb_step k)) in *.
    assert (R1 : nready prev k1).
    { destruct R as [G Ho Hus Hsz Hhs Hok W0 W1]. destruct (outside_run S_ (tu_ops u) (nb_bus k) b trb G Hops Er) as (G' & W & S').
      split; cbn [k1 nb_bus nb_pops nb_projs]; auto; try congruence.
      - now rewrite learn_all_fixed.
      - now apply learn_all_ok.
      - intros w Hw. rewrite W. auto.
      - intros v Hv. rewrite W. auto. }
    change (pending b) with (pending (nb_bus k1)) in H.
    destruct (nbackend_step pow2f expf (pending (nb_bus k1)) k1) as [[k2 r]| |] eqn:Es; cbn [obind fst snd] in H; try discriminate.
    destruct (nbackend_run pow2f expf turns k2) as [[k3 tr']| |] eqn:Eb; cbn [obind fst snd] in H; try discriminate.
    injection H as <- <-.
    destruct (nstep_eq prev k1 k2 r R1 Es) as (SF & R2 & X1 & X2 & X3 & X4 & X5 & X6).
    assert (Hlt2 : (nb_step k2 < two64)%N). { rewrite X6. unfold add64, w64. apply N.mod_lt. discriminate. }
    destruct (IH _ k2 k3 tr' R2 Hf Eb Hlt2) as (L & IS & IE & IR). cbn [length].
    split; [congruence|]. split; [|split].
    + intros t r0 u0 Ht Hu. destruct t as [|t]; cbn [nth_error] in Ht, Hu.
      * injection Ht as <-. injection Hu as <-. cbn [nbefore N.of_nat after fst snd]. rewrite N.add_0_r, N.mod_small by exact Hlt.
        split; [exact SF|]. auto.
      * destruct (IS t r0 u0 Ht Hu) as (H1 & H2 & H3).
        assert (Hafter : after (r :: tr') (nb_pops k) (nb_projs k) (S t) = after tr' (nb_pops k2) (nb_projs k2) t).
        { cbn [after nth_error]. destruct t as [|t]; cbn [after nth_error]; [now rewrite X4, X5|].
          destruct (nth_error tr' t) eqn:Et; [reflexivity|]. apply nth_error_None in Et.
          assert (nth_error tr' (S t) <> None) as Hn by congruence. apply nth_error_Some in Hn. lia. }
        rewrite Hafter. split; [|auto].
        assert (Hb : nbefore prev (r :: tr') (S t) = nbefore (sent_msgs (r_proj_out (nr_msgs r))) tr' t).
        { unfold nbefore. cbn [sent_before map nth_error]. destruct t as [|t]; cbn [nth_error sent_before]; reflexivity. }
        rewrite Hb. replace ((nb_step k + N.of_nat (S t)) mod two64)%N with ((nb_step k2 + N.of_nat t) mod two64)%N; [exact H1|].
        rewrite X6. cbn [k1 nb_step]. unfold add64, w64. change (2 ^ 64)%N with two64. rewrite N.add_mod_idemp_l by discriminate. f_equal. lia.
    + rewrite IE. cbn [after nth_error]. destruct (length tr') as [|n] eqn:El.
      * destruct tr'; [|discriminate]. cbn [after]. now rewrite X4, X5.
      * cbn [after nth_error]. destruct (nth_error tr' n) eqn:En; [reflexivity|]. apply nth_error_None in En. lia.
    + assert (Hb : nbefore prev (r :: tr') (S (length tr')) = nbefore (sent_msgs (r_proj_out (nr_msgs r))) tr' (length tr')).
      { unfold nbefore. cbn [sent_before map nth_error]. destruct (length tr'); cbn [nth_error sent_before]; reflexivity. }
      rewrite Hb. exact IR.
Qed.
End Run.

(** ** The initial state *)
Lemma ninit_ops_subscribe projs : Forall (fun o => exists ty r ss, o = OSubscribe 0 ty r ss) (ninit_ops projs).
Proof.
  unfold ninit_ops, ninit_proj. induction projs as [|w t IH]; cbn [flat_map]; [constructor|].
  apply Forall_app. split; [|exact IH]. apply Forall_app. split; [|apply Forall_app; split; destruct (N.eqb _ 0); repeat constructor; eauto].
  induction (stdp_pops w) as [|e l IHl]; cbn [flat_map]; [constructor|]. apply Forall_app. split; [|exact IHl].
  destruct (N.eqb _ 0); repeat constructor; eauto.
Qed.
Lemma nbackend_init_ready extra pops projs : sound_network pops projs ->
  exists k, nbackend_init extra pops projs = Ret k /\ nb_pops k = pops /\ nb_projs k = projs /\ nb_step k = 0%N /\
    nready extra projs (map fst pops) [] k.
Proof.
  intros [_ _ Hk Hq Hs]. unfold nbackend_init.
  destruct (init_run (extra_ops extra ++ ninit_ops projs) (create_endpoint bus_init) (mkEp 0 true [] [] [] [])) as (b & tr & e & E & Hi & He & Hc & Hr & Hse & Hm); try reflexivity.
  - eapply (ids_ok_exec bus_init OCreate); [apply ids_ok_init|reflexivity].
  - intros k s. cbn [e_subs sub_find]. discriminate.
  - intros k s. cbn [e_subs sub_find]. discriminate.
  - apply Forall_app. split; [|apply ninit_ops_subscribe]. unfold extra_ops. apply Forall_map, Forall_forall. intros s _. eauto.
  - assert (E' : run bus_init (OCreate :: extra_ops extra ++ ninit_ops projs) = Ret (b, (OCreate, OutUnit) :: tr)).
    { cbn [run exec obind fst snd]. rewrite E. reflexivity. }
    rewrite E'. cbn [obind fst]. eexists. split; [reflexivity|]. cbn [nb_pops nb_projs nb_step].
    split; [reflexivity|]. split; [reflexivity|]. split; [reflexivity|]. split; cbn [nb_bus nb_pops nb_projs]; auto.
    + split.
      * exact Hi.
      * exists e. auto.
      * intros ty r. apply (senders_run _ _ _ 0 ty r E').
    + unfold own_sent. now rewrite He.
    + rewrite Forall_forall in *. intros w Hw. split; [|rewrite (Hq w Hw); constructor].
      specialize (Hk w Hw). destruct (np_kind w); cbn [sound_kind kind_ok] in *; now apply sound_ok.
    + intros w Hw. unfold waiting. rewrite He. destruct (sub_find _ _) eqn:Es; [eauto|reflexivity].
    + intros u Hu. unfold waiting. rewrite He. cbn [filter]. destruct (sub_find _ _) eqn:Es; [eauto|reflexivity].
Qed.

Lemma net_run_facts pow2f expf extra pops projs turns k tr : sound_network pops projs ->
  Forall (fun u => forallb outside (tu_ops u) = true) turns -> net_run pow2f expf extra pops projs turns k tr ->
  length tr = length turns /\
  (forall t r u, nth_error tr t = Some r -> nth_error turns t = Some u ->
     step_facts pow2f expf extra projs (map fst pops) (sent_before (map nr_msgs tr) t) (N.of_nat t mod two64) r /\
     nr_pops r = fst (after tr pops projs t) /\ nr_projs r = learn_all (tu_learn u) (snd (after tr pops projs t))) /\
  (nb_pops k, nb_projs k) = after tr pops projs (length tr) /\
  nready extra projs (map fst pops) (sent_before (map nr_msgs tr) (length tr)) k.
Proof.
  intros Hs Hf (k0 & Hi & Hr). destruct (nbackend_init_ready extra pops projs Hs) as (k1 & E & E1 & E2 & E3 & R).
  rewrite Hi in E. injection E as <-.
  destruct (nrun_facts pow2f expf extra projs (map fst pops) (sn_projs _ _ Hs) (sn_pops _ _ Hs) turns [] k0 k tr R Hf Hr) as (L & F & X & RR).
  { rewrite E3. reflexivity. }
  rewrite E1, E2, E3 in *. split; [exact L|]. split; [|split; [exact X|]].
  - intros t r u Ht Hu. destruct (F t r u Ht Hu) as (F1 & F2 & F3). split; [|auto]. unfold nbefore in F1. destruct t; exact F1.
  - unfold nbefore in RR. destruct (length tr); exact RR.
Qed.
