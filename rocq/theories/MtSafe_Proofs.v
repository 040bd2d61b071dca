(** A wired network has a next step on the multi-threaded backend. *)
From Verif Require Import Base ListLemmas Messaging_Model Messaging_Spec Messaging_Proofs Messaging_Proofs2 Projection_Model Projection_Proofs
  Delta_Model Delta_Spec Delta_Proofs Delta_Proofs2 Neuron_Model Neuron_Proofs2 Pipeline_Model Pipeline_Spec Pipeline_Proofs Pipeline_Proofs2 Stdp_Model Additive_Model Additive_Proofs Train_Model
  Net_Model Net_Spec Net_Proofs Net_Proofs2 Net_Proofs3 Net_Proofs4 Net_Proofs5 Safe_Spec Safe_Proofs Safe_Proofs2
  Mt_Model Mt_Spec Mt_Proofs Mt_Proofs2 Sched_Model MtNet_Model MtNet_Spec MtNet_Proofs MtNet_Proofs2 MtSafe_Spec.

(** ** The queue *)
Section Queue.
Variables (u : uid) (P : impact -> Prop).
Local Notation q_fit := (q_fit u P).
Lemma mt_schedule_fit h step key i q : ph_uid h = u -> P i -> q_fit q -> q_fit (mt_schedule h step key i q).
Proof.
  intros Hh Hi Hq. unfold mt_schedule. destruct (q_find key q); [now apply q_push_fit|]. apply Forall_app. split; [exact Hq|].
  constructor; [|constructor]. cbn [snd]. rewrite Hh. do 5 eexists. split; [reflexivity|auto].
Qed.
Lemma mt_merge_fit h step : ph_uid h = u -> forall c q, Forall (fun e => P (snd e)) c -> q_fit q -> q_fit (mt_merge h step c q).
Proof.
  intros Hh. unfold mt_merge. induction c as [|[k i] c IH]; intros q Hc Hq; cbn [fold_left]; [exact Hq|].
  apply Forall_cons_iff in Hc as [H1 Hc]. apply IH; [exact Hc|]. now apply mt_schedule_fit.
Qed.
Lemma mt_collect_fit step counts l : (forall i s c, nth_error l i = Some s -> count_find (sy_from s) counts = Some c -> P (mt_impact i s c)) ->
  forall n i, Forall (fun e => P (snd e)) (mt_collect step counts l i n).
Proof.
  intros Hl. induction n as [|n IH]; intros i; cbn [mt_collect]; [constructor|]. destruct (nth_error l i) as [s|] eqn:E; [|constructor].
  destruct (count_find (sy_from s) counts) as [c|] eqn:Ec; [|apply IH]. constructor; [cbn [snd]; eauto|apply IH].
Qed.
Lemma mt_parts_fit h step counts l : ph_uid h = u -> (forall i s c, nth_error l i = Some s -> count_find (sy_from s) counts = Some c -> P (mt_impact i s c)) ->
  forall o q, q_fit q -> q_fit (fold_left (mt_part h step counts l) o q).
Proof.
  intros Hh Hl. induction o as [|p o IH]; intros q Hq; cbn [fold_left]; [exact Hq|]. apply IH. unfold mt_part. apply mt_merge_fit; auto. now apply mt_collect_fit.
Qed.
Lemma mt_calculate_fit h step ms l o q q' m : ph_uid h = u ->
  (forall i s c, nth_error l i = Some s -> count_find (sy_from s) (convert_spikes (spikes_of (firstn 1 ms))) = Some c -> P (mt_impact i s c)) ->
  q_fit q -> mt_calculate h step ms l o q = (q', m) -> q_fit q' /\ Forall (msg_fit u P) (sent_msgs [m]).
Proof.
  intros Hh Hl Hq H. unfold mt_calculate in H.
  set (q1 := match ms with [] => q | m0 :: _ => fold_left (mt_part h step (convert_spikes (spikes_of [m0])) l) o q end) in *.
  assert (Hq1 : q_fit q1).
  { unfold q1. destruct ms as [|m0 ms]; [exact Hq|]. cbn [firstn] in Hl. now apply mt_parts_fit. }
  clearbody q1. destruct (q_find step q1) as [m1|] eqn:Ef; injection H as <- <-.
  - split.
    + unfold Safe_Proofs2.q_fit, q_erase in *. rewrite Forall_forall in *. intros x Hx. apply filter_In in Hx as [Hx _]. auto.
    + cbn [sent_msgs flat_map app]. constructor; [|constructor]. clear -Hq1 Ef.
      induction Hq1 as [|[k' m'] q Hm Hq IH]; cbn [q_find] in Ef; [discriminate|]. destruct (N.eqb step k'); [|auto].
      injection Ef as ->. exact Hm.
  - split; [exact Hq1|constructor].
Qed.
End Queue.
(** ** Populations *)
Lemma in_turn_alone pow2f step inbox : forall pops projs,
  in_turn pow2f step (map (fun e => inbox (fst e)) pops) pops projs = npops_alone pow2f step inbox pops projs.
Proof.
  induction pops as [|[u a] pops IH]; intros projs; cbn [in_turn map npops_alone fst]; [reflexivity|].
  destruct (npop_step pow2f u step (inbox u) a projs) as [[[a' projs1] o]| |]; cbn [obind]; try reflexivity. rewrite IH. reflexivity.
Qed.

Section Safe.
Variable pow2f : flt -> flt.
Variables (extra : list subscr) (pops0 : list (uid * npop)) (projs0 : list nproj) (pp pj : N).
Hypothesis Hsound : sound_network pops0 projs0.
Hypothesis Hwired : wired extra pops0 projs0.
Hypothesis Hvalid : weights_valid projs0.
Hypothesis Hpp : (0 < pp < two64)%N.
Local Notation proj_inv := (proj_inv extra pops0).
Local Notation harmless := (harmless extra pops0 projs0).

Lemma mt_syn_hits w0 w m0 i s c : In w0 projs0 -> syns w0 w -> single projs0 m0 ->
  In s (delta_synapses w) -> count_find (sy_from s) (convert_spikes (spikes_of [m0])) = Some c -> hits extra pops0 w (mt_impact i s c).
Proof.
  intros Hw0 Hs Hm Hin Hc u a Hu Hr. pose proof (syn_hits extra pops0 projs0 Hsound Hwired w0 w s Hw0 Hs Hin i u a Hu Hr) as Hf.
  destruct Hf as [H1 H2]. split; [exact H1|]. unfold mt_impact, impact_of in *. cbn [i_type i_value] in *.
  destruct (d_type (sy_params s)) eqn:Et.
  5:{ destruct Hs as [Hfx Hd].
      assert (E : map (fun s => (sy_from s, sy_to s, d_delay (sy_params s), d_type (sy_params s))) (delta_synapses w) =
                map (fun s => (sy_from s, sy_to s, d_delay (sy_params s), d_type (sy_params s))) (delta_synapses w0)) by (unfold fixed in Hfx; congruence).
      pose proof (in_map (fun s => (sy_from s, sy_to s, d_delay (sy_params s), d_type (sy_params s))) _ _ Hin) as Hin'. rewrite E in Hin'.
      apply in_map_iff in Hin' as (s0 & E0 & Hs0). assert (Et0 : d_type (sy_params s0) = BLOCKING) by congruence.
      apply (reaches_fixed extra w0) in Hr; [|now apply (fixed_uid w w0)|now apply fixed_post].
      destruct (wi_synapses _ _ _ Hwired u a w0 s0 Hu Hw0 Hr Hs0) as (_ & _ & Hk). destruct (Hk Et0) as (p & Ep).
      assert (Efo : np_forced w0 = true) by (unfold np_forced; now rewrite Ep). rewrite (Hd Efo) in Hin.
      destruct Hm as [Hm|Hm].
      - assert (Hc1 : c = 1%N). { assert (Hnd : NoDup (spikes_of [m0])) by (unfold spikes_of; cbn [flat_map]; destruct m0; cbn [distinct_spikes] in Hm; rewrite app_nil_r; [exact Hm|constructor]).
          rewrite convert_distinct in Hc by exact Hnd. destruct (mem _ _); congruence. }
        subst c. change (f_of_Z (Z.of_N 1)) with (f_of_Z 1). rewrite f_mul_one; [exact H2|].
        unfold weights_valid in Hvalid. rewrite Forall_forall in Hvalid. specialize (Hvalid w0 Hw0). rewrite Forall_forall in Hvalid. auto.
      - exfalso. rewrite Forall_forall in Hm. specialize (Hm w0 Hw0). rewrite Forall_forall in Hm. apply (Hm s Hin Et). }
  all: destruct a as [[?|?|?]|?|?]; cbn [takes] in *; try exact H2; try (intros; discriminate); (split; [apply H2|intros; discriminate]).
Qed.
Lemma mt_inv_step w0 w step ms o w' m : In w0 projs0 -> nproj_ok w -> loadable w -> proj_inv w0 w -> Forall (single projs0) ms ->
  mt_nproj step ms o w = Ret (w', m) -> proj_inv w0 w' /\ Forall (msg_fit (np_uid w) (hits extra pops0 w)) (sent_msgs [m]).
Proof.
  intros Hw0 Hok Hl [Hs Hq] Hms E. destruct (mt_nproj_spec step ms o w Hok Hl) as (w1 & m1 & E1 & _ & _ & _ & Hf & Hd & _ & _ & Hc & _).
  rewrite E in E1. injection E1 as <- <-.
  assert (Hfit : q_fit (np_uid w) (hits extra pops0 w) (np_queue w') /\ Forall (msg_fit (np_uid w) (hits extra pops0 w)) (sent_msgs [m])).
  { apply (mt_calculate_fit (np_uid w) (hits extra pops0 w) (np_head w) step ms (delta_synapses w) o (np_queue w) (np_queue w') m eq_refl); [|exact Hq|exact Hc]. intros i s c Hi Hcf. destruct ms as [|m0 ms]; [discriminate Hcf|]. cbn [firstn] in Hcf.
    apply Forall_cons_iff in Hms as [Hm0 _]. eapply mt_syn_hits; eauto using nth_error_In. }
  destruct Hfit as [Hq' Hm]. split; [|exact Hm]. split; [split|].
  - rewrite Hf. apply Hs.
  - intros H. rewrite Hd. now apply Hs.
  - assert (Eu : np_uid w' = np_uid w) by (now apply (fixed_uid w' w)). rewrite Eu.
    eapply Forall_impl; [|exact Hq']. intros e (t & pre & post & f & l & Ee & Hl'). do 5 eexists. split; [exact Ee|].
    eapply Forall_impl; [|exact Hl']. intros i Hi u a Hu Hr. apply (Hi u a Hu). eapply reaches_fixed; [exact Eu|now apply fixed_post|exact Hr].
Qed.

(** ** The next step *)
Record mt_safe (prev : list message) (k : nbackend) : Prop := mkMtSafe {
  ms_ready : mt_ready extra projs0 (map fst pops0) pops0 prev k;
  ms_pops : pops_like pops0 (nb_pops k);
  ms_projs : Forall2 proj_inv projs0 (nb_projs k);
  ms_prev : Forall harmless prev }.
Lemma in_combine_nth {A B} (R : A -> B -> Prop) : forall l l', length l = length l' ->
  (forall j a b, nth_error l j = Some a -> nth_error l' j = Some b -> R a b) -> Forall2 R l l'.
Proof.
  induction l as [|a l IH]; intros [|b l'] L H; try discriminate; constructor.
  - apply (H 0); reflexivity.
  - apply IH; [now injection L|]. intros j x y Hx Hy. apply (H (S j)); assumption.
Qed.
Lemma mt_safe_step s prev k : mt_safe prev k -> nsched_ok pp pj pops0 projs0 s ->
  Forall harmless (pending (nb_bus k)) -> Forall (single projs0) (pending (nb_bus k)) ->
  exists k' r, mt_nbackend_step pow2f s (pending (nb_bus k)) k = Ret (k', r) /\ r_ext (nr_msgs r) = pending (nb_bus k) /\
    mt_safe (pending (nb_bus k) ++ sent_msgs (r_proj_out (nr_msgs r))) k'.
Proof.
  intros [R Hp Hj Hprev] Hsch Hext Hsingle. pose proof (sn_projs _ _ Hsound) as Hpd. pose proof (sn_pops _ _ Hsound) as Hud.
  pose proof (mt_nstep_eq pow2f extra projs0 (map fst pops0) pops0 pp pj Hpd Hud Hpp s prev k R Hsch) as HS.
  destruct R as (RR & _ & Hld & _). destruct RR as [G Ho Hus Hsz Hhs Hok W0 W1].
  assert (Hkinds : kinds_ok (nb_projs k)) by (eapply Forall_impl; [|exact Hok]; intros w; apply proj1).
  rewrite (in_turn_alone pow2f (nb_step k) (mt_box extra projs0 prev)) in HS.
  destruct (npops_ret pow2f (nb_step k) (mt_box extra projs0 prev) pops0 (nb_pops k) (nb_projs k) Hp Hsz Hkinds) as (pops' & projs1 & pout & EP & Hp').
  { intros u a Hu. unfold mt_box. apply Forall_forall. intros m Hm. apply filter_In in Hm as [Hm Hto].
    rewrite Forall_forall in Hprev. exact (Hprev m Hm u a Hu Hto). }
  rewrite EP in HS. destruct HS as (k' & r & Es & MF & R' & X1 & X2 & X3 & X4 & X5 & X6).
  exists k', r. split; [exact Es|]. split; [exact X1|].
  assert (Hpk : pops_like pops0 (nb_pops k')).
  { rewrite X4. destruct (mf_turn _ _ _ _ _ _ _ _ _ MF) as (P & outs & HT & _). rewrite (mf_pin _ _ _ _ _ _ _ _ _ MF), X2, X3 in HT.
    rewrite (in_turn_alone pow2f (nb_step k) (mt_box extra projs0 prev)), EP in HT. injection HT as <- _ _. exact Hp'. }
  assert (Hj1 : Forall2 proj_inv projs0 (nr_trained r)).
  { pose proof (mf_train _ _ _ _ _ _ _ _ _ MF) as HTr. rewrite X3 in HTr. revert Hj HTr. generalize (nr_trained r). generalize (nb_projs k). intros l l' Hl Hr. clear -Hl Hr.
    eapply Forall2_trans3; [|exact Hl|exact Hr]. intros a b c H [K _]. eapply inv_kept; eauto. }
  assert (Hok1 := mf_ok1 _ _ _ _ _ _ _ _ _ MF). assert (Hld1 := mf_load1 _ _ _ _ _ _ _ _ _ MF).
  assert (Hlen : length (nr_projs' r) = length projs0).
  { pose proof (mf_hs' _ _ _ _ _ _ _ _ _ MF) as HH. apply (f_equal (@length _)) in HH. now rewrite !map_length in HH. }
  assert (Hlen1 : length (nr_trained r) = length projs0) by (symmetry; eapply Forall2_len; exact Hj1).
  assert (Hone : forall j w0 w, nth_error projs0 j = Some w0 -> nth_error (nr_trained r) j = Some w ->
     exists w' o, nth_error (nr_projs' r) j = Some w' /\ nth_error (r_proj_out (nr_msgs r)) j = Some o /\ proj_inv w0 w' /\ Forall harmless (sent_msgs [o])).
  { intros j w0 w Hw0 Hw. destruct (mf_projs _ _ _ _ _ _ _ _ _ MF j w Hw) as (w' & o & ord & _ & A2 & A3 & A4).
    destruct (F2_nth _ _ _ Hj1 j w0 Hw0) as (w1 & Hw1 & Hinv). assert (w1 = w) by congruence. subst w1.
    assert (Hin0 : In w0 projs0) by eauto using nth_error_In. rewrite Forall_forall in Hok1, Hld1.
    assert (Hmsgs : Forall (single projs0) (spikes_for extra r w)).
    { unfold spikes_for. apply Forall_forall. intros m Hm. apply filter_In in Hm as [Hm _]. apply in_app_or in Hm as [Hm|Hm].
      - left. pose proof (mf_distinct _ _ _ _ _ _ _ _ _ MF) as HD. rewrite Forall_forall in HD. auto.
      - rewrite X1 in Hm. rewrite Forall_forall in Hsingle. auto. }
    destruct (mt_inv_step w0 w _ _ ord w' o Hin0 (Hok1 w (nth_error_In _ _ Hw)) (Hld1 w (nth_error_In _ _ Hw)) Hinv Hmsgs A4) as [B1 B2].
    exists w', o. split; [exact A2|]. split; [exact A3|]. split; [exact B1|]. eapply Forall_impl; [|exact B2].
    intros m. apply (fit_harmless extra pops0 projs0 Hsound w0 w m Hin0). apply (proj1 Hinv). }
  assert (Htr : forall j w0, nth_error projs0 j = Some w0 -> exists w, nth_error (nr_trained r) j = Some w).
  { intros j w0 Hw0. destruct (F2_nth _ _ _ Hj1 j w0 Hw0) as (w & Hw & _). eauto. }
  split; [exact R'|exact Hpk| |].
  - rewrite X5. apply in_combine_nth; [now symmetry|]. intros j w0 w' Hw0 Hw'. destruct (Htr j w0 Hw0) as (w & Hw).
    destruct (Hone j w0 w Hw0 Hw) as (w2 & o & A1 & _ & A2 & _). congruence.
  - apply Forall_app. split; [exact Hext|]. apply Forall_forall. intros m Hm.
    unfold sent_msgs in Hm. apply in_flat_map in Hm as (o & Hino & Hm). apply In_nth_error in Hino as (j & Hjo).
    destruct (nth_error projs0 j) as [w0|] eqn:Ew0.
    + destruct (Htr j w0 Ew0) as (w & Hw). destruct (Hone j w0 w Ew0 Hw) as (w2 & o' & _ & A1 & _ & A2).
      assert (o' = o) by congruence. subst o'. rewrite Forall_forall in A2. apply A2. unfold sent_msgs. cbn [flat_map]. rewrite app_nil_r. exact Hm.
    + exfalso. apply nth_error_None in Ew0. rewrite <- Hlen1 in Ew0.
      assert (Hlo : length (r_proj_out (nr_msgs r)) = length (nr_trained r)).
      { clear -Es MF. unfold mt_nbackend_step in Es.
        destruct (unload_all 1 _ _) as [x| |]; cbn [obind] in Es; try discriminate. destruct (mt_fronts _ _ _ _) as [jobs| |]; cbn [obind] in Es; try discriminate.
        destruct (train_at _ _ _ _ _) as [y| |]; cbn [obind] in Es; try discriminate. destruct (send_all _ _) as [b1| |]; cbn [obind] in Es; try discriminate.
        destruct (route_receive_own _) as [b2| |]; cbn [obind] in Es; try discriminate. destruct (unload_all 0 _ _) as [z| |]; cbn [obind] in Es; try discriminate.
        destruct (mt_nprojs _ _ _ _) as [v| |] eqn:Ev; cbn [obind] in Es; try discriminate. destruct (send_all (snd v) _) as [b3| |]; cbn [obind] in Es; try discriminate.
        destruct (route_receive_own b3) as [b4| |]; cbn [obind] in Es; try discriminate. injection Es as _ <-. cbn [nr_msgs r_proj_out nr_trained] in *.
        assert (L1 : length (fst v) = length (snd v)).
        { clear -Ev. revert Ev. generalize (nb_step k) as st, (snd z) as a, (ns_projs s) as b, (snd y) as c. intros st a b c. revert a b v.
          induction c as [|w c IH]; intros [|ms a] [|o b] v H; cbn [mt_nprojs] in H; try (injection H as <-; reflexivity).
          destruct (mt_nproj st ms o w) as [q| |]; cbn [obind] in H; try discriminate. destruct (mt_nprojs st a b c) as [q2| |] eqn:E; cbn [obind] in H; try discriminate.
          injection H as <-. cbn [fst snd length]. f_equal. exact (IH _ _ _ E). }
        pose proof (mf_hs' _ _ _ _ _ _ _ _ _ MF) as A. pose proof (mf_hs1 _ _ _ _ _ _ _ _ _ MF) as B. cbn [nr_trained nr_projs'] in A, B.
        apply (f_equal (@length _)) in A, B. rewrite !map_length in A, B. congruence. }
      assert (Hn : nth_error (r_proj_out (nr_msgs r)) j <> None) by congruence. apply nth_error_Some in Hn. lia.
Qed.
Lemma mt_safe_ops prev k ops b x bs : mt_safe prev k -> forallb outside ops = true -> run (nb_bus k) ops = Ret (b, x) ->
  mt_safe prev (mkNB b (nb_pops k) (learn_all bs (nb_projs k)) (nb_step k)).
Proof.
  intros [R Hp Hj Hprev] Hops E. split; cbn [nb_pops nb_projs]; auto; [|now apply inv_learn].
  destruct R as (R & F & Hl & Hz). destruct R as [G Ho Hus Hsz Hhs Hok W0 W1]. destruct (outside_run _ ops (nb_bus k) b x G Hops E) as (G' & W & S').
  split; [|split; [|split]]; cbn [nb_bus nb_pops nb_projs]; [split; cbn [nb_bus nb_pops nb_projs]; auto; try congruence| | |exact Hz].
  - now rewrite learn_all_fixed.
  - now apply learn_all_ok.
  - intros w Hw. rewrite W. auto.
  - intros v Hv. rewrite W. auto.
  - exact (outside_run_front _ _ _ _ (g_ids _ _ G) F Hops E).
  - now apply learn_all_loadable.
Qed.
Lemma mt_safe_init k : Forall loadable projs0 -> nbackend_init extra pops0 projs0 = Ret k -> mt_safe [] k.
Proof.
  intros Hl E. destruct (mt_init_ready extra pops0 projs0 Hsound Hl) as (k1 & E1 & _ & _ & _ & R). rewrite E in E1. injection E1 as <-.
  destruct (safe_init extra pops0 projs0 Hsound Hwired k E) as [_ H1 H2 _]. split; [exact R|exact H1|exact H2|constructor].
Qed.
Lemma mt_safe_run : forall turns prev k k' tr, mt_safe prev k ->
  Forall (fun c => forallb outside (tu_ops (fst c)) = true /\ nsched_ok pp pj pops0 projs0 (snd c)) turns ->
  mt_nbackend_run pow2f turns k = Ret (k', tr) ->
  (forall t r, nth_error tr t = Some r -> Forall harmless (r_ext (nr_msgs r)) /\ Forall (single projs0) (r_ext (nr_msgs r))) ->
  exists prev', mt_safe prev' k'.
Proof.
  induction turns as [|[u s] turns IH]; intros prev k k' tr Hsa Hf H Hh; cbn [mt_nbackend_run] in H.
  - injection H as <- <-. eauto.
  - apply Forall_cons_iff in Hf as [[Hops Hsch] Hf]. cbn [fst snd] in Hops, Hsch.
    destruct (run (nb_bus k) (tu_ops u)) as [[b trb]| |] eqn:Er; cbn [obind fst] in H; try discriminate.
    pose proof (mt_safe_ops prev k _ b trb (tu_learn u) Hsa Hops Er) as Hsa1.
    set (k1 := mkNB b (nb_pops k) (learn_all (tu_learn u) (nb_projs k)) (nb_step k)) in *. change (pending b) with (pending (nb_bus k1)) in H.
    destruct (mt_nbackend_step pow2f s (pending (nb_bus k1)) k1) as [[k2 r]| |] eqn:Es; cbn [obind fst snd] in H; try discriminate.
    destruct (mt_nbackend_run pow2f turns k2) as [[k3 tr']| |] eqn:Eb; cbn [obind fst snd] in H; try discriminate.
    injection H as <- <-.
    assert (X1 : r_ext (nr_msgs r) = pending (nb_bus k1)).
    { pose proof (mt_nstep_eq pow2f extra projs0 (map fst pops0) pops0 pp pj (sn_projs _ _ Hsound) (sn_pops _ _ Hsound) Hpp s prev k1 (ms_ready _ _ Hsa1) Hsch) as HS.
      destruct (in_turn _ _ _ _ _); [|rewrite Es in HS; discriminate HS|rewrite Es in HS; discriminate HS].
      destruct HS as (k2' & r' & E & _ & _ & X & _). rewrite Es in E. injection E as _ <-. exact X. }
    destruct (Hh 0 r eq_refl) as [Ha Hb]. rewrite X1 in Ha, Hb.
    destruct (mt_safe_step s prev k1 Hsa1 Hsch Ha Hb) as (k2' & r' & Es' & _ & Hsa2).
    rewrite Es in Es'. injection Es' as <- <-. apply (IH _ k2 k3 tr' Hsa2 Hf Eb). intros t r0 Ht. apply (Hh (S t) r0). exact Ht.
Qed.
End Safe.
