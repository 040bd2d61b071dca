(** Weights stay numbers of the format, and the outputs of the projections on the
    multi-threaded backend. *)
From Verif Require Import Base ListLemmas.
From Flocq Require Import BinarySingleNaN.
From Verif Require Import FloatReal Messaging_Model Messaging_Spec Projection_Model Projection_Spec Projection_Proofs
  Delta_Model Delta_Spec Delta_Proofs Delta_Proofs2 Neuron_Model Pipeline_Model Pipeline_Spec Pipeline_Proofs Pipeline_Proofs2
  Stdp_Model Additive_Model Additive_Spec Additive_Proofs Additive_Proofs2 Train_Model Train_Proofs Net_Model Net_Spec Net_Proofs Net_Proofs2 Net_Proofs3 Net_Proofs4 Net_Proofs5
  Mt_Model Mt_Spec Mt_Proofs Mt_Proofs2 Sched_Model Sched_Proofs MtNet_Model MtNet_Spec MtNet_Proofs MtNet_Proofs2.

Lemma div_valid a b : valid_binary 24 128 (f_div a b) = true.
Proof.
  unfold f_div. destruct a as [sa|sa| |sa ma ea], b as [sb|sb| |sb mb eb]; try reflexivity.
  cbn [SFdiv]. pose proof (Bdiv_correct_aux 24 128 Q24 R128 mode_NE sa ma ea sb mb eb) as (H & _). revert H.
  destruct (SFdiv_core_binary _ _ _ _ _ _) as [[mz ez] lz]. now rewrite (aux_equiv 24 128).
Qed.
Lemma weight_valid wmin wmax res : valid_binary 24 128 wmin = true -> valid_binary 24 128 (weight_f wmin wmax res) = true.
Proof. intros H. unfold weight_f. apply add_valid; [exact H|apply div_valid]. Qed.

(** ** Training preserves *)
Definition num_params (s : rparams) : Prop := valid_binary 24 128 (d_weight (rp_delta s)) = true /\ valid_binary 24 128 (rr_min (rp_rule s)) = true.
Definition num_proj (p : rproj) : Prop := Forall (fun s => num_params (sy_params s)) (p_syn p).
Lemma put_all {A} (P : A -> Prop) x : forall l k, Forall P l -> P x -> Forall P (put k x l).
Proof.
  induction l as [|y l IH]; intros k H Hx; [destruct k; constructor|]. apply Forall_cons_iff in H as [H1 H2]. destruct k; cbn [put]; constructor; auto.
Qed.
Lemma each_num g : (forall n s, num_params s -> num_params (snd (g n s))) -> forall refs n ps n' ps',
  Forall num_proj ps -> each_ref g refs n ps = Ret (n', ps') -> Forall num_proj ps'.
Proof.
  intros Hg. induction refs as [|[k j] refs IH]; intros n ps n' ps' H E; cbn [each_ref] in E; [now injection E as _ <-|].
  destruct (nth_error ps k) as [p|] eqn:E1; [|discriminate]. destruct (nth_error (p_syn p) j) as [s|] eqn:E2; [|discriminate].
  assert (Hp : num_proj p) by (rewrite Forall_forall in H; apply H; eapply nth_error_In; eauto).
  assert (Hs : num_params (sy_params s)) by (unfold num_proj in Hp; rewrite Forall_forall in Hp; apply Hp; eapply nth_error_In; eauto).
  specialize (Hg n (sy_params s) Hs). destruct (g n (sy_params s)) as [n1 r]. cbn [snd] in Hg.
  eapply IH; [|exact E]. apply put_all; [exact H|]. unfold num_proj. cbn [p_syn]. apply put_all; [exact Hp|exact Hg].
Qed.
Lemma find_num i (p : rproj) : num_proj p -> num_proj (fst (find_synapses ByPost i p)).
Proof.
  intros H. unfold find_synapses, num_proj in *. cbn [fst]. unfold reindex. destruct (p_updated p); exact H.
Qed.
Lemma connected_num i : forall ps k, Forall num_proj ps -> Forall num_proj (fst (connected_from k i ps)).
Proof.
  induction ps as [|p ps IH]; intros k H; cbn [connected_from]; [constructor|]. apply Forall_cons_iff in H as [H1 H2].
  pose proof (find_num i p H1) as H3. destruct (find_synapses ByPost i p) as [p' idx].
  specialize (IH (S k) H2). destruct (connected_from (S k) i ps) as [t' refs]. cbn [fst] in *. auto.
Qed.
Section Train.
Variable pow2f : flt -> flt.
Lemma recalc_num n s : num_params s -> num_params (snd (recalc_f n s)).
Proof. intros [H1 H2]. split; [|exact H2]. cbn [recalc_f snd with_weight rp_delta d_weight]. now apply weight_valid. Qed.
Lemma mark_num step n s : num_params s -> num_params (snd (mark_f step n s)).
Proof. intros H. unfold mark_f. cbn [snd]. destruct (_ || _); exact H. Qed.
Lemma hebb_num n s : num_params s -> num_params (snd (hebb_f pow2f n s)).
Proof. intros H. unfold hebb_f. destruct (_ && _); exact H. Qed.
Lemma reward_num step n s : num_params s -> num_params (snd (reward_f pow2f step n s)).
Proof. intros H. unfold reward_f. destruct (_ && _); exact H. Qed.
Definition keeps (f : N -> tview -> list rproj -> outcome (tview * list rproj)) : Prop :=
  forall i n ps n' ps', Forall num_proj ps -> f i n ps = Ret (n', ps') -> Forall num_proj ps'.
Lemma spiking_num step : keeps (spiking_f pow2f step).
Proof.
  intros i n ps n' ps' H E. unfold spiking_f, connected_refs in E. pose proof (connected_num i ps 0 H) as H0.
  destruct (connected_from 0 i ps) as [ps0 refs]. cbn [fst] in H0.
  destruct (each_ref (mark_f step) _ _ _) as [[n1 ps1]| |] eqn:E1; cbn [obind fst snd] in E; try discriminate.
  assert (H1 : Forall num_proj ps1) by (eapply each_num; [apply mark_num|exact H0|exact E1]).
  match type of E with obind ?x _ = _ => destruct x as [[n2 ps2]| |] eqn:E2 end; cbn [obind fst snd] in E; try discriminate.
  assert (H2 : Forall num_proj ps2).
  { match type of E2 with (if ?b then _ else _) = _ => destruct b end; [|injection E2 as _ <-; exact H1]. eapply each_num; [|exact H1|exact E2]. intros m s Hs. exact Hs. }
  match type of E with obind ?x _ = _ => destruct x as [[n3 ps3]| |] eqn:E3 end; cbn [obind fst snd] in E; try discriminate.
  assert (H3 : Forall num_proj ps3).
  { match type of E3 with (if ?b then _ else _) = _ => destruct b end; [|injection E3 as _ <-; exact H2]. eapply each_num; [apply hebb_num|exact H2|exact E3]. }
  eapply each_num; [apply recalc_num|exact H3|exact E].
Qed.
Lemma dopamine_num step : keeps (dopamine_f pow2f step).
Proof.
  intros i n ps n' ps' H E. unfold dopamine_f, connected_refs in E. destruct (_ || _); [|injection E as _ <-; exact H].
  pose proof (connected_num i ps 0 H) as H0. destruct (connected_from 0 i ps) as [ps0 refs]. cbn [fst] in H0.
  destruct (each_ref (reward_f pow2f step) _ _ _) as [[n1 ps1]| |] eqn:E1; cbn [obind fst snd] in E; try discriminate.
  assert (H1 : Forall num_proj ps1) by (eapply each_num; [apply reward_num|exact H0|exact E1]).
  eapply each_num; [apply recalc_num|exact H1|exact E].
Qed.
Lemma renorm_num step : keeps (renorm_f step).
Proof.
  intros i n ps n' ps' H E. unfold renorm_f, connected_refs in E. destruct (_ && _); [injection E as _ <-; exact H|].
  destruct (f_lt _ _); [injection E as _ <-; exact H|].
  pose proof (connected_num i ps 0 H) as H0. destruct (connected_from 0 i ps) as [ps0 refs]. cbn [fst] in H0.
  destruct (each_ref (give_f _) _ _ _) as [[n1 ps1]| |] eqn:E1; cbn [obind fst snd] in E; try discriminate.
  assert (H1 : Forall num_proj ps1) by (eapply each_num; [|exact H0|exact E1]; intros m s Hs; exact Hs).
  eapply each_num; [apply recalc_num|exact H1|exact E].
Qed.
Lemma for_num f : keeps f -> forall idx s s', Forall num_proj (snd s) -> for_neurons_f f idx s = Ret s' -> Forall num_proj (snd s').
Proof.
  intros Hf. induction idx as [|i idx IH]; intros s s' H E; cbn [for_neurons_f] in E; [now injection E as <-|].
  unfold on_neuron_f in E. destruct (nth_error (fst s) i) as [n|]; [|discriminate]. cbn [obind] in E.
  destruct (f (N.of_nat i) n (snd s)) as [[n1 ps1]| |] eqn:E1; cbn [obind] in E; try discriminate. eapply IH; [|exact E]. eapply Hf; eauto.
Qed.
Lemma train_num step spikes s s' : Forall num_proj (snd s) -> train_f pow2f step spikes s = Ret s' -> Forall num_proj (snd s').
Proof.
  intros H E. unfold train_f in E.
  destruct (for_neurons_f (spiking_f pow2f step) _ _) as [s1| |] eqn:E1; cbn [obind] in E; try discriminate.
  destruct (for_neurons_f (dopamine_f pow2f step) _ _) as [s2| |] eqn:E2; cbn [obind] in E; try discriminate.
  eapply for_num; [apply renorm_num| |exact E]. eapply for_num; [apply dopamine_num| |exact E2]. eapply for_num; [apply spiking_num|exact H|exact E1].
Qed.

Lemma works_num u projs : Forall numeric projs -> Forall num_proj (works u projs).
Proof.
  intros H. unfold works. induction H as [|w projs [H1 H2] _ IH]; cbn [flat_map]; [constructor|]. apply Forall_app. split; [|exact IH].
  unfold working, delta_synapses, resource_synapses in *. destruct (np_kind w) as [p|l p|l p]; [constructor|constructor|].
  destruct (_ && _); [|constructor]. constructor; [|constructor]. unfold num_proj. apply Forall_map in H1.
  rewrite Forall_forall in *. intros s Hs. split; [exact (H1 s Hs)|exact (H2 s Hs)].
Qed.
Lemma put_back_num u : forall projs ps, Forall numeric projs -> Forall num_proj ps -> Forall numeric (put_back u projs ps).
Proof.
  induction projs as [|w projs IH]; intros ps H Hp; cbn [put_back]; [constructor|]. apply Forall_cons_iff in H as [H1 H2].
  destruct (working u w) as [p0|] eqn:Ew; [|constructor; auto]. destruct ps as [|p ps]; [constructor; auto|].
  apply Forall_cons_iff in Hp as [P1 P2]. constructor; [|auto]. unfold working in Ew. unfold set_rproj.
  destruct (np_kind w) as [q|l q|l q] eqn:Ek; try discriminate. unfold numeric, delta_synapses, resource_synapses. cbn [np_with np_kind].
  unfold num_proj in P1. split; [apply Forall_map|]; (eapply Forall_impl; [|exact P1]); intros s [Hs1 Hs2]; assumption.
Qed.
Lemma stdp_train_num {A} (view : A -> tview) write u step spikes ns projs r : Forall numeric projs ->
  stdp_train pow2f view write u step spikes ns projs = Ret r -> Forall numeric (snd r).
Proof.
  intros H E. unfold stdp_train in E. destruct (train_f pow2f step spikes _) as [s| |] eqn:E1; cbn [obind] in E; try discriminate.
  injection E as <-. cbn [snd]. apply put_back_num; [exact H|]. eapply train_num; [|exact E1]. cbn [snd]. now apply works_num.
Qed.
Lemma npop_step_num u step ms a projs a' projs' o : Forall numeric projs -> npop_step pow2f u step ms a projs = Ret (a', projs', o) -> Forall numeric projs'.
Proof.
  intros H E. unfold npop_step in E. destruct a as [a|l|l].
  - destruct (apop_step u step ms a) as [r| |]; cbn [obind] in E; try discriminate. now injection E as _ <- _.
  - destruct (stdp_front _ _ _ _ _) as [f| |]; cbn [obind] in E; try discriminate.
    destruct (stdp_train _ _ _ _ _ _ _ _) as [r| |] eqn:E1; cbn [obind] in E; try discriminate. injection E as _ <- _. eapply stdp_train_num; eauto.
  - destruct (stdp_front _ _ _ _ _) as [f| |]; cbn [obind] in E; try discriminate.
    destruct (stdp_train _ _ _ _ _ _ _ _) as [r| |] eqn:E1; cbn [obind] in E; try discriminate. injection E as _ <- _. eapply stdp_train_num; eauto.
Qed.
Lemma in_turn_num step : forall pops ins projs pops' projs' outs, Forall numeric projs ->
  in_turn pow2f step ins pops projs = Ret (pops', projs', outs) -> Forall numeric projs'.
Proof.
  induction pops as [|[u a] pops IH]; intros ins projs pops' projs' outs H E; cbn [in_turn] in E; [destruct ins; now injection E as _ <- _|].
  destruct ins as [|ms ins]; cbn [in_turn] in E; [now injection E as _ <- _|].
  destruct (npop_step pow2f u step ms a projs) as [[[a1 p1] o]| |] eqn:E1; cbn [obind] in E; try discriminate.
  destruct (in_turn pow2f step ins pops p1) as [[[t1 p2] os]| |] eqn:E2; cbn [obind] in E; try discriminate.
  injection E as _ <- _. eapply IH; [|exact E2]. eapply npop_step_num; eauto.
Qed.
End Train.
Lemma forget_synapses w : delta_synapses (forget w) = delta_synapses w /\ resource_synapses (forget w) = resource_synapses w.
Proof. unfold forget, delta_synapses, resource_synapses. cbn [np_with np_kind]. destruct (np_kind w); auto. Qed.
Lemma forget_num l l' : map forget l = map forget l' -> Forall numeric l -> Forall numeric l'.
Proof.
  intros H. apply map_eq_F2 in H. induction H as [|w' w t' t H _ IH]; intros Hn; [constructor|]. apply Forall_cons_iff in Hn as [H1 H2].
  constructor; [|auto]. unfold numeric in *. destruct (forget_synapses w) as [A1 A2], (forget_synapses w') as [B1 B2].
  rewrite <- B1, <- B2, <- H, A1, A2. exact H1.
Qed.

(** ** A projection through a run *)
Lemma mt_run_column h : forall (l : list (mt_input * option message)) (qs : nat -> queue) s, (s + N.of_nat (length l) < two64)%N ->
  (forall t i o, nth_error l t = Some (i, o) -> mt_calculate h (s + N.of_nat t) (mi_msgs i) (mi_syn i) (mi_order i) (qs t) = (qs (S t), o)) ->
  mt_run h s (map fst l) (qs 0) = map snd l.
Proof.
  induction l as [|[i o] l IH]; intros qs s Hl H; cbn [map mt_run fst snd length] in *; [reflexivity|].
  pose proof (H 0 i o eq_refl) as H0. rewrite N.add_0_r in H0. rewrite H0. f_equal.
  assert (E : add64 s 1 = (s + 1)%N) by (unfold add64, w64; apply N.mod_small; change (2 ^ 64)%N with two64; lia).
  rewrite E. apply (IH (fun t => qs (S t)) (s + 1)%N); [lia|].
  intros t i' o' Ht. specialize (H (S t) i' o' Ht). rewrite <- H. f_equal. lia.
Qed.

Section Column.
Variables (pow2f : flt -> flt) (extra : list subscr) (pops : list (uid * npop)) (projs : list nproj) (pp pj : N) (turns : list (turn * nsched))
  (k : nbackend) (tr : list nrecord).
Hypothesis Hs : sound_network pops projs.
Hypothesis Hl : Forall loadable projs.
Hypothesis Hpp : (0 < pp < two64)%N.
Hypothesis Hf : Forall (fun c => forallb outside (tu_ops (fst c)) = true /\ nsched_ok pp pj pops projs (snd c)) turns.
Hypothesis Hr : mt_net_run pow2f extra pops projs turns k tr.

Lemma mt_turn_at t r : nth_error tr t = Some r -> exists c, nth_error turns t = Some c /\
  (forallb outside (tu_ops (fst c)) = true /\ nsched_ok pp pj pops projs (snd c)) /\
  mt_facts pow2f extra projs (map fst pops) pops (late (map nr_msgs tr) t) (N.of_nat t mod two64) (snd c) r /\
  nr_pops r = fst (after tr pops projs t) /\ nr_projs r = learn_all (tu_learn (fst c)) (snd (after tr pops projs t)).
Proof.
  intros H. destruct (mt_net_run_facts _ _ _ _ _ _ _ _ _ Hs Hl Hpp Hf Hr) as (L & F & _).
  destruct (nth_error turns t) as [c|] eqn:E.
  - exists c. split; [reflexivity|]. split; [|now apply F]. rewrite Forall_forall in Hf. apply Hf. eapply nth_error_In; eauto.
  - apply nth_error_None in E. assert (nth_error tr t <> None) as Hn by congruence. apply nth_error_Some in Hn. lia.
Qed.
Definition queue_at (j t : nat) : queue := match nth_error (snd (after tr pops projs t)) j with Some w => np_queue w | None => [] end.
(** One projection in one step. *)
Lemma mt_col_at j w0 t r : nth_error projs j = Some w0 -> nth_error tr t = Some r ->
  exists c w1 w' o ord, nth_error turns t = Some c /\ nsched_ok pp pj pops projs (snd c) /\
    nth_error (nr_trained r) j = Some w1 /\ nth_error (nr_projs' r) j = Some w' /\
    nth_error (r_proj_out (nr_msgs r)) j = Some o /\ nth_error (ns_projs (snd c)) j = Some ord /\
    fixed w1 = fixed w0 /\ np_head w1 = np_head w0 /\ nproj_ok w1 /\ loadable w1 /\
    mt_nproj (N.of_nat t mod two64) (spikes_for extra r w1) ord w1 = Ret (w', o) /\ np_queue w1 = queue_at j t /\ np_queue w' = queue_at j (S t).
Proof.
  intros Hj Ht. destruct (mt_turn_at t r Ht) as (c & Hc & (_ & Hsc) & MF & Ep & Ew).
  assert (Hh : map fixed (nr_trained r) = map fixed projs) by apply (mf_hs1 _ _ _ _ _ _ _ _ _ MF).
  assert (Hlt : j < length (nr_trained r)).
  { apply (f_equal (@length _)) in Hh. rewrite !map_length in Hh. rewrite Hh. apply nth_error_Some. congruence. }
  destruct (nth_error (nr_trained r) j) as [w1|] eqn:E1; [|apply nth_error_None in E1; lia].
  destruct (mf_projs _ _ _ _ _ _ _ _ _ MF j w1 E1) as (w' & o & ord & A1 & A2 & A3 & A4).
  assert (Hfx : fixed w1 = fixed w0).
  { apply (f_equal (fun l => nth_error l j)) in Hh. rewrite !nth_error_map, E1, Hj in Hh. cbn [option_map] in Hh.
    exact (f_equal (fun o => match o with Some x => x | None => fixed w0 end) Hh). }
  exists c, w1, w', o, ord. split; [exact Hc|]. split; [exact Hsc|]. split; [reflexivity|]. split; [exact A2|]. split; [exact A3|]. split; [exact A1|].
  split; [exact Hfx|]. split; [apply (fixed_uid _ _ Hfx)|].
  pose proof (mf_ok1 _ _ _ _ _ _ _ _ _ MF) as Hok. rewrite Forall_forall in Hok.
  pose proof (mf_load1 _ _ _ _ _ _ _ _ _ MF) as Hld. rewrite Forall_forall in Hld.
  split; [apply Hok; eapply nth_error_In; eauto|]. split; [apply Hld; eapply nth_error_In; eauto|]. split; [exact A4|]. split.
  - unfold queue_at. pose proof (mf_train _ _ _ _ _ _ _ _ _ MF) as HT. rewrite Ew, learn_all_map in HT.
    assert (Hlw : length (snd (after tr pops projs t)) = length (nr_trained r)) by (apply Forall2_len in HT; now rewrite map_length in HT).
    destruct (nth_error (snd (after tr pops projs t)) j) as [w|] eqn:E2; [|apply nth_error_None in E2; lia].
    destruct (F2_nth _ _ _ HT j (relock (tu_learn (fst c)) w)) as (w1' & B1 & (K & _)); [rewrite nth_error_map, E2; reflexivity|].
    rewrite E1 in B1. injection B1 as <-. destruct K as (_ & _ & _ & _ & K & _). rewrite K. apply relock_same.
  - unfold queue_at. cbn [after]. rewrite Ht. cbn [snd]. now rewrite A2.
Qed.

Lemma mt_numeric : Forall numeric projs -> forall t r, nth_error tr t = Some r -> Forall numeric (nr_trained r) /\ Forall numeric (nr_projs' r).
Proof.
  intros Hn. assert (G : forall t, t <= length tr -> Forall numeric (snd (after tr pops projs t)) /\
    forall t0 r, S t0 = t -> nth_error tr t0 = Some r -> Forall numeric (nr_trained r) /\ Forall numeric (nr_projs' r)).
  { induction t as [|t IH]; intros Hlt; [split; [exact Hn|intros; discriminate]|].
    destruct IH as [IH _]; [lia|]. destruct (nth_error tr t) as [r|] eqn:Er; [|apply nth_error_None in Er; lia].
    assert (X : Forall numeric (nr_trained r) /\ Forall numeric (nr_projs' r)).
    { destruct (mt_turn_at t r Er) as (c & Hc & (_ & Hsc) & MF & Ep & Ew).
      assert (N0 : Forall numeric (nr_projs r)).
      { rewrite Ew, learn_all_map. apply Forall_map. eapply Forall_impl; [|exact IH]. intros w Hw.
        destruct (relock_same (tu_learn (fst c)) w) as (E & _). fold (relock (tu_learn (fst c)) w).
        unfold numeric, delta_synapses, resource_synapses in *. rewrite E. exact Hw. }
      destruct (mf_turn _ _ _ _ _ _ _ _ _ MF) as (P & outs & T1 & T2 & _).
      assert (N1 : Forall numeric (nr_trained r)) by (eapply forget_num; [exact T2|]; eapply in_turn_num; [exact N0|exact T1]).
      split; [exact N1|]. apply Forall_forall. intros w' Hw'. apply In_nth_error in Hw' as (j & Hj').
      assert (Hlt1 : j < length projs).
      { pose proof (mf_hs' _ _ _ _ _ _ _ _ _ MF) as E. apply (f_equal (@length _)) in E. rewrite !map_length in E. rewrite <- E. apply nth_error_Some. congruence. }
      destruct (nth_error projs j) as [w0|] eqn:E0; [|apply nth_error_None in E0; lia].
      destruct (mt_col_at j w0 t r E0 Er) as (c' & w1 & w2 & o & ord & _ & Hsc' & B1 & B2 & _ & B4 & Bf & _ & B5 & B6 & B7 & _).
      rewrite Hj' in B2. injection B2 as <-.
      destruct (mt_nproj_spec (N.of_nat t mod two64) (spikes_for extra r w1) ord w1 B5 B6) as (w2 & m & E & _ & _ & _ & _ & D1 & _ & _ & _ & D2).
      rewrite B7 in E. injection E as <- <-. rewrite Forall_forall in N1. specialize (N1 w1 (nth_error_In _ _ B1)). destruct N1 as [M1 M2].
      split; [now rewrite D1|]. clear -B7 M2. unfold mt_nproj in B7. unfold resource_synapses in *. destruct (np_kind w1) as [p|l p|l p]; [| |].
      - destruct (mt_calculate _ _ _ _ _ _) as [q m0]. injection B7 as <- _. constructor.
      - discriminate.
      - set (x := match spikes_for extra r w1 with [] => _ | _ => _ end) in B7.
        assert (Hx : map (fun s : rsyn => rr_min (rp_rule (sy_params s))) (fst x) = map (fun s : rsyn => rr_min (rp_rule (sy_params s))) (p_syn p)).
        { unfold x. destruct (spikes_for extra r w1) as [|m0 ms]; [reflexivity|]. rewrite resource_parts. cbn [fst]. apply pre_parts_map.
          intros s. unfold stamp. now destruct (count_find _ _). }
        assert (Hk : np_kind w' = NResource l (mkProj (fst x) (p_index p) (p_updated p))) by (destruct (q_find _ _) in B7; injection B7 as <- _; reflexivity).
        rewrite Hk. cbn [p_syn]. apply Forall_forall. intros s Hin. apply (in_map (fun s : rsyn => rr_min (rp_rule (sy_params s)))) in Hin. rewrite Hx in Hin.
        apply in_map_iff in Hin as (s0 & <- & H0). rewrite Forall_forall in M2. exact (M2 s0 H0). }
    split; [cbn [after]; rewrite Er; apply X|]. intros t0 r0 [= ->] Hr0. rewrite Er in Hr0. injection Hr0 as <-. exact X. }
  intros t r Ht. assert (Hlt : t < length tr) by (apply nth_error_Some; congruence). destruct (G (S t) Hlt) as [_ G1]. exact (G1 t r eq_refl Ht).
Qed.

(** Its outputs. *)
Lemma mt_outputs j w0 : nth_error projs j = Some w0 -> np_queue w0 = [] -> (0 < pj < two64)%N -> Forall numeric projs ->
  (N.of_nat (length (delta_synapses w0)) <= 2 ^ 63)%N -> (N.of_nat (length tr) < two64)%N ->
  (forall r, In r tr -> Forall distinct_spikes (r_ext (nr_msgs r))) ->
  exists outs outs0, map (fun r => nth_error (r_proj_out (nr_msgs r)) j) tr = map Some outs /\
    run_projection (np_head w0) 0 (map (first_input extra j) tr) (mkProj (delta_synapses w0) [] false) [] = Ret outs0 /\ Forall2 same_output outs0 outs.
Proof.
  intros Hj Hq Hpj Hn Hsz Hlen Hd.
  set (get := fun r : nrecord => match nth_error (r_proj_out (nr_msgs r)) j with Some o => o | None => None end).
  set (mkin := fun x : nrecord * (turn * nsched) => mkMtIn (in_syn (first_input extra j (fst x))) (in_msgs (first_input extra j (fst x)))
                 (nth j (ns_projs (snd (snd x))) [])).
  destruct (mt_net_run_facts _ _ _ _ _ _ _ _ _ Hs Hl Hpp Hf Hr) as (L & _ & _).
  set (l := map (fun x => (mkin x, get (fst x))) (combine tr turns)).
  assert (Hll : length l = length tr) by (unfold l; rewrite map_length, combine_length, L; lia).
  assert (Hnl : forall t i o, nth_error l t = Some (i, o) -> exists r c, nth_error tr t = Some r /\ nth_error turns t = Some c /\ i = mkin (r, c) /\ o = get r).
  { intros t i o H. unfold l in H. rewrite nth_error_map in H. destruct (nth_error (combine tr turns) t) as [[r c]|] eqn:E; [|discriminate].
    cbn [option_map fst] in H. injection H as <- <-. exists r, c.
    assert (G : forall (a : list nrecord) (b : list (turn * nsched)) t, nth_error (combine a b) t = Some (r, c) -> nth_error a t = Some r /\ nth_error b t = Some c).
    { clear. induction a as [|x a IH]; intros b t H; [destruct t; discriminate|]. destruct b as [|y b]; [destruct t; discriminate|].
      destruct t as [|t]; cbn [combine nth_error] in *; [injection H as -> ->; auto|eauto]. }
    destruct (G _ _ _ E). auto. }
  assert (Hrun : mt_run (np_head w0) 0 (map fst l) (queue_at j 0) = map snd l).
  { apply mt_run_column; [rewrite Hll; lia|]. intros t i o Ht. destruct (Hnl t i o Ht) as (r & c & Er & Ec & -> & ->).
    destruct (mt_col_at j w0 t r Hj Er) as (c' & w1 & w' & o & ord & B0 & Hsc' & B1 & B2 & B3 & B4 & Bf & Bh & B5 & B6 & B7 & B8 & B9).
    rewrite Ec in B0. injection B0 as <-.
    assert (Hlt : t < length tr) by (apply nth_error_Some; congruence).
    destruct (mt_nproj_spec (N.of_nat t mod two64) (spikes_for extra r w1) ord w1 B5 B6) as (w2 & m & E & _ & _ & _ & _ & _ & _ & _ & D & _).
    rewrite B7 in E. injection E as <- <-.
    unfold mkin, get, first_input. cbn [fst snd mi_msgs mi_syn mi_order]. rewrite B1. cbn [in_msgs in_syn].
    rewrite (nth_error_nth _ _ [] B4), B3, <- B8, <- B9, <- D, <- Bh. rewrite N.mod_small by lia.
    unfold mt_calculate. destruct (spikes_for extra r w1); reflexivity. }
  exists (map get tr).
  assert (Eget : map snd l = map get tr).
  { unfold l. rewrite map_map. cbn [snd]. clear -L. revert turns L. induction tr as [|r t IH]; intros [|c turns] L; cbn [length] in L; try discriminate; [reflexivity|].
    cbn [combine map fst]. f_equal. apply IH. lia. }
  assert (Hq0 : queue_at j 0 = []) by (unfold queue_at; cbn [after snd]; now rewrite Hj).
  rewrite Hq0, Eget in Hrun.
  destruct (runs_agree (np_head w0) pj Hpj (map (first_input extra j) tr) (map fst l) 0 (mkProj (delta_synapses w0) [] false) [] [] 0) as (outs0 & E0 & S0).
  - unfold l. rewrite map_map. cbn [fst].
    assert (G : forall t r c, nth_error tr t = Some r -> nth_error turns t = Some c -> corresponds pj (first_input extra j r) (mkin (r, c))).
    { intros t r c Er Ec.
      destruct (mt_col_at j w0 t r Hj Er) as (c' & w1 & w' & o & ord & B0 & (_ & _ & Hsc') & B1 & B2 & B3 & B4 & Bf & Bh & B5 & B6 & B7 & B8 & B9).
      rewrite Ec in B0. injection B0 as <-. unfold corresponds, mkin, first_input. cbn [fst snd mi_msgs mi_syn mi_order]. rewrite B1. cbn [in_msgs in_syn].
      split; [reflexivity|]. split; [reflexivity|]. split; [|split].
      - destruct (mt_turn_at t r Er) as (c0 & _ & _ & MF & _).
        assert (Hin : forall m, In m (spikes_for extra r w1) -> exists s t idx, m = SpikeMsg s t idx /\ NoDup idx).
        { intros m Hm. unfold spikes_for in Hm. apply filter_In in Hm as (Hm & Hto). destruct m as [s0 t0 idx|]; [|discriminate]. exists s0, t0, idx. split; [reflexivity|].
          apply in_app_or in Hm as [Hm|Hm].
          - pose proof (mf_distinct _ _ _ _ _ _ _ _ _ MF) as ID. rewrite Forall_forall in ID. exact (ID _ Hm).
          - specialize (Hd r (nth_error_In _ _ Er)). rewrite Forall_forall in Hd. exact (Hd _ Hm). }
        destruct (spikes_for extra r w1) as [|m ms]; [left; reflexivity|]. right. cbn [firstn].
        destruct (Hin m (or_introl eq_refl)) as (s0 & t0 & idx & -> & Hnd). eauto 6.
      - destruct (mt_numeric Hn t r Er) as [N1 _]. rewrite Forall_forall in N1. apply (N1 w1 (nth_error_In _ _ B1)).
      - destruct (F2_nth _ _ _ Hsc' j w0 Hj) as (ord' & B4' & Hany). rewrite B4 in B4'. injection B4' as <-.
        rewrite (nth_error_nth _ _ [] B4). unfold any_order in Hany. destruct Hany as (ps & fuel & X1 & X2).
        assert (El : length (delta_synapses w1) = length (delta_synapses w0)).
        { destruct (fixed_ends _ _ Bf) as [X _]. apply (f_equal (@length _)) in X. unfold ends_of in X. now rewrite !map_length in X. }
        exists ps, fuel. rewrite El. auto. }
    clear -G L. revert turns L G. induction tr as [|r t IH]; intros [|c turns] L G; cbn [length] in L; try discriminate; [constructor|].
    cbn [combine map]. constructor; [exact (G 0 r c eq_refl eq_refl)|]. apply IH; [lia|]. intros t0 r0 c0 H1 H2. exact (G (S t0) r0 c0 H1 H2).
  - lia.
  - rewrite map_length. lia.
  - apply Forall_map, Forall_forall. intros r Hin. apply In_nth_error in Hin as (t & Er).
    destruct (mt_col_at j w0 t r Hj Er) as (c' & w1 & w' & o & ord & B0 & _ & B1 & B2 & B3 & B4 & Bf & _).
    unfold first_input. rewrite B1. cbn [in_syn]. destruct (fixed_ends _ _ Bf) as [X _]. apply (f_equal (@length _)) in X. unfold ends_of in X. rewrite !map_length in X. now rewrite X.
  - exists (ends_of (delta_synapses w0)). split; [|reflexivity]. apply Forall_map, Forall_forall. intros r Hin. apply In_nth_error in Hin as (t & Er).
    destruct (mt_col_at j w0 t r Hj Er) as (c' & w1 & w' & o & ord & B0 & _ & B1 & B2 & B3 & B4 & Bf & _).
    unfold first_input. rewrite B1. cbn [in_syn]. now destruct (fixed_ends _ _ Bf).
  - intros H. discriminate.
  - intros n m H. discriminate.
  - intros n m H. discriminate.
  - intros n. exact I.
  - exists outs0. split; [|split; [exact E0|]].
    + rewrite map_map. apply map_ext_in. intros r Hin. apply In_nth_error in Hin as (t & Er).
      destruct (mt_col_at j w0 t r Hj Er) as (c' & w1 & w' & o & ord & B0 & _ & B1 & B2 & B3 & _). unfold get. now rewrite B3.
    + rewrite Hrun in S0. exact S0.
Qed.
End Column.
