(** Projections stay indexed. *)
From Verif Require Import Base ListLemmas Messaging_Model Messaging_Spec Projection_Model Projection_Spec Projection_Proofs Delta_Model Neuron_Model Pipeline_Model Pipeline_Spec
  Stdp_Model Additive_Model Train_Model Net_Model Net_Spec Net_Proofs Build_Model Build_Proofs Again_Spec.

Definition up {P} (p : proj P) : Prop := p_updated p = true.
Lemma reindex_up {P} (p : proj P) : up (reindex p).
Proof. unfold up, reindex. now destruct (p_updated p) eqn:E. Qed.
Lemma find_up {P} c n (p : proj P) : up (fst (find_synapses c n p)).
Proof. apply reindex_up. Qed.
Lemma do_spikes_up h step : forall spikes p q r, do_spikes h step spikes p q = Ret r -> up p -> up (fst r).
Proof.
  induction spikes as [|n t IH]; intros p q r H U; cbn [do_spikes] in H; [now injection H as <-|]. pose proof (find_up ByPre n p) as F.
  destruct (find_synapses ByPre n p) as [p' idx]. cbn [fst] in F. destruct (do_synapses _ _ _ _ _) as [q'| |]; try discriminate H. cbn [obind] in H. eauto.
Qed.
Lemma append_up w c time : forall idx p r, append_spike_times w c time idx p = Ret r -> up p -> up r.
Proof.
  induction idx as [|n t IH]; intros p r H U; cbn [append_spike_times] in H; [now injection H as <-|]. pose proof (find_up c n p) as F.
  destruct (find_synapses c n p) as [p' found]. cbn [fst] in F. destruct (push_at _ _ _ _) as [l| |]; try discriminate H. cbn [obind] in H. apply (IH _ _ H). exact F.
Qed.
Lemma init_up pops : forall ms p r, init_projection pops ms p = Ret r -> up p -> up (fst r).
Proof.
  induction ms as [|m t IH]; intros p r H U; cbn [init_projection] in H; [now injection H as <-|].
  match type of H with obind ?a _ = _ => destruct a as [[p1 m1]| |] eqn:E; try discriminate H end. cbn [obind fst snd] in H.
  destruct (init_projection pops t p1) as [r1| |] eqn:E1; try discriminate H. cbn [obind] in H. injection H as <-. cbn [fst]. apply (IH _ _ E1).
  destruct m as [s time idx|]; [|injection E as <- _; exact U]. destruct (pops s) as [k|]; [|injection E as <- _; exact U].
  destruct (append_spike_times HPost ByPost time idx p) as [pa| |] eqn:Ea; try discriminate E. cbn [obind] in E. pose proof (append_up _ _ _ _ _ _ Ea U) as Ua.
  destruct k; [injection E as <- _; exact Ua|]. all: try (injection E as <- _; exact Ua).
  destruct (append_spike_times HPre ByPost time idx pa) as [pb| |] eqn:Eb; try discriminate E. cbn [obind] in E. injection E as <- _. exact (append_up _ _ _ _ _ _ Eb Ua).
Qed.
Lemma r_spikes_up h step : forall spikes p q r, r_spikes h step spikes p q = Ret r -> up p -> up (fst r).
Proof.
  induction spikes as [|n t IH]; intros p q r H U; cbn [r_spikes] in H; [now injection H as <-|]. pose proof (find_up ByPre n p) as F.
  destruct (find_synapses ByPre n p) as [p' idx]. cbn [fst] in F. destruct (r_synapses _ _ _ _ _) as [l| |]; try discriminate H. cbn [obind] in H. apply (IH _ _ _ H). exact F.
Qed.
Lemma step_up expf step ms w w' o : nproj_step expf step ms w = Ret (w', o) -> indexed w -> indexed w'.
Proof.
  unfold nproj_step, indexed. intros H U. destruct (np_kind w) as [p|l p|l p].
  - unfold calculate_projection in H. destruct (do_spikes _ _ _ _ _) as [[p' q]| |] eqn:E; try discriminate H. cbn [obind fst snd] in H. pose proof (do_spikes_up _ _ _ _ _ _ E U) as F.
    destruct (q_find step q); cbn [obind] in H; injection H as <- _; exact F.
  - unfold additive_step in H. destruct (init_projection _ _ _) as [[p1 ms1]| |] eqn:E; try discriminate H. cbn [obind] in H. pose proof (init_up _ _ _ _ E U) as F.
    destruct (do_spikes _ _ _ _ _) as [[p' q]| |] eqn:E2; try discriminate H. cbn [obind fst snd] in H. pose proof (do_spikes_up _ _ _ _ _ _ E2 F) as F2.
    destruct (q_find step q); cbn [obind] in H; injection H as <- _; exact F2.
  - unfold resource_step in H. destruct (r_spikes _ _ _ _ _) as [[p' q]| |] eqn:E; try discriminate H. cbn [obind fst snd] in H. pose proof (r_spikes_up _ _ _ _ _ _ E U) as F.
    destruct (q_find step q); cbn [obind] in H; injection H as <- _; exact F.
Qed.

(** Training. *)
Notation ups := (Forall up).
Lemma connected_up i : forall ps k, ups (fst (connected_from k i ps)).
Proof.
  induction ps as [|p t IH]; intros k; [constructor|]. cbn [connected_from]. pose proof (find_up ByPost i p) as F. destruct (find_synapses ByPost i p) as [p' idx].
  specialize (IH (S k)). destruct (connected_from (S k) i t) as [t' refs]. constructor; assumption.
Qed.
Lemma put_ups : forall (ps : list rproj) k p, ups ps -> up p -> ups (put k p ps).
Proof. induction ps as [|q t IH]; intros [|k] p H U; cbn [put]; inversion H; subst; constructor; auto. Qed.
Lemma each_up g : forall refs n ps r, each_ref g refs n ps = Ret r -> ups ps -> ups (snd r).
Proof.
  induction refs as [|[k j] t IH]; intros n ps r H U; cbn [each_ref] in H; [now injection H as <-|]. destruct (nth_error ps k) as [p|] eqn:E; [|discriminate H].
  destruct (nth_error (p_syn p) j) as [s|]; [|discriminate H]. destruct (g n (sy_params s)) as [n' x]. apply (IH _ _ _ H). apply put_ups; [exact U|].
  rewrite Forall_forall in U. apply nth_error_In in E. exact (U p E).
Qed.
Definition good_f (f : N -> tview -> list rproj -> outcome (tview * list rproj)) : Prop := forall i n ps r, f i n ps = Ret r -> ups ps -> ups (snd r).
Lemma spiking_good pow2f step : good_f (spiking_f pow2f step).
Proof.
  intros i n ps r H U. unfold spiking_f in H. pose proof (connected_up i ps 0) as C. unfold connected_refs in H. destruct (connected_from 0 i ps) as [ps' refs]. cbn [fst] in C.
  match type of H with obind ?a _ = _ => destruct a as [r1| |] eqn:E1; try discriminate H end. cbn [obind] in H. apply each_up in E1; [|exact C].
  match type of H with obind ?a _ = _ => destruct a as [r2| |] eqn:E2; try discriminate H end. cbn [obind] in H.
  assert (U2 : ups (snd r2)). { destruct (negb _) in E2; [now apply each_up in E2|]. injection E2 as <-. exact E1. }
  match type of H with obind ?a _ = _ => destruct a as [r3| |] eqn:E3; try discriminate H end. cbn [obind] in H.
  assert (U3 : ups (snd r3)). { destruct (negb _) in E3; [now apply each_up in E3|]. injection E3 as <-. exact U2. }
  now apply each_up in H.
Qed.
Lemma dopamine_good pow2f step : good_f (dopamine_f pow2f step).
Proof.
  intros i n ps r H U. unfold dopamine_f in H. destruct (_ || _) in H; [|injection H as <-; exact U]. pose proof (connected_up i ps 0) as C. unfold connected_refs in H. destruct (connected_from 0 i ps) as [ps' refs]. cbn [fst] in C.
  match type of H with obind ?a _ = _ => destruct a as [r1| |] eqn:E1; try discriminate H end. cbn [obind] in H. apply each_up in E1; [|exact C]. now apply each_up in H.
Qed.
Lemma renorm_good step : good_f (renorm_f step).
Proof.
  intros i n ps r H U. unfold renorm_f in H. destruct (_ && _) in H; [injection H as <-; exact U|]. destruct (f_lt _ _) in H; [injection H as <-; exact U|].
  pose proof (connected_up i ps 0) as C. unfold connected_refs in H. destruct (connected_from 0 i ps) as [ps' refs]. cbn [fst] in C.
  match type of H with obind ?a _ = _ => destruct a as [r1| |] eqn:E1; try discriminate H end. cbn [obind] in H. apply each_up in E1; [|exact C]. now apply each_up in H.
Qed.
Lemma for_up f : good_f f -> forall idx s r, for_neurons_f f idx s = Ret r -> ups (snd s) -> ups (snd r).
Proof.
  intros G. induction idx as [|i t IH]; intros s r H U; cbn [for_neurons_f] in H; [now injection H as <-|].
  destruct (on_neuron_f f i s) as [s1| |] eqn:E; try discriminate H. cbn [obind] in H. apply (IH _ _ H). unfold on_neuron_f in E. destruct (nth_error (fst s) i) as [n|]; [|discriminate E].
  destruct (f (N.of_nat i) n (snd s)) as [r1| |] eqn:E1; try discriminate E. cbn [obind] in E. injection E as <-. cbn [snd]. exact (G _ _ _ _ E1 U).
Qed.
Lemma train_up pow2f step spikes s r : train_f pow2f step spikes s = Ret r -> ups (snd s) -> ups (snd r).
Proof.
  unfold train_f. intros H U. cbv zeta in H.
  match type of H with obind ?a _ = _ => destruct a as [r1| |] eqn:E1; try discriminate H end. cbn [obind] in H. apply for_up in E1; [|apply spiking_good|exact U].
  match type of H with obind ?a _ = _ => destruct a as [r2| |] eqn:E2; try discriminate H end. cbn [obind] in H. apply for_up in E2; [|apply dopamine_good|exact E1].
  apply for_up in H; [exact H|apply renorm_good|exact E2].
Qed.
Lemma works_up u projs : Forall indexed projs -> ups (works u projs).
Proof.
  induction 1 as [|w t H _ IH]; [constructor|]. unfold works. cbn [flat_map]. apply Forall_app. split; [|exact IH].
  unfold working. unfold indexed in H. destruct (np_kind w) as [p|l p|l p]; try constructor. destruct (_ && _); repeat constructor. exact H.
Qed.
Lemma put_back_up u : forall projs ps, Forall indexed projs -> ups ps -> Forall indexed (put_back u projs ps).
Proof.
  induction projs as [|w t IH]; intros ps H U; [constructor|]. inversion H as [|? ? H1 H2]; subst. cbn [put_back]. destruct (working u w) as [p0|]; [|constructor; auto].
  destruct ps as [|p ps]; [constructor; auto|]. inversion U as [|? ? U1 U2]; subst. constructor; [|auto].
  unfold indexed, set_rproj in *. destruct (np_kind w) as [q|l q|l q] eqn:E; try (now rewrite E). exact U1.
Qed.
Lemma stdp_train_up {A} pow2f (view : A -> tview) write u step spikes ns projs r :
  stdp_train pow2f view write u step spikes ns projs = Ret r -> Forall indexed projs -> Forall indexed (snd r).
Proof.
  unfold stdp_train. intros H U. destruct (train_f _ _ _ _) as [r1| |] eqn:E; try discriminate H. cbn [obind] in H. injection H as <-. cbn [snd].
  apply put_back_up; [exact U|]. apply train_up in E; [exact E|]. now apply works_up.
Qed.
Lemma npop_up pow2f u step ms a projs a' projs' o : npop_step pow2f u step ms a projs = Ret (a', projs', o) -> Forall indexed projs -> Forall indexed projs'.
Proof.
  unfold npop_step. intros H U. destruct a as [a|l|l].
  - destruct (apop_step _ _ _ _) as [[? ?]| |]; try discriminate H. cbn [obind] in H. injection H as _ <- _. exact U.
  - destruct (stdp_front _ _ _ _ _) as [f| |]; try discriminate H. cbn [obind] in H. destruct (stdp_train _ _ _ _ _ _ _ _) as [r| |] eqn:E; try discriminate H. cbn [obind] in H. injection H as _ <- _. exact (stdp_train_up _ _ _ _ _ _ _ _ _ E U).
  - destruct (stdp_front _ _ _ _ _) as [f| |]; try discriminate H. cbn [obind] in H. destruct (stdp_train _ _ _ _ _ _ _ _) as [r| |] eqn:E; try discriminate H. cbn [obind] in H. injection H as _ <- _. exact (stdp_train_up _ _ _ _ _ _ _ _ _ E U).
Qed.
Lemma npops_up pow2f step : forall pops projs b pops' projs' b' i o, npops_phase pow2f step pops projs b = Ret (pops', projs', b', i, o) -> Forall indexed projs -> Forall indexed projs'.
Proof.
  induction pops as [|[u a] t IH]; intros projs b pops' projs' b' i o H U; cbn [npops_phase] in H; [injection H as _ <- _ _ _; exact U|].
  destruct (unload_own b 1 u) as [x| |]; try discriminate H. cbn [obind] in H. destruct (npop_step _ _ _ _ _ _) as [[[a' p1] o1]| |] eqn:E; try discriminate H. cbn [obind] in H.
  destruct (send_own _ _) as [b2| |]; try discriminate H. cbn [obind] in H. destruct (npops_phase _ _ t p1 b2) as [[[[[t' p2] b3] i2] o2]| |] eqn:E2; try discriminate H. cbn [obind] in H.
  injection H as _ <- _ _ _. apply (IH _ _ _ _ _ _ _ E2). exact (npop_up _ _ _ _ _ _ _ _ _ E U).
Qed.
Lemma nprojs_up expf step : forall projs b projs' b' i o, nprojs_phase expf step projs b = Ret (projs', b', i, o) -> Forall indexed projs -> Forall indexed projs'.
Proof.
  induction projs as [|w t IH]; intros b projs' b' i o H U; cbn [nprojs_phase] in H; [injection H as <- _ _ _; constructor|]. inversion U as [|? ? U1 U2]; subst.
  destruct (unload_own b 0 _) as [x| |]; try discriminate H. cbn [obind] in H. destruct (nproj_step _ _ _ _) as [[w' o1]| |] eqn:E; try discriminate H. cbn [obind] in H.
  destruct (send_own _ _) as [b2| |]; try discriminate H. cbn [obind] in H. destruct (nprojs_phase _ _ t b2) as [[[[t' b3] i2] o2]| |] eqn:E2; try discriminate H. cbn [obind] in H.
  injection H as <- _ _ _. constructor; [exact (step_up _ _ _ _ _ _ E U1)|exact (IH _ _ _ _ _ E2 U2)].
Qed.
Lemma nstep_up pow2f expf ext k k' r : nbackend_step pow2f expf ext k = Ret (k', r) -> Forall indexed (nb_projs k) -> Forall indexed (nb_projs k').
Proof.
  unfold nbackend_step. intros H U. destruct (route_receive_own _) as [b1| |]; try discriminate H. cbn [obind] in H.
  destruct (npops_phase _ _ _ _ _) as [[[[[p1 j1] b2] i1] o1]| |] eqn:E; try discriminate H. cbn [obind] in H. destruct (route_receive_own b2) as [b3| |]; try discriminate H. cbn [obind] in H.
  destruct (nprojs_phase _ _ _ _) as [[[[j2 b4] i2] o2]| |] eqn:E2; try discriminate H. cbn [obind] in H. destruct (route_receive_own b4) as [b5| |]; try discriminate H. cbn [obind] in H.
  injection H as <- _. cbn [nb_projs]. apply (nprojs_up _ _ _ _ _ _ _ _ E2). exact (npops_up _ _ _ _ _ _ _ _ _ _ E U).
Qed.
Lemma learn_up l : forall projs, Forall indexed projs -> Forall indexed (learn_all l projs).
Proof.
  unfold learn_all. induction l as [|b l IH]; intros projs U; [exact U|]. cbn [fold_left]. apply IH. unfold learn. apply Forall_map. eapply Forall_impl; [|exact U]. intros w Hw. exact Hw.
Qed.
Lemma nrun_up pow2f expf : forall turns k k' tr, nbackend_run pow2f expf turns k = Ret (k', tr) -> Forall indexed (nb_projs k) -> Forall indexed (nb_projs k').
Proof.
  induction turns as [|u t IH]; intros k k' tr H U; cbn [nbackend_run] in H; [injection H as <- _; exact U|].
  destruct (run _ _) as [x| |]; try discriminate H. cbn [obind] in H. destruct (nbackend_step _ _ _ _) as [[k1 r1]| |] eqn:E; try discriminate H. cbn [obind] in H.
  destruct (nbackend_run _ _ t _) as [[k2 tr2]| |] eqn:E2; try discriminate H. cbn [obind] in H. injection H as <- _. apply (IH _ _ _ E2). apply (nstep_up _ _ _ _ _ _ E). cbn [nb_projs]. now apply learn_up.
Qed.
(** An indexed projection could have been made by a constructor. *)
Lemma indexed_sound w : indexed w -> kind_ok (np_kind w) -> sound_kind (np_kind w).
Proof.
  assert (G : forall P (p : proj P), p_updated p = true -> index_ok p -> sound p).
  { intros P p U K. specialize (K U). assert (E : p = reindex (mkProj (p_syn p) [] false)); [|rewrite E; apply sound_made]. destruct p as [s i b]. cbn in *. now subst. }
  unfold indexed. destruct (np_kind w); cbn [kind_ok sound_kind]; auto.
Qed.
