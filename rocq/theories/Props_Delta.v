(** Property theorems C24-C27, C29: projection steps. *)
From Verif Require Import Base Messaging_Model Projection_Model Projection_Spec Projection_Proofs Delta_Model Delta_Spec Delta_Proofs Delta_Proofs2.

(** *** C24 *)
(** Every run of a projection from an empty queue: the [t]-th step sends exactly
    the impacts due at it (Delta_Spec.due), in one message with the projection's
    identifiers, and nothing if none is due.  Weights may be changed between the
    steps ([in_syn]); the weight that counts is the one at the step of the
    spike. *)
Theorem c24_exactly_once h s0 ins p ends :
  sound_projection p -> ends_of (p_syn p) = ends ->
  Forall (fun i => ends_of (in_syn i) = ends) ins ->
  Forall (fun i => Forall syn_ok (in_syn i)) ins ->
  (s0 + N.of_nat (length ins) + two32 <= two64)%N ->
  exists outs, run_projection h s0 ins p [] = Ret outs /\ length outs = length ins /\
    forall t o, nth_error outs t = Some o ->
      (o = None <-> due ins t = []) /\
      forall m, o = Some m -> exists time imps,
        m = ImpactMsg (ph_uid h) time (ph_pre h) (ph_post h) (ph_forced h) imps /\
        Permutation imps (due ins t) /\ (s0 <= time <= s0 + N.of_nat t)%N.
Proof.
  intros Hp He H1 H2 H3. apply sound_index_ok in Hp.
  exact (run_good h s0 ins ends H3 H1 H2 p Hp He).
Qed.
Print Assumptions c24_exactly_once.

Definition ex_syn (d : N) (from to : N) : dsyn := mkSyn (mkDP (f_of_Z 3) d EXCITATORY) from to.
Definition ex_net : list dsyn := [ex_syn 1 0 0; ex_syn 3 0 1; ex_syn 2 1 0; ex_syn 0 1 1].
Example c24_hypotheses :
  let p := proj_generated (fun i => nth_error ex_net i) 4 in
  let ins := [mkIn ex_net [SpikeMsg 7 0 [0; 1]%N]; mkIn ex_net [SpikeMsg 7 1 [1]%N]; mkIn ex_net []; mkIn ex_net []] in
  sound_projection p /\ Forall (fun i => Forall syn_ok (in_syn i)) ins /\ ends_of (p_syn p) = ends_of ex_net /\
  run_projection (mkPH 9 7 8 true) 0 ins p [] =
    Ret [Some (ImpactMsg 9 0 7 8 true [mkImpact 0 (f_of_Z 3) EXCITATORY 0 0]);
         Some (ImpactMsg 9 0 7 8 true [mkImpact 2 (f_of_Z 3) EXCITATORY 1 0]);
         Some (ImpactMsg 9 0 7 8 true [mkImpact 1 (f_of_Z 3) EXCITATORY 0 1; mkImpact 2 (f_of_Z 3) EXCITATORY 1 0]);
         None].
Proof.
  cbv zeta. split; [|split; [|split; [reflexivity|vm_compute; reflexivity]]].
  - eexists _, true, [], []. split; [right; split; [eauto|reflexivity]|]. split; [reflexivity|exact I].
  - repeat constructor.
Qed.

(** *** C25 *)
(** False: no run, of any length, ever sends an impact of a projection whose
    synapses all have delay 0. *)
Theorem c25_zero_delay_refuted h s0 ins p ends outs :
  sound_projection p -> ends_of (p_syn p) = ends ->
  Forall (fun i => ends_of (in_syn i) = ends) ins -> Forall (fun i => Forall syn_ok (in_syn i)) ins ->
  (s0 + N.of_nat (length ins) + two32 <= two64)%N ->
  Forall (fun i => Forall (fun s => d_delay (sy_params s) = 0%N) (in_syn i)) ins ->
  run_projection h s0 ins p [] = Ret outs -> Forall (fun o => o = None) outs.
Proof.
  intros Hp He H1 H2 H3 Hz Hr. destruct (c24_exactly_once h s0 ins p ends Hp He H1 H2 H3) as (outs' & E & Hl & Hall).
  assert (outs' = outs) by congruence. subst outs'. apply Forall_forall. intros o Ho.
  apply In_nth_error in Ho as (t & Ht). apply (Hall t o Ht).
  unfold due. induction (seq 0 (S t)) as [|n l IH]; cbn [flat_map]; [reflexivity|]. rewrite IH, app_nil_r.
  destruct (nth_error ins n) as [i|] eqn:Ei; [|reflexivity].
  assert (Hi : Forall (fun s => d_delay (sy_params s) = 0%N) (in_syn i)).
  { rewrite Forall_forall in Hz. apply Hz. eapply nth_error_In; eauto. }
  induction (spikes_of (in_msgs i)) as [|k ks IHk]; cbn [flat_map]; [reflexivity|]. rewrite IHk, app_nil_r.
  unfold impacts_with_delay. rewrite (filter_ext_in' _ (fun _ => false)).
  - induction (numbered (in_syn i)); auto.
  - intros x Hx. apply numbered_nth, nth_error_In in Hx. rewrite Forall_forall in Hi. rewrite (Hi _ Hx).
    apply andb_false_intro2. apply N.eqb_neq. lia.
Qed.
Print Assumptions c25_zero_delay_refuted.
Example c25_case :
  run_projection (mkPH 9 7 8 true) 0 [mkIn [ex_syn 0 0 0] [SpikeMsg 7 0 [0]%N]; mkIn [ex_syn 0 0 0] []]
    (proj_generated (fun i => nth_error [ex_syn 0 0 0] i) 1) [] = Ret [None; None].
Proof. vm_compute. reflexivity. Qed.

(** *** C26 *)
(** For every container size up to 2^63 and every positive 64-bit part size the
    loop ends after at most [size] iterations, its parts follow each other and
    every index lies in exactly one of them. *)
Theorem c26_partition size part :
  (0 < part < two64)%N -> (size <= 2 ^ 63)%N ->
  exists l, parts size part (N.to_nat size) = Some l /\ tiles 0 size l /\
    (forall i, (i < size)%N -> exists! k, exists a b, nth_error l k = Some (a, b) /\ (a <= i < b)%N).
Proof.
  intros Hp Hs. destruct (parts_from_tiles size part Hp Hs (N.to_nat size) 0) as (l & E & Ht); [lia|left; reflexivity|lia|].
  exists l. split; [exact E|]. split; [exact Ht|]. intros i Hi. apply (tiles_cover l 0 size Ht). lia.
Qed.
Print Assumptions c26_partition.
Example c26_hypotheses : parts 10 4 10 = Some [(0, 4); (4, 8); (8, 10)]%N /\ parts 0 4 0 = Some [].
Proof. split; reflexivity. Qed.
(** A part size of 0 makes the loop run for ever (the constructor accepts it). *)
Theorem c26_zero_part_size size fuel : (0 < size)%N -> parts size 0 fuel = None.
Proof. intros H. now apply parts_zero. Qed.
Print Assumptions c26_zero_part_size.

(** *** C27 *)
(** False in full: the two backends put the population identifiers of an impact
    message in opposite order. *)
Theorem c27_header_refuted :
  let h := mkPH 9 7 8 true in
  run_projection h 0 [mkIn [ex_syn 1 0 0] [SpikeMsg 7 0 [0]%N]] (proj_generated (fun i => nth_error [ex_syn 1 0 0] i) 1) []
    = Ret [Some (ImpactMsg 9 0 7 8 true [mkImpact 0 (f_of_Z 3) EXCITATORY 0 0])] /\
  mt_run h 0 [mkMtIn [ex_syn 1 0 0] [SpikeMsg 7 0 [0]%N] [(0, 1)]] []
    = [Some (ImpactMsg 9 0 8 7 true [mkImpact 0 (f_of_Z 3) EXCITATORY 0 0])].
Proof. split; vm_compute; reflexivity. Qed.
Print Assumptions c27_header_refuted.

(** Runs on both backends, for every part size and every order of the parts in
    every step: the steps send messages in the same steps, with the same sender,
    time, forcing flag and the same impacts up to order.  Missing: the two
    population identifiers (see above), several messages per step (C29) and
    repeated neuron indexes in one message. *)
Theorem c27_same_results_partial h part ins jns s p ends :
  (0 < part < two64)%N -> Forall2 (corresponds part) ins jns ->
  sound_projection p -> ends_of (p_syn p) = ends -> Forall (fun i => ends_of (in_syn i) = ends) ins ->
  Forall (fun i => (N.of_nat (length (in_syn i)) <= 2 ^ 63)%N) ins ->
  (s + N.of_nat (length ins) < two64)%N ->
  exists outs, run_projection h s ins p [] = Ret outs /\ Forall2 same_output outs (mt_run h s jns []).
Proof.
  intros Hp HF Hsp He He' Hsz Hb. apply sound_index_ok in Hsp.
  apply (runs_agree h part Hp ins jns s p [] [] s HF); auto; try lia; try (intros k m H; discriminate).
  - exists ends. auto.
  - intros k. exact I.
Qed.
Print Assumptions c27_same_results_partial.
Example c27_hypotheses :
  corresponds 3 (mkIn ex_net [SpikeMsg 7 0 [0; 1]%N]) (mkMtIn ex_net [SpikeMsg 7 0 [0; 1]%N] [(3, 4); (0, 3)]).
Proof.
  split; [reflexivity|]. split; [reflexivity|]. split; [|split].
  - right. exists 7%N, 0%N, [0; 1]%N. split; [reflexivity|]. repeat constructor; cbn; intuition discriminate.
  - repeat constructor.
  - exists [(0, 3); (3, 4)]%N, 9. split; [reflexivity|]. apply perm_swap.
Qed.

(** *** C29 *)
(** False: of two spike messages that wait for a projection only the first is
    processed, whatever the second contains. *)
Theorem c29_ignored_refuted h step m ms l order q :
  mt_calculate h step (m :: ms) l order q = mt_calculate h step [m] l order q.
Proof. reflexivity. Qed.
Print Assumptions c29_ignored_refuted.
Theorem c29_messages_refuted :
  let ms := [SpikeMsg 6 0 [1]%N; SpikeMsg 7 0 [0]%N] in
  run_projection (mkPH 9 7 8 true) 0 [mkIn [ex_syn 1 0 0] ms] (proj_generated (fun i => nth_error [ex_syn 1 0 0] i) 1) []
    = Ret [Some (ImpactMsg 9 0 7 8 true [mkImpact 0 (f_of_Z 3) EXCITATORY 0 0])] /\
  mt_run (mkPH 9 7 8 true) 0 [mkMtIn [ex_syn 1 0 0] ms [(0, 1)]] [] = [None].
Proof. split; vm_compute; reflexivity. Qed.
Print Assumptions c29_messages_refuted.

(** *** C58 *)
(** False: the header of an impact message does not carry the step at which the
    message is sent. *)
Theorem c58_send_time_refuted : exists h ins p outs t m time l,
  run_projection h 0 ins p [] = Ret outs /\ nth_error outs t = Some (Some m) /\
  m = ImpactMsg (ph_uid h) time (ph_pre h) (ph_post h) (ph_forced h) l /\ time <> N.of_nat t.
Proof.
  exists (mkPH 9 7 8 true), [mkIn [ex_syn 2 0 0] [SpikeMsg 7 0 [0]%N]; mkIn [ex_syn 2 0 0] []],
    (proj_generated (fun i => nth_error [ex_syn 2 0 0] i) 1).
  eexists _, 1, _, _, _. split; [vm_compute; reflexivity|]. split; [reflexivity|]. split; [reflexivity|]. discriminate.
Qed.
Print Assumptions c58_send_time_refuted.
(** It is the send step if all synapses have delay 1.  Missing: other delays. *)
Theorem c58_send_time_partial h s0 ins p ends outs t time a b f l :
  sound_projection p -> ends_of (p_syn p) = ends ->
  Forall (fun i => ends_of (in_syn i) = ends) ins -> Forall (fun i => Forall syn_ok (in_syn i)) ins ->
  (s0 + N.of_nat (length ins) + two32 <= two64)%N ->
  Forall (fun i => Forall (fun s => d_delay (sy_params s) = 1%N) (in_syn i)) ins ->
  run_projection h s0 ins p [] = Ret outs -> nth_error outs t = Some (Some (ImpactMsg (ph_uid h) time a b f l)) ->
  time = (s0 + N.of_nat t)%N.
Proof. exact (send_time_delay_one h s0 ins p ends outs t time a b f l). Qed.
Print Assumptions c58_send_time_partial.
