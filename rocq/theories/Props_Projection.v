(** Property theorems C16-C18: projections. *)
From Verif Require Import Base Projection_Model Projection_Spec Projection_Proofs.

(** *** C16 *)
(** False in full: after removing the synapses into neuron 0, a search reports
    position 1 although one synapse (at position 0) is left. *)
Theorem c16_search_refuted : exists (p0 : proj unit) p tr p' r,
  (exists g k, p0 = proj_generated g k) /\
  prun p0 [PRemovePost 0%N] = Ret (p, tr) /\ find_synapses ByPre 1%N p = (p', r) /\
  In 1 r /\ length (p_syn p) = 1.
Proof.
  exists (proj_generated (fun i => Some (mkSyn tt (N.of_nat i) (N.of_nat i))) 2).
  eexists _, _, _, _. split; [eauto|].
  split; [vm_compute; reflexivity|]. split; [vm_compute; reflexivity|]. split; [left; reflexivity|reflexivity].
Qed.
Print Assumptions c16_search_refuted.

(** The same damage is done by assigning a synapse through operator[]. *)
Theorem c16_assign_refuted : exists (p0 : proj unit) p tr p' r,
  prun p0 [PFind ByPre 0%N; PAssign 0 (mkSyn tt 5%N 5%N)] = Ret (p, tr) /\
  find_synapses ByPre 5%N p = (p', r) /\ r = [] /\ is_hit ByPre 5%N (p_syn p) 0.
Proof.
  exists (mkProj [mkSyn tt 0%N 0%N] [] false). eexists _, _, _, _.
  split; [vm_compute; reflexivity|]. split; [vm_compute; reflexivity|]. split; [reflexivity|].
  exists (mkSyn tt 5%N 5%N). split; reflexivity.
Qed.
Print Assumptions c16_assign_refuted.

(** Exact in every history that keeps the index undamaged (see
    Projection_Spec.undamaged).  Missing: histories that remove synapses by
    target, or assign synapses in place, while the index is up to date. *)
Theorem c16_search_partial {P} (p0 : proj P) fresh ops p tr c n p' r :
  (p0 = proj_empty /\ fresh = false) \/ (exists g k, p0 = proj_generated g k) /\ fresh = true ->
  prun p0 ops = Ret (p, tr) -> undamaged fresh tr ->
  find_synapses c n p = (p', r) ->
  p_syn p' = p_syn p /\ NoDup r /\ forall i, In i r <-> is_hit c n (p_syn p) i.
Proof. exact (search_correct p0 fresh ops p tr c n p' r). Qed.
Print Assumptions c16_search_partial.

Example c16_hypotheses :
  let g := fun i => if Nat.eqb i 2 then None else Some (mkSyn i (N.of_nat (i mod 2)) (N.of_nat (i / 2))) in
  let ops := [PFind ByPre 1%N; PRemove 0; PRemovePost 1%N; PAdd g 3; PRemovePre 0%N; PFind ByPost 2%N] in
  exists p tr, prun (proj_generated g 6) ops = Ret (p, tr) /\ undamaged true tr /\
    map (fun s => (sy_from s, sy_to s)) (p_syn p) = [(1, 0); (1, 2); (1, 0)]%N /\
    snd (find_synapses ByPost 0%N p) = [0; 2].
Proof.
  eexists _, _. split; [vm_compute; reflexivity|].
  split; [cbn; tauto|]. split; vm_compute; reflexivity.
Qed.

(** *** C17 *)
Theorem c17_remove_if {P} (f : synapse P -> bool) p p' c :
  remove_synapse_if f p = (p', c) ->
  p_syn p' = filter (fun s => negb (f s)) (p_syn p) /\ c = length (filter f (p_syn p)).
Proof. exact (remove_if_spec f p p' c). Qed.
Print Assumptions c17_remove_if.

Theorem c17_remove_presynaptic {P} n (p p' : proj P) c :
  remove_presynaptic n p = (p', c) ->
  p_syn p' = filter (fun s => negb (N.eqb (sy_from s) n)) (p_syn p) /\
  c = length (filter (fun s => N.eqb (sy_from s) n) (p_syn p)).
Proof. exact (remove_if_spec (fun s => N.eqb (sy_from s) n) p p' c). Qed.
Print Assumptions c17_remove_presynaptic.

(** Never undefined, whatever the state of the index. *)
Theorem c17_remove_postsynaptic {P} n (p : proj P) : exists p' c,
  remove_postsynaptic n p = Ret (p', c) /\
  p_syn p' = filter (fun s => negb (N.eqb (sy_to s) n)) (p_syn p) /\
  c = length (filter (fun s => N.eqb (sy_to s) n) (p_syn p)) /\
  p_updated p' = p_updated p /\
  (c = 0 -> p_updated p = true -> p_index p' = index_from 0 (p_syn p')).
Proof. exact (remove_post_spec n p). Qed.
Print Assumptions c17_remove_postsynaptic.

Theorem c17_remove_synapse {P} i (p : proj P) :
  ((exists p', remove_synapse i p = Ret p') <-> i < length (p_syn p)) /\
  forall p', remove_synapse i p = Ret p' ->
    exists l1 s l2, p_syn p = l1 ++ s :: l2 /\ length l1 = i /\ p_syn p' = l1 ++ l2.
Proof. exact (conj (remove_one_defined i p) (remove_one_spec i p)). Qed.
Print Assumptions c17_remove_synapse.

Example c17_demo :
  let p := mkProj (map (fun x => mkSyn tt (fst x) (snd x)) [(0, 5); (1, 5); (2, 6); (3, 5)]%N) [] true in
  exists p', remove_postsynaptic 5%N p = Ret (p', 3) /\ p_syn p' = [mkSyn tt 2%N 6%N].
Proof. ex_compute. Qed.

(** *** C18 *)
Theorem c18_add_synapses {P} (g : nat -> option (synapse P)) n p p' c :
  add_synapses g n p = (p', c) ->
  p_syn p' = p_syn p ++ yields g 0 n /\ c = length (yields g 0 n).
Proof. exact (add_spec g n p p' c). Qed.
Print Assumptions c18_add_synapses.

Theorem c18_constructor {P} (g : nat -> option (synapse P)) n :
  p_syn (proj_generated g n) = yields g 0 n.
Proof. exact (generated_spec g n). Qed.
Print Assumptions c18_constructor.

Example c18_demo :
  yields (fun i => if Nat.even i then Some (mkSyn i 0%N (N.of_nat i)) else None) 0 5 =
  [mkSyn 0 0%N 0%N; mkSyn 2 0%N 2%N; mkSyn 4 0%N 4%N].
Proof. reflexivity. Qed.
