(** What the properties of whole networks on the multi-threaded backend talk about. *)
From Verif Require Import Base Messaging_Model Projection_Model Delta_Model Delta_Spec Neuron_Model Pipeline_Model Pipeline_Spec
  Stdp_Model Additive_Model Train_Model Net_Model Net_Spec Mt_Model Mt_Spec Sched_Model MtNet_Model.

(** A schedule of one step for a network, with the part sizes given to the backend. *)
Definition nsched_ok (pp pj : N) (pops : list (uid * npop)) (projs : list nproj) (s : nsched) : Prop :=
  Forall2 (fun p o => any_order pp (N.of_nat (size (snd p))) (fst o) /\ any_order pp (N.of_nat (size (snd p))) (snd o)) pops (ns_pops s) /\
  Permutation (ns_train s) (seq 0 (length pops)) /\
  Forall2 (fun w o => any_order pj (N.of_nat (length (delta_synapses w))) o) projs (ns_projs s).
(** The projections this backend can load. *)
Definition loadable (w : nproj) : Prop := match np_kind w with NAdditive _ _ => False | _ => True end.
(** A run from the start. *)
Definition mt_net_run (pow2f : flt -> flt) (extra : list subscr) (pops : list (uid * npop)) (projs : list nproj)
    (turns : list (turn * nsched)) (k : nbackend) (tr : list nrecord) : Prop :=
  exists k0, nbackend_init extra pops projs = Ret k0 /\ mt_nbackend_run pow2f turns k0 = Ret (k, tr).

(** The populations as the single-threaded backend treats them: one after the other,
    each up to its spike message and through its training. *)
Fixpoint in_turn (pow2f : flt -> flt) (step : N) (ins : list (list message)) (pops : list (uid * npop)) (projs : list nproj)
  : outcome (list (uid * npop) * list nproj * list (option message)) :=
  match pops, ins with
  | (u, a) :: t, ms :: ins' =>
      obind (npop_step pow2f u step ms a projs) (fun y => let '(a', projs1, o) := y in
      obind (in_turn pow2f step ins' t projs1) (fun z => let '(t', projs2, os) := z in
      Ret ((u, a') :: t', projs2, o :: os)))
  | _, _ => Ret ([], projs, [])
  end.

(** The spike messages meant for a projection in a step, and those of them it uses. *)
Definition spikes_for (extra : list subscr) (r : nrecord) (w : nproj) : list message :=
  filter (to_nproj extra w) (sent_msgs (r_pop_out (nr_msgs r)) ++ r_ext (nr_msgs r)).
Definition first_input (extra : list subscr) (j : nat) (r : nrecord) : pinput :=
  match nth_error (nr_trained r) j with
  | Some w => mkIn (delta_synapses w) (firstn 1 (spikes_for extra r w))
  | None => mkIn [] []
  end.
(** A synapse after a step in which the given neurons spiked. *)
Definition marked (step : N) (spikes : list N) (s : rsyn) : rsyn :=
  if existsb (N.eqb (sy_from s)) spikes then mkSyn (on_rule (with_spike step) (sy_params s)) (sy_from s) (sy_to s) else s.
(** The weights and the smallest weights are [float]s. *)
Definition numeric (w : nproj) : Prop :=
  Forall (fun s => valid_binary 24 128 (d_weight (sy_params s)) = true) (delta_synapses w) /\
  Forall (fun s => valid_binary 24 128 (rr_min (rp_rule (sy_params s))) = true) (resource_synapses w).
