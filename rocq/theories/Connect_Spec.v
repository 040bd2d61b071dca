(** What the properties of projection creators and of the validator talk about. *)
From Verif Require Import Base Projection_Model Connect_Model.
From Coq Require Export Permutation Sorted.

(** The (source, target) pairs of synapses. *)
Definition ends {P} (l : list (synapse P)) : list (N * N) := map (fun s => (sy_from s, sy_to s)) l.
(** Every synapse has the parameters the generator gives for its ends. *)
Definition parametrised {P} (sg : nat -> nat -> P) (l : list (synapse P)) : Prop :=
  forall s, In s l -> sy_params s = sg (N.to_nat (sy_from s)) (N.to_nat (sy_to s)).
Definition fan_out {P} (l : list (synapse P)) (a : N) : nat := length (filter (fun s => N.eqb (sy_from s) a) l).
Definition fan_in {P} (l : list (synapse P)) (b : N) : nat := length (filter (fun s => N.eqb (sy_to s) b) l).

(** The projection names the population as an end. *)
Definition touches (u : uid) (l : link) : Prop := u <> 0%N /\ (l_pre l = u \/ l_post l = u).
