(** The graph of a network, in terms of its populations and projections. *)
From Verif Require Import Base Graph_Model.
From Coq Require Import Relations.Relation_Operators Sorting.Sorted.

(** The population with number [i] has identifier [u]. *)
Definition at_index (pops : list vpop) (u : uid) (i : nat) : Prop := exists p, nth_error pops i = Some p /\ vp_uid p = u.
(** A projection leads from the population with number [i] to the one with number [j]. *)
Definition leads (pops : list vpop) (projs : list vproj) (i j : nat) : Prop :=
  exists w, In w projs /\ at_index pops (vj_pre w) i /\ at_index pops (vj_post w) j.
(** There is a way over projections, in whichever direction. *)
Definition connected (pops : list vpop) (projs : list vproj) : nat -> nat -> Prop := clos_refl_sym_trans nat (leads pops projs).
(** A decomposition into parts: every population is in exactly one of them, a part is not empty
    and lists its populations in order, and two populations are in the same part exactly when they are connected. *)
Record parts_of (pops : list vpop) (projs : list vproj) (parts : list (list nat)) : Prop := mkParts {
  pt_once : Permutation (concat parts) (seq 0 (length pops));
  pt_order : Forall (fun p => p <> [] /\ StronglySorted lt p) parts;
  pt_same : forall i j, i < length pops -> j < length pops ->
    ((exists p, In p parts /\ In i p /\ In j p) <-> connected pops projs i j) }.
(** Where projections lead: the projections from the population with number [i], from outside, to the population with number [j]. *)
Definition is_at (pops : list vpop) (i : nat) (u : uid) : bool :=
  match nth_error pops i with Some p => N.eqb u (vp_uid p) | None => false end.
Definition outside_uid (pops : list vpop) (u : uid) : bool := negb (existsb (fun p => N.eqb u (vp_uid p)) pops).
(** Any way of choosing an element of a set. *)
Definition picks (pick : list nat -> list nat -> nat) : Prop := forall done s, s <> [] -> In (pick done s) s.
