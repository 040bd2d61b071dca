(** What the properties of message handlers talk about. *)
From Verif Require Import Base Messaging_Model.
From Coq Require Export Sorted Permutation.

(** [sel] is a choice of [k] occurrences (all, if there are fewer) from [l]. *)
Definition choice (k : nat) (l sel : list N) : Prop :=
  length sel = Nat.min k (length l) /\ exists rest, Permutation (sel ++ rest) l.
(** The group of a spike: as many borders are at or below it. *)
Definition group_of (borders : list N) (s : N) : nat := length (filter (fun b => (b <=? s)%N) borders).
(** The spikes of group [j], in order. *)
Definition group (borders spikes : list N) (j : nat) : list N :=
  filter (fun s => Nat.eqb (group_of borders s) j) spikes.
Definition groups (borders spikes : list N) : list (list N) :=
  map (group borders spikes) (seq 0 (S (length borders))).
(** Sorting functions by descending size. *)
Definition bigger_first (g h : list N) : Prop := length h <= length g.
Definition sorts (srt : list (list N) -> list (list N)) : Prop :=
  forall l, Permutation (srt l) l /\ StronglySorted bigger_first (srt l).
Definition shuffles {A} (shf : list A -> list A) : Prop := forall l, Permutation (shf l) l.
