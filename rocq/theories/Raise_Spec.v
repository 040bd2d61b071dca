(** What C122 talks about. *)
From Verif Require Import Base Pool_Model Pool_Spec Raise_Model.

Inductive xexecution (raises : nat -> nat -> bool) : process -> list xlabel -> process -> Prop :=
| xe_nil s : xexecution raises s [] s
| xe_snoc s tr s' a s'' : xexecution raises s tr s' -> xstep raises a s' s'' -> xexecution raises s (tr ++ [a]) s''.

Definition xlabel_eq_dec (a b : xlabel) : {a = b} + {a <> b}.
Proof. decide equality; first [apply label_eq_dec | apply Nat.eq_dec]. Defined.
Definition times (a : xlabel) (tr : list xlabel) : nat := count_occ xlabel_eq_dec tr a.
(** How often the exception of task [i] of executor [x] left a call of join(), of whichever executor. *)
Definition throws (x i : nat) (tr : list xlabel) : nat :=
  length (filter (fun a => match a with XThrow _ y j => Nat.eqb x y && Nat.eqb i j | _ => false end) tr).
(** How often task [i] of executor [x] was posted, was started, and came to an end (by returning or by throwing). *)
Definition was_posted (x i : nat) (tr : list xlabel) : nat := times (XStep (LPost x i)) tr.
Definition was_started (x i : nat) (tr : list xlabel) : nat := times (XStep (LStart x i)) tr.
Definition was_ended (x i : nat) (tr : list xlabel) : nat := times (XStep (LFinish x i)) tr + throws x i tr.
(** A spurious wake-up. *)
Definition x_spurious (a : xlabel) : bool := match a with XStep a => is_spurious a | _ => false end.
Definition x_real (tr : list xlabel) : list xlabel := filter (fun a => negb (x_spurious a)) tr.
Definition x_stuck (raises : nat -> nat -> bool) (p : process) : Prop := forall a p', xstep raises a p p' -> x_spurious a = true.
