(** What C77 talks about: programs that use one executor only. *)
From Verif Require Import Base Pool_Model.

(** The task, and every task it posts itself, at any depth, belongs to executor [e]. *)
Fixpoint task_on (e : nat) (t : task) : Prop :=
  match t with
  | Task x _ posts => x = e /\ (fix all (l : list task) : Prop := match l with [] => True | a :: l => task_on e a /\ all l end) posts
  end.
Definition call_on (e : nat) (c : call) : Prop := match c with Post t => task_on e t | _ => True end.
