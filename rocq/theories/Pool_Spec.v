(** What the thread-pool properties talk about. *)
From Verif Require Import Base Pool_Model.

(** An execution: the labels of its steps, first to last. *)
Inductive execution : pool -> list label -> pool -> Prop :=
| e_nil s : execution s [] s
| e_snoc s tr s' a s'' : execution s tr s' -> step a s' s'' -> execution s (tr ++ [a]) s''.

Definition label_eq_dec (a b : label) : {a = b} + {a <> b}.
Proof. decide equality; apply Nat.eq_dec. Defined.
Definition occurrences (a : label) (tr : list label) : nat := count_occ label_eq_dec tr a.
Definition is_spurious (a : label) : bool := match a with LSpurious => true | _ => false end.
(** Steps of a trace that are not spurious wake-ups. *)
Definition real (tr : list label) : list label := filter (fun a => negb (is_spurious a)) tr.

(** A client is inside of a call of join(). *)
Definition in_join (th : thread) : Prop :=
  match th with Loop (Joining _ _) | Wait (Joining _ _) | Exec (Joining _ _) _ _ => True | _ => False end.
Definition is_worker (th : thread) : Prop :=
  match th with Loop Worker | Wait Worker | Exec Worker _ _ | Done => True | _ => False end.
(** No step is possible but spurious wake-ups. *)
Definition stuck (s : pool) : Prop := forall a s', step a s s' -> a = LSpurious.

(** Number of steps a task, a call and a thread can still account for. *)
Fixpoint task_steps (t : task) : nat :=
  match t with Task _ _ p => 3 + list_sum (map task_steps p) end.
Definition call_steps (c : call) : nat := match c with Post t => task_steps t | Join _ => 2 | Stop => 1 end.
Definition calls_steps (p : list call) : nat := list_sum (map call_steps p).
