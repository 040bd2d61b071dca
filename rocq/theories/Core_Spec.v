(** What the properties of populations, tags, the step loop and devices talk
    about. *)
From Verif Require Import Base Core_Model.

(** The elements at the positions that are not listed, in order. *)
Definition without {A} (idx : list nat) (l : list A) : list A :=
  map snd (filter (fun p => negb (existsb (Nat.eqb (fst p)) idx)) (combine (seq 0 (length l)) l)).
(** Strictly ascending valid positions. *)
Fixpoint ascending (low : nat) (idx : list nat) (size : nat) : Prop :=
  match idx with
  | [] => True
  | i :: t => low <= i < size /\ ascending (S i) t size
  end.

(** One complete iteration of the step loop at step [s], with the predicates
    that exist. *)
Definition iteration (has_pre has_post : bool) (s : N) (p st q : act) : list event :=
  (if has_pre then [EPre s p] else []) ++ [EStep s st] ++ (if has_post then [EPost (add64 s 1) q] else []).
(** A call that neither refuses, stops nor throws. *)
Definition goes_on (a : act) : Prop := a_result a = true /\ a_stop a = false /\ a_throw a = false.
Definition quiet (a : act) : Prop := a_stop a = false /\ a_throw a = false.

(** Traces of the loop: complete undisturbed iterations, the step number growing
    by one each time, and one last, possibly incomplete iteration that explains
    how the loop ended. *)
Inductive loop_trace (has_pre has_post : bool) : N -> list event -> N -> ending -> Prop :=
| LT_more s p st q tr s' en :
    (has_pre = true -> goes_on p) -> quiet st -> (has_post = true -> goes_on q) ->
    loop_trace has_pre has_post (add64 s 1) tr s' en ->
    loop_trace has_pre has_post s (iteration has_pre has_post s p st q ++ tr) s' en
| LT_truncated s : (* still running when observation stops *)
    loop_trace has_pre has_post s [] s Running
| LT_pre_false s p :
    has_pre = true -> a_result p = false -> a_throw p = false ->
    loop_trace has_pre has_post s [EPre s p] s Returned
| LT_pre_throw s p :
    has_pre = true -> a_throw p = true ->
    loop_trace has_pre has_post s [EPre s p] s Threw
| LT_step_throw s p st :
    (has_pre = true -> a_result p = true /\ a_throw p = false) -> a_throw st = true ->
    loop_trace has_pre has_post s ((if has_pre then [EPre s p] else []) ++ [EStep s st]) s Threw
| LT_post_false s p st q :
    (has_pre = true -> a_result p = true /\ a_throw p = false) -> a_throw st = false ->
    has_post = true -> a_result q = false -> a_throw q = false ->
    loop_trace has_pre has_post s (iteration has_pre has_post s p st q) (add64 s 1) Returned
| LT_post_throw s p st q :
    (has_pre = true -> a_result p = true /\ a_throw p = false) -> a_throw st = false ->
    has_post = true -> a_throw q = true ->
    loop_trace has_pre has_post s (iteration has_pre has_post s p st q) (add64 s 1) Threw
| LT_stopped s p st q en :
    (has_pre = true -> a_result p = true /\ a_throw p = false) -> a_throw st = false ->
    (has_post = true -> a_result q = true /\ a_throw q = false) ->
    (has_pre = true /\ a_stop p = true) \/ a_stop st = true \/ (has_post = true /\ a_stop q = true) ->
    en = Returned \/ en = Running (* observation stops here *) ->
    loop_trace has_pre has_post s (iteration has_pre has_post s p st q) (add64 s 1) en.

Definition steps_done (tr : list event) : nat :=
  length (filter (fun e => match e with EStep _ a => negb (a_throw a) | _ => false end) tr).
Definition pres_true (tr : list event) : nat :=
  length (filter (fun e => match e with EPre _ a => a_result a && negb (a_throw a) | _ => false end) tr).
Definition steps_tried (tr : list event) : nat :=
  length (filter (fun e => match e with EStep _ _ => true | _ => false end) tr).
Definition stop_requested (tr : list event) : bool :=
  existsb (fun e => match e with EPre _ a | EStep _ a | EPost _ a => a_stop a | EInit => false end) tr.
Definition inits (tr : list event) : nat :=
  length (filter (fun e => match e with EInit => true | _ => false end) tr).
