(** Model of the executor of network validators,
    base-framework/impl/network_validation/executor.cpp and
    base-framework/include/knp/framework/tags/name.h.
    User code (the validators) is a function of the state of the rest of the
    program ([W]), which it may change, and of what it is given; it may throw. *)
From Coq Require Import String DecimalString.
From Coq Require DecimalN.
From Verif Require Import Base Core_Model.
Local Open Scope string_scope.
Local Open Scope list_scope.

(** [IssueSeverity], report.h:37-53; a scoped enumeration can hold other values of [int]. *)
Inductive severity := Info | Warning | Error | OtherSeverity (z : Z).
(** [Issue], report.h:62-81: severity, message, value of the error code. *)
Record issue := mkIssue { is_severity : severity; is_message : string; is_code : Z }.
(** [Report], report.h:90. *)
Definition report := list issue.

Section Validation.
(** State of the program around, populations, projections; their tags. *)
Context {W P Q : Type}.
Context (ptags : P -> tags) (qtags : Q -> tags).

(** What a validator gets, executor.h: [PopulationValidator], [ProjectionValidator],
    [NetworkValidator] of validator_types.h. *)
Definition network : Type := list P * list Q.
Definition validator (A : Type) := W -> A -> outcome (W * report).
(** [std::map<UID, std::pair<std::string, Validator>>], executor.h:157-161: in the order of identifiers. *)
Definition vmap (A : Type) := list (uid * (string * validator A)).
Fixpoint vput {A} (u : uid) (v : string * validator A) (m : vmap A) : vmap A :=
  match m with
  | [] => [(u, v)]
  | (k, w) :: r => if N.eqb k u then (u, v) :: r else if N.ltb u k then (u, v) :: (k, w) :: r else (k, w) :: vput u v r
  end.
(** [std::to_string(std::size_t)]. *)
Definition decimal (n : nat) : string := NilZero.string_of_uint (N.to_uint (N.of_nat n)).
(** The three maps of an executor, executor.h:157-161. *)
Record vexec := mkVX { vx_pops : vmap P; vx_projs : vmap Q; vx_nets : vmap network }.
(** The six overloads of [add_validator], executor.cpp:31-79: kind of validator, its
    name or none.  The right side of an assignment is evaluated first (C++17), so [size] is
    the one before the insertion.  [u] is the identifier generated by the call. *)
Inductive add_call := AddPop (nm : option string) (f : validator P) | AddProj (nm : option string) (f : validator Q) | AddNet (nm : option string) (f : validator network).
Definition the_name (d : string) (nm : option string) (n : nat) : string :=
  match nm with Some s => s | None => String.append d (decimal n) end.
Definition add_validator (u : uid) (c : add_call) (e : vexec) : vexec :=
  match c with
  | AddPop nm f => mkVX (vput u (the_name "Population validator #" nm (length (vx_pops e)), f) (vx_pops e)) (vx_projs e) (vx_nets e)
  | AddProj nm f => mkVX (vx_pops e) (vput u (the_name "Projection validator #" nm (length (vx_projs e)), f) (vx_projs e)) (vx_nets e)
  | AddNet nm f => mkVX (vx_pops e) (vx_projs e) (vput u (the_name "Network validator #" nm (length (vx_nets e)), f) (vx_nets e))
  end.
Definition add_all (l : list (uid * add_call)) (e : vexec) : vexec := fold_left (fun e c => add_validator (fst c) (snd c) e) l e.
Definition no_validators : vexec := mkVX [] [] [].

(** [log_report], executor.cpp:82-101: only the exception is modelled, not the text of the log. *)
Fixpoint log_report (r : report) : outcome unit :=
  match r with
  | [] => Ret tt
  | i :: t => match is_severity i with OtherSeverity _ => Throw | _ => log_report t end
  end.
(** [get_name], name.h:54-62: the "name" tag (number 0 here) read as a string (type 0), or the
    identifier; only whether it throws matters to the executor.  Reading through the constant map. *)
Definition name_tag : N := 0%N.
Definition string_type : nat := 0.
Definition get_name (t : tags) : outcome unit :=
  if tag_exists name_tag t then match get_tag_const string_type name_tag t with Some _ => Ret tt | None => Throw end else Ret tt.

(** [ValidatorResult], executor.h:119-139. *)
Record vresult := mkVR { vr_uid : uid; vr_name : string; vr_report : report }.
(** One call of a validator: lines 115-120, 133-138, 149-152 of executor.cpp. *)
Definition call_one {A} (named : A -> outcome unit) (v : uid * (string * validator A)) (a : A) (w : W) : outcome (W * vresult) :=
  obind (named a) (fun _ =>
  obind (snd (snd v) w a) (fun x =>
  obind (log_report (snd x)) (fun _ => Ret (fst x, mkVR (fst v) (fst (snd v)) (snd x))))).
(** The inner loop, executor.cpp:113-121 and 131-140. *)
Fixpoint over_elements {A} (named : A -> outcome unit) (v : uid * (string * validator A)) (l : list A) (w : W) (acc : list vresult) : outcome (W * list vresult) :=
  match l with
  | [] => Ret (w, acc)
  | a :: r => obind (call_one named v a w) (fun x => over_elements named v r (fst x) (acc ++ [snd x]))
  end.
(** The outer loops, executor.cpp:111-122, 129-141 and 147-153. *)
Fixpoint over_validators {A} (named : A -> outcome unit) (m : vmap A) (l : list A) (w : W) (acc : list vresult) : outcome (W * list vresult) :=
  match m with
  | [] => Ret (w, acc)
  | v :: r => obind (over_elements named v l w acc) (fun x => over_validators named r l (fst x) (snd x))
  end.
(** [Executor::run_validators], executor.cpp:104-158; the tests of emptiness at 108, 126, 144 only
    decide about two lines of the log. *)
Definition run_validators (e : vexec) (n : network) (w : W) : outcome (W * list vresult) :=
  obind (over_validators (fun p => get_name (ptags p)) (vx_pops e) (fst n) w []) (fun x =>
  obind (over_validators (fun q => get_name (qtags q)) (vx_projs e) (snd n) (fst x) (snd x)) (fun y =>
  over_validators (fun _ => Ret tt) (vx_nets e) [n] (fst y) (snd y))).
End Validation.
