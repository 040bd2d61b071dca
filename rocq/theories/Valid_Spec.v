(** What the property of the executor of validators talks about. *)
From Coq Require Import String.
From Verif Require Import Base Core_Model Valid_Model.

Section Spec.
Context {W P Q : Type}.
Context (ptags : P -> tags) (qtags : Q -> tags).

(** The "name" tag, if there is one, holds a string. *)
Definition name_readable (t : tags) : Prop := forall v, tag_find name_tag t = Some v -> exists x, v = Some (string_type, x).
(** A call of user code: which validator, its name, what it does to the program, and
    whether what it is called on has a readable name. *)
Record planned := mkPlan { pl_uid : uid; pl_name : string; pl_code : W -> outcome (W * report); pl_readable : Prop }.
Definition plan {A} (rd : A -> Prop) (v : uid * (string * validator A)) (a : A) : planned :=
  mkPlan (fst v) (fst (snd v)) (fun w => snd (snd v) w a) (rd a).
(** Every population validator on every population, then every projection validator on
    every projection, then every network validator on the network. *)
Definition schedule (e : @vexec W P Q) (n : @network P Q) : list planned :=
  flat_map (fun v => map (plan (fun p => name_readable (ptags p)) v) (fst n)) (vx_pops e) ++
  flat_map (fun v => map (plan (fun q => name_readable (qtags q)) v) (snd n)) (vx_projs e) ++
  map (fun v => plan (fun _ => True) v n) (vx_nets e).
Definition known_severity (s : severity) : Prop := match s with OtherSeverity _ => False | _ => True end.
Definition known (r : report) : Prop := Forall (fun i => known_severity (is_severity i)) r.
(** The calls are made one after another; each is on something with a readable name and
    returns a report of issues of known severities. *)
Inductive performed : list planned -> W -> W -> list vresult -> Prop :=
| perf_nil w : performed [] w w []
| perf_cons c l w w1 w' r rs : pl_readable c -> pl_code c w = Ret (w1, r) -> known r -> performed l w1 w' rs ->
    performed (c :: l) w w' (mkVR (pl_uid c) (pl_name c) r :: rs).
(** Ways in which a call ends the whole run with an exception. *)
Definition fails (c : planned) (w : W) : Prop :=
  ~ pl_readable c \/ pl_code c w = Throw \/ exists w1 r, pl_code c w = Ret (w1, r) /\ ~ known r.
End Spec.
