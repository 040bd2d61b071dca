(** Model of the loggers of base-framework/impl/monitoring/model.cpp (paths are relative
    to /repo/knp/).  A log is the list of what is written, without the text formatting. *)
From Verif Require Import Base Messaging_Model Stdp_Model Projection_Model.
From Coq Require Import String Ascii Permutation Sorted.
Open Scope list_scope.

(** ** Strings in the order of std::string (lexicographic by unsigned characters) *)
Fixpoint str_cmp (a b : string) : comparison :=
  match a, b with
  | EmptyString, EmptyString => Eq
  | EmptyString, _ => Lt
  | _, EmptyString => Gt
  | String x a, String y b => match N.compare (N_of_ascii x) (N_of_ascii y) with Eq => str_cmp a b | r => r end
  end.

(** ** std::map<std::string, size_t> as a list of entries in the order of the keys *)
Definition counter := list (string * N).
(** [insert]: does nothing if the key is there. *)
Fixpoint map_insert (k : string) (v : N) (m : counter) : counter :=
  match m with
  | [] => [(k, v)]
  | (k', v') :: t => match str_cmp k k' with
                     | Lt => (k, v) :: m
                     | Eq => m
                     | Gt => (k', v') :: map_insert k v t
                     end
  end.
(** [accumulator[k] += n]. *)
Fixpoint map_add (k : string) (n : N) (m : counter) : counter :=
  match m with
  | [] => [(k, n)]
  | (k', v') :: t => match str_cmp k k' with
                     | Lt => (k, n) :: m
                     | Eq => (k', add64 v' n) :: t
                     | Gt => (k', v') :: map_add k n t
                     end
  end.

(** std::map<UID, std::string>, names of the observed senders. *)
Definition names := list (uid * string).
Definition name_of (ns : names) (u : uid) : option string :=
  option_map snd (find (fun p => N.eqb (fst p) u) ns).

(** ** Aggregated spikes *)
(** Clearing the accumulator and inserting all names with 0, model.cpp:143-144, 155-156. *)
Definition reset (ns : names) : counter := fold_left (fun m p => map_insert (snd p) 0%N m) ns [].
(** Adding the spikes of the messages, model.cpp:160-166. *)
Definition add_message (ns : names) (m : counter) (msg : message) : counter :=
  match msg with
  | SpikeMsg sender _ idx => match name_of ns sender with
                             | None => m
                             | Some name => map_add name (N.of_nat (List.length idx)) m
                             end
  | ImpactMsg _ _ _ _ _ _ => m  (* the observer takes spike messages only *)
  end.
(** A line of the log: the step and the counts, model.cpp:125-134. *)
Definition line := (N * list N)%type.
(** One call of the observer at backend step [step], model.cpp:145-168; [step % 0] is
    undefined. *)
Definition aggregated_call (ns : names) (period : N) (st : counter * list line) (step : N) (msgs : list message) : outcome (counter * list line) :=
  if N.eqb period 0 then UB
  else let '(m, log) := st in
       let '(m, log) := if N.eqb (step mod period) 0 then (reset ns, log ++ [(step, map snd m)]) else (m, log) in
       Ret (fold_left (add_message ns) msgs m, log).
(** Calls at consecutive steps, beginning with [step] (model_executor.cpp:119-123: the
    observers are updated after every step). *)
Fixpoint aggregated_run (ns : names) (period : N) (step : N) (calls : list (list message)) (st : counter * list line) : outcome (counter * list line) :=
  match calls with
  | [] => Ret st
  | msgs :: t => obind (aggregated_call ns period st step msgs) (aggregated_run ns period (step + 1) t)
  end.
(** [add_aggregated_spikes_logger] and all calls of the observer: model.cpp:187-201, 140-170. *)
Definition aggregated (ns : names) (period step : N) (calls : list (list message)) : outcome (counter * list line) :=
  aggregated_run ns period step calls (reset ns, []).
(** The header, model.cpp:112-122: the names, sorted (std::sort on strings: equal
    elements cannot be told apart). *)
Fixpoint str_insert (s : string) (l : list string) : list string :=
  match l with
  | [] => [s]
  | x :: t => match str_cmp s x with Gt => x :: str_insert s t | _ => s :: l end
  end.
Definition header (ns : names) : list string := fold_right str_insert [] (map snd ns).

(** ** Status *)
(** The observer of [add_status_logger], model.cpp:225-240: the number of messages of
    every call that has any; the parameter [period] is not used. *)
Definition status_log (period : N) (calls : list (list message)) : list nat :=
  flat_map (fun msgs : list message => match msgs with [] => [] | _ => [List.length msgs] end) calls.

(** ** Weights of a projection *)
(** What is written, model.cpp:80-107. *)
Inductive token := TStep (step : N) | TNeuron (n : N) | TValue (w : flt) (step : N).
(** model.cpp:37-44. *)
Record wrs := mkWrs { w_receiver : N; w_sender : N; w_weight : flt; w_step : N }.
(** A projection as the logger sees it: a resource-STDP projection, whose synapses have
    (rule_.synaptic_resource_, rule_.last_spike_step_, weight_), or another one. *)
Record rsyn := mkRsyn { r_resource : flt; r_last_step : N; r_weight : flt; r_from : N; r_to : N }.
Inductive lproj := LResource (u : uid) (syn : list rsyn) | LOther (u : uid).
Definition lp_uid (p : lproj) : uid := match p with LResource u _ => u | LOther u => u end.
(** The comparison of the sort, model.cpp:62-66. *)
Definition wrs_lt (a b : wrs) : bool :=
  if negb (N.eqb (w_receiver a) (w_receiver b)) then N.ltb (w_receiver a) (w_receiver b) else N.ltb (w_sender a) (w_sender b).
(** std::sort: any permutation in which no element is less than one before it. *)
Definition std_sorted (l l' : list wrs) : Prop :=
  Permutation l l' /\ StronglySorted (fun a b => wrs_lt b a = false) l'.
(** model.cpp:51-59: the value taken is the synaptic resource. *)
Definition weights_of (syn : list rsyn) : list wrs :=
  map (fun s => mkWrs (r_to s) (r_from s) (r_resource s) (r_last_step s)) syn.
(** The loop that writes the values, model.cpp:92-102, beginning with neuron = SIZE_MAX. *)
Fixpoint write_values (neuron : N) (l : list wrs) : list token :=
  match l with
  | [] => []
  | x :: t => (if N.eqb neuron (w_receiver x) then [] else [TNeuron (w_receiver x)]) ++ TValue (w_weight x) (w_step x) :: write_values (w_receiver x) t
  end.
Definition size_max : N := (two64 - 1)%N.
(** One call of the observer, model.cpp:76-107; [good] is the state of the stream.
    std::get throws for a projection of another kind, after the step was written. *)
Inductive weights_call (good : bool) (period : N) (u : uid) (step : N) (projs : list lproj) : outcome (list token) -> Prop :=
| wc_off : good = false -> weights_call good period u step projs (Ret [])
| wc_zero : good = true -> period = 0%N -> weights_call good period u step projs UB
| wc_skip : good = true -> period <> 0%N -> (step mod period <> 0)%N -> weights_call good period u step projs (Ret [])
| wc_absent : good = true -> period <> 0%N -> (step mod period = 0)%N -> find (fun p => N.eqb (lp_uid p) u) projs = None ->
    weights_call good period u step projs (Ret [TStep step])
| wc_other v : good = true -> period <> 0%N -> (step mod period = 0)%N -> find (fun p => N.eqb (lp_uid p) u) projs = Some (LOther v) ->
    weights_call good period u step projs Throw
| wc_write v syn l : good = true -> period <> 0%N -> (step mod period = 0)%N -> find (fun p => N.eqb (lp_uid p) u) projs = Some (LResource v syn) ->
    std_sorted (weights_of syn) l -> weights_call good period u step projs (Ret (TStep step :: write_values size_max l)).
