(** Model of parts of the base framework: the network container, channel
    creation by the model loader, input and output channels, the executor's use of
    the step loop, and the stream and spike converters.  Paths are relative to
    /repo/knp/base-framework/. *)
From Verif Require Import Base Messaging_Model Core_Model.

(** ** Network *)
(** [Network::populations_] and [Network::projections_], network.h: vectors of
    variants; an entry is its identifier and the rest of the object. *)
Section Registry.
Context {A : Type}.
Definition registry := list (uid * A).
(** [find_cvariant]/[find_variant], impl/network.cpp:82-101. *)
Definition reg_find (u : uid) (l : registry) : option A :=
  match find (fun e => N.eqb (fst e) u) l with Some e => Some (snd e) | None => None end.
(** [add_population(AllPopulationsVariant &&)], [add_projection(AllProjectionsVariant
    &&)], network.cpp:104-111, 201-207: no check. *)
Definition reg_add_variant (u : uid) (x : A) (l : registry) : registry := l ++ [(u, x)].
(** [add_population<T>], [add_projection<T>], network.cpp:114-132, 210-242, with
    the checks 315-337 (the rest of the checks only logs). *)
Definition reg_add (u : uid) (x : A) (l : registry) : option registry :=
  match reg_find u l with Some _ => None | None => Some (reg_add_variant u x l) end.
(** [remove_population], [remove_projection], network.cpp:187-198, 301-312. *)
Fixpoint reg_erase (u : uid) (l : registry) : option registry :=
  match l with
  | [] => None
  | (v, x) :: t => if N.eqb v u then Some t
                   else match reg_erase u t with Some t' => Some ((v, x) :: t') | None => None end
  end.

(** Calls on one of the two containers; an exception leaves it as it was
    ([RThrew]), and the caller may go on. *)
Inductive rop :=
| RAdd (u : uid) (x : A) | RAddVariant (u : uid) (x : A) | RRemove (u : uid)
| RGet (u : uid) | RExists (u : uid) | RList.
Inductive rout := ROk | RThrew | RValue (x : A) | RBool (b : bool) | RAll (l : registry).
Definition reg_exec (l : registry) (o : rop) : registry * rout :=
  match o with
  | RAdd u x => match reg_add u x l with Some l' => (l', ROk) | None => (l, RThrew) end
  | RAddVariant u x => (reg_add_variant u x l, ROk)
  | RRemove u => match reg_erase u l with Some l' => (l', ROk) | None => (l, RThrew) end
  (* get_population, get_projection: network.cpp:142-184, 252-298; with the right
     type argument *)
  | RGet u => match reg_find u l with Some x => (l, RValue x) | None => (l, RThrew) end
  (* is_population_exists, is_projection_exists: network.cpp:135-139, 245-249 *)
  | RExists u => (l, RBool (match reg_find u l with Some _ => true | None => false end))
  (* get_populations, get_projections, begin_*/end_*: network.cpp:34-79 *)
  | RList => (l, RAll l)
  end.
Fixpoint reg_run (l : registry) (ops : list rop) : registry * list (rop * rout) :=
  match ops with
  | [] => (l, [])
  | o :: t => let (l1, x) := reg_exec l o in let (l2, tr) := reg_run l1 t in (l2, (o, x) :: tr)
  end.
End Registry.
Arguments registry : clear implicits.
Arguments rop : clear implicits.
Arguments rout : clear implicits.

(** ** Model and loader *)
(** [Model::in_channels_], model.h: an unordered multimap from channel to
    projection; here the list of its buckets, each a list of entries. *)
Definition buckets := list (list (uid * uid)).
(** [ModelLoader::init_channels], impl/model_loader.cpp:32-64: for every bucket
    that is not empty, one channel named after the first entry of the bucket, with
    the second components of all its entries. *)
Definition channels_of (b : buckets) : list (uid * list uid) :=
  flat_map (fun bucket => match bucket with
                          | [] => []
                          | (c, _) :: _ => [(c, map snd bucket)]
                          end) b.
(** [ModelLoader::gen_input_channel], model_loader.cpp:67-97, for every channel in
    turn: the endpoint of the channel, then the generator from [i_map_] (an
    exception if there is none), then a subscription of the backend's endpoint
    (endpoint 0) per projection.  [gens] are the identifiers with a generator.
    The tags and the lookup of the projection in the network are left out. *)
Fixpoint gen_inputs (gens : list uid) (chs : list (uid * list uid)) : outcome (list uid * list op) :=
  match chs with
  | [] => Ret ([], [])
  | (c, ps) :: t =>
      if mem c gens then
        obind (gen_inputs gens t) (fun r =>
          Ret (c :: fst r, OCreate :: map (fun p => OSubscribe 0 0 p [c]) ps ++ snd r))
      else Throw
  end.
Definition load_inputs (gens : list uid) (b : buckets) : outcome (list uid * list op) :=
  gen_inputs gens (channels_of b).
(** [ModelLoader::gen_output_channel], model_loader.cpp:100-120: an endpoint per
    channel, subscribed to the populations; the first one gets number [id]. *)
Fixpoint gen_outputs (id : nat) (chs : list (uid * list uid)) : list uid * list op :=
  match chs with
  | [] => ([], [])
  | (c, ps) :: t => let (cs, ops) := gen_outputs (S id) t in
                    (c :: cs, OCreate :: OSubscribe id 0 c ps :: ops)
  end.
Definition load_outputs (id : nat) (b : buckets) : list uid * list op := gen_outputs id (channels_of b).

(** ** Output channel *)
(** [OutputChannel], include/knp/framework/io/output_channel.h: the buffer.  Only
    the step of the messages matters; they are kept whole. *)
Definition msg_time (m : message) : N :=
  match m with SpikeMsg _ t _ => t | ImpactMsg _ t _ _ _ _ => t end.
(** [OutputChannel::update], impl/output_channel.cpp:38-51, given the messages
    unloaded from its endpoint. *)
Definition oc_update (ms buf : list message) : list message := buf ++ ms.
(** [std::lower_bound] / [std::upper_bound] with a test that must hold for a
    first part of the range and fail for the rest; if the range is not of this
    shape the call is outside of its contract. *)
Fixpoint prefix_length (p : message -> bool) (l : list message) : nat :=
  match l with [] => 0 | m :: t => if p m then S (prefix_length p t) else 0 end.
Definition bound (p : message -> bool) (l : list message) : outcome nat :=
  if forallb (fun m => negb (p m)) (skipn (prefix_length p l) l) then Ret (prefix_length p l) else UB.
(** [OutputChannel::read_some_from_buffer], output_channel.cpp:54-67: the result
    and the buffer afterwards.  [limit] is the number of messages for which
    storage can be had: [reserve] throws beyond it (59).  A reversed iterator range
    is undefined behaviour (64, 65). *)
Definition oc_read (limit : N) (a b : N) (buf : list message) : outcome (list message * list message) :=
  if (limit <? add64 (add64 a b) 1)%N then Throw
  else
    obind (bound (fun m => (msg_time m <? a)%N) buf) (fun first =>
    obind (bound (fun m => (msg_time m <=? b)%N) buf) (fun last =>
      if Nat.ltb last first then UB
      else Ret (firstn (last - first) (skipn first buf), firstn first buf ++ skipn last buf))).
(** A history of one output channel. *)
Inductive oc_op := OcUpdate (ms : list message) | OcRead (a b : N).
Fixpoint oc_run (limit : N) (buf : list message) (ops : list oc_op)
  : outcome (list message * list (list message)) :=
  match ops with
  | [] => Ret (buf, [])
  | OcUpdate ms :: t => oc_run limit (oc_update ms buf) t
  | OcRead a b :: t => obind (oc_read limit a b buf) (fun r =>
                       obind (oc_run limit (snd r) t) (fun q => Ret (fst q, fst r :: snd q)))
  end.

(** ** Input channels and the executor *)
(** [InputChannel::send] and [send_data], include/knp/framework/io/input_channel.h:
    99-120, for the data [d] its generator yields. *)
Definition ic_send (channel : uid) (step : N) (d : list N) : list message :=
  match d with [] => [] | _ => [SpikeMsg channel step d] end.
(** What [ModelExecutor::start], impl/model_executor.cpp:92-128, makes of the calls
    of the backend's step loop (Core_Model.start with both predicates): the
    predicate given to the backend first lets every input channel send (100-103),
    then calls the user's predicate (105).  [data i j step]: what the generator of
    the [j]-th channel yields in its [i]-th call.  Generators do not throw here. *)
Inductive xevent := XSend (m : message) | XOther (e : event).
Definition inputs_sent (chans : list uid) (data : nat -> nat -> N -> list N) (i : nat) (step : N) : list message :=
  flat_map (fun x => ic_send (snd x) step (data i (fst x) step)) (combine (seq 0 (length chans)) chans).
Fixpoint executor_events (chans : list uid) (data : nat -> nat -> N -> list N) (i : nat) (evs : list event)
  : list xevent :=
  match evs with
  | [] => []
  | EPre s a :: t => map XSend (inputs_sent chans data i s) ++ XOther (EPre s a) :: executor_events chans data (S i) t
  | e :: t => XOther e :: executor_events chans data i t
  end.
Definition executor_start chans data (e : env) (fuel : nat) (b : bstate) : list xevent * bstate * ending :=
  let '(evs, b', en) := start true true e fuel b in (executor_events chans data 0 evs, b', en).

(** ** Output converters *)
Definition indexes (ms : list message) : list N :=
  flat_map (fun m => match m with SpikeMsg _ _ idx => idx | _ => [] end) ms.
Fixpoint upd {A} (i : nat) (f : A -> A) (l : list A) : list A :=
  match l, i with
  | [], _ => []
  | x :: t, 0 => f x :: t
  | x :: t, S i' => x :: upd i' f t
  end.
(** [converter_bitwise], include/knp/framework/io/out_converters/
    convert_bitwise.h:47-59. *)
Definition converter_bitwise (ms : list message) (size : nat) : list bool :=
  fold_left (fun r i => if (i <? N.of_nat size)%N then upd (N.to_nat i) (fun _ => true) r else r)
            (indexes ms) (repeat false size).
(** [converter_count], convert_count.h:47-59. *)
Definition converter_count (ms : list message) (size : nat) : list N :=
  fold_left (fun r i => if (i <? N.of_nat size)%N then upd (N.to_nat i) (fun c => add64 c 1) r else r)
            (indexes ms) (repeat 0%N size).
(** [ConvertToSet::operator()], convert_set.h:59-71; a [std::set] is a strictly
    increasing list.  The bound, a [size_t], is converted to the 32-bit key
    type (68). *)
Fixpoint set_insert (x : N) (l : list N) : list N :=
  match l with
  | [] => [x]
  | y :: t => if (x <? y)%N then x :: l else if N.eqb x y then l else y :: set_insert x t
  end.
Definition converter_set (ms : list message) (size : N) : list N :=
  filter (fun x => (x <? w32 size)%N) (fold_left (fun s i => set_insert i s) (indexes ms) []).

(** ** Input converters *)
(** [SequenceConverter::operator()], include/knp/framework/io/in_converters/
    sequence_converter.h:76-92, on a stream of values; reading beyond its end uses
    an uninitialised value.  The result and the rest of the stream. *)
Fixpoint sequence_from {V} (interpret : V -> bool) (i size : nat) (stream : list V) : outcome (list N * list V) :=
  match size with
  | 0 => Ret ([], stream)
  | S n => match stream with
           | [] => UB
           | v :: t => obind (sequence_from interpret (S i) n t) (fun r =>
                         Ret ((if interpret v then [w32 (N.of_nat i)] else []) ++ fst r, snd r))
           end
  end.
Definition sequence_converter {V} (interpret : V -> bool) (size : nat) (stream : list V) : outcome (list N * list V) :=
  sequence_from interpret 0 size stream.

(** Characters are their codes. *)
Definition is_digit (c : N) : bool := ((48 <=? c) && (c <=? 57))%N.
Definition is_space (c : N) : bool := (((9 <=? c) && (c <=? 13)) || (c =? 32))%N.
Fixpoint take_digits (acc : N) (s : list N) : N :=
  match s with
  | c :: t => if is_digit c then take_digits (acc * 10 + (c - 48)) t else acc
  | [] => acc
  end.
Fixpoint skip_spaces (s : list N) : list N :=
  match s with c :: t => if is_space c then skip_spaces t else s | [] => [] end.
(** [std::stoul] in base 10: white space, a sign, digits up to the first other
    character; an exception if there is no digit or the number does not fit. *)
Definition stoul (s : list N) : outcome N :=
  let s := skip_spaces s in
  let '(neg, s) := match s with
                   | c :: t => if N.eqb c 43 then (false, t) else if N.eqb c 45 then (true, t) else (false, s)
                   | [] => (false, []) end in
  match s with
  | c :: _ => if is_digit c then
                let v := take_digits 0 s in
                if (v <? two64)%N then Ret (if neg : bool then sub64 0 v else v) else Throw
              else Throw
  | [] => Throw
  end.
(** Position of the first [delim] at or after the given one, or the length. *)
Fixpoint find_delim (delim : N) (pos : nat) (s : list N) : nat :=
  match s with
  | [] => pos
  | c :: t => if N.eqb c delim then pos else find_delim delim (S pos) t
  end.
(** [IndexConverter::operator()], impl/input_converter.cpp:30-50, on one line.  [substr] is called with the position of the
    delimiter as length; the number is stored in 32 bits.  Every iteration moves
    [first] forward, so the length of the line is the fuel. *)
Fixpoint index_loop (delim : N) (line : list N) (first second : nat) (fuel : nat) : outcome (list N) :=
  match fuel with
  | 0 => Ret []
  | S f =>
      if Nat.eqb first (length line) then Ret []
      else
        let second := find_delim delim (S second) (skipn (S second) line) in
        obind (stoul (firstn second (skipn first line))) (fun v =>
          if Nat.eqb second (length line) then Ret [w32 v]
          else obind (index_loop delim line (S second) second f) (fun r => Ret (w32 v :: r)))
  end.
Definition index_converter (delim : N) (line : list N) : outcome (list N) :=
  index_loop delim line 0 0 (S (length line)).
