(** Model of a whole step of the single-threaded CPU backend: the message bus,
    the backend's endpoint, its populations and its projections together. *)
From Verif Require Import Base Messaging_Model Messaging_Spec Projection_Model Delta_Model Neuron_Model.

(** A population of the backend, [SingleThreadedCPUBackend::PopulationVariants]
    (/repo/knp/backends/cpu/cpu-single-threaded-backend/include/knp/backends/
    cpu-single-threaded/backend.h), with the parameters and the state of every
    neuron.  The two populations with resource STDP, whose step also trains
    projections, are left out (their training is modelled in Stdp_Model). *)
Inductive apop :=
| PopLif (l : list (lif_par * lif))
| PopBlifat (l : list (bl_par * bl))
| PopAltai (l : list (al_par * al)).

(** Neuron functions on parameters and state. *)
Definition lift_pre {P S} (f : P -> S -> S) (n : P * S) : P * S := (fst n, f (fst n) (snd n)).
Definition lift_imp {P S} (f : S -> impact -> outcome S) (n : P * S) (i : impact) : outcome (P * S) :=
  obind (f (snd n) i) (fun s => Ret (fst n, s)).
Definition lift_post {P S} (f : P -> S -> S * bool) (n : P * S) : (P * S) * bool :=
  let (s, b) := f (fst n) (snd n) in ((fst n, s), b).

(** [SingleThreadedCPUBackend::calculate_population], backend.cpp:217-260, which
    ends in [calculate_any_population] (populations_old.h:104-121): the new
    population and the spike message sent, if any. *)
Definition apop_step (u : uid) (step : N) (ms : list message) (a : apop) : outcome (apop * option message) :=
  match a with
  | PopLif l =>
      obind (population_step (lift_pre lif_pre) (lift_imp lif_impact) (lift_post lif_post) u step ms l)
            (fun r => Ret (PopLif (fst (fst r)), snd r))
  | PopBlifat l =>
      obind (population_step (lift_pre (bl_prestep false)) (lift_imp bl_impact) (lift_post bl_post) u step ms l)
            (fun r => Ret (PopBlifat (fst (fst r)), snd r))
  | PopAltai l =>
      obind (population_step (lift_pre (al_prestep false)) (lift_imp al_impact) (lift_post al_post) u step ms l)
            (fun r => Ret (PopAltai (fst (fst r)), snd r))
  end.

(** [ProjectionWrapper], cpu-library/.../backend.h: a projection with its message
    queue. *)
Record wproj := mkWP { wp_head : phead; wp_proj : dproj; wp_queue : queue }.

(** The backend: its bus, populations, projections and step counter
    (core-library/include/knp/core/backend.h). *)
Record backend := mkBackend {
  k_bus : bus; k_pops : list (uid * apop); k_projs : list wproj; k_step : N }.

(** [knp::backends::cpu::init], cpu-library/include/knp/backends/cpu-library/
    init.h:94-110, called by [_init] (backend.cpp:207-214): subscriptions of the
    backend's endpoint (endpoint 0).  The subscriptions of additive-STDP
    projections (init.h:41-82) are left out. *)
Definition init_proj (h : phead) : list op :=
  (if N.eqb (ph_pre h) 0 then [] else [OSubscribe 0 0 (ph_uid h) [ph_pre h]]) ++
  (if N.eqb (ph_post h) 0 then [] else [OSubscribe 0 1 (ph_post h) [ph_uid h]]).
Definition init_ops (projs : list wproj) : list op := flat_map (fun w => init_proj (wp_head w)) projs.
(** Subscriptions made on the backend's endpoint before it starts, by
    [Backend::subscribe] (core-library/include/knp/core/backend.h:222-226), by the
    model loader for input channels (base-framework/impl/model_loader.cpp:86) and
    by [add_spike_message_handler] (model_executor.cpp:147): message type, receiver
    and senders. *)
Record subscr := mkSubscr { sb_type : nat; sb_receiver : uid; sb_senders : list uid }.
Definition extra_ops (extra : list subscr) : list op :=
  map (fun s => OSubscribe 0 (sb_type s) (sb_receiver s) (sb_senders s)) extra.
(** A loaded, subscribed and initialised backend: the endpoint is created by the
    constructor (core-library/impl/backend.cpp:30-45), [_init] runs at the start. *)
Definition backend_init (extra : list subscr) (pops : list (uid * apop)) (projs : list wproj) : outcome backend :=
  obind (run bus_init (OCreate :: extra_ops extra ++ init_ops projs)) (fun r => Ret (mkBackend (fst r) pops projs 0)).

(** Calls on the backend's own endpoint. *)
Definition unload_own (b : bus) (ty : nat) (r : uid) : outcome (bus * list message) :=
  obind (exec b (OUnload 0 ty r)) (fun x =>
    match snd x with OutMsgs l => Ret (fst x, l) | _ => UB end).
Definition send_own (b : bus) (o : option message) : outcome bus :=
  match o with
  | Some m => obind (exec b (OSend 0 m)) (fun x => Ret (fst x))
  | None => Ret b
  end.
Definition route_receive_own (b : bus) : outcome bus :=
  obind (exec b ORoute) (fun x => obind (exec (fst x) (OReceiveAll 0)) (fun y => Ret (fst y))).

(** The loop over the populations, backend.cpp:95-111, with the unloading and
    sending done in [calculate_any_population] (populations_old.h:104-121).  The
    results list, for every population, what it took out of the endpoint and what
    it sent. *)
Fixpoint populations_phase (step : N) (pops : list (uid * apop)) (b : bus)
  : outcome (list (uid * apop) * bus * list (list message) * list (option message)) :=
  match pops with
  | [] => Ret ([], b, [], [])
  | (u, a) :: t =>
      obind (unload_own b 1 u) (fun x =>
      obind (apop_step u step (snd x) a) (fun y =>
      obind (send_own (fst x) (snd y)) (fun b2 =>
      obind (populations_phase step t b2) (fun z =>
        let '(t', b3, ins, outs) := z in
        Ret ((u, fst y) :: t', b3, snd x :: ins, snd y :: outs)))))
  end.
(** The loop over the projections, backend.cpp:117-133, with the unloading and
    sending done in [calculate_projection] (projections.h:59-84). *)
Fixpoint projections_phase (step : N) (projs : list wproj) (b : bus)
  : outcome (list wproj * bus * list (list message) * list (option message)) :=
  match projs with
  | [] => Ret ([], b, [], [])
  | w :: t =>
      obind (unload_own b 0 (ph_uid (wp_head w))) (fun x =>
      obind (calculate_projection (wp_head w) step (snd x) (wp_proj w) (wp_queue w)) (fun y =>
      let '(p', q', o) := y in
      obind (send_own (fst x) o) (fun b2 =>
      obind (projections_phase step t b2) (fun z =>
        let '(t', b3, ins, outs) := z in
        Ret (mkWP (wp_head w) p' q' :: t', b3, snd x :: ins, o :: outs)))))
  end.

(** What can be seen of a step: the messages waiting to be routed at its start
    (sent through other endpoints), what every population and projection took in,
    and what it sent. *)
Record record := mkRecord {
  r_ext : list message;
  r_pop_in : list (list message); r_pop_out : list (option message);
  r_proj_in : list (list message); r_proj_out : list (option message) }.

(** [SingleThreadedCPUBackend::_step], backend.cpp:89-141. *)
Definition backend_step (ext : list message) (k : backend) : outcome (backend * record) :=
  obind (route_receive_own (k_bus k)) (fun b1 =>
  obind (populations_phase (k_step k) (k_pops k) b1) (fun x =>
  let '(pops, b2, pin, pout) := x in
  obind (route_receive_own b2) (fun b3 =>
  obind (projections_phase (k_step k) (k_projs k) b3) (fun y =>
  let '(projs, b4, jin, jout) := y in
  obind (route_receive_own b4) (fun b5 =>
  Ret (mkBackend b5 pops projs (add64 (k_step k) 1), mkRecord ext pin pout jin jout)))))).

(** What the rest of the program does on the bus between two steps: any calls on
    other endpoints than the backend's own (creating, destroying, subscribing,
    sending, receiving, unloading, ...).  Routing outside of the steps is left
    out. *)
Definition outside (o : op) : bool :=
  match o with
  | OCreate => true
  | OStep | ORoute => false
  | ODestroy i | OSubscribe i _ _ _ | OUnsubscribe i _ _ | ORemoveReceiver i _ | OAddSender i _ _ _
  | ORemoveSender i _ _ _ | OSend i _ | OReceive i | OReceiveAll i | OUnload i _ _ => negb (Nat.eqb i 0)
  end.

(** A run: before every step, calls from outside.  [pending] (Messaging_Spec) is
    what is then waiting to be routed; it is recorded only. *)
Fixpoint backend_run (calls : list (list op)) (k : backend) : outcome (backend * list record) :=
  match calls with
  | [] => Ret (k, [])
  | ops :: t =>
      obind (run (k_bus k) ops) (fun x =>
      obind (backend_step (pending (fst x)) (mkBackend (fst x) (k_pops k) (k_projs k) (k_step k))) (fun y =>
      obind (backend_run t (fst y)) (fun z =>
      Ret (fst z, snd y :: snd z))))
  end.
