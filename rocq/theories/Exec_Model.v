(** The model executor on a backend: input channels, message handlers, output
    channels and observers around the steps of a network (single-threaded CPU
    backend, Net_Model). *)
From Verif Require Import Base Messaging_Model Messaging_Spec Neuron_Model Pipeline_Model Train_Model Net_Model Framework_Model.

(** Calls on the executor before its first start, [add_spike_message_handler]
    (base-framework/impl/model_executor.cpp:137-149) and [add_observer]
    (include/knp/framework/model_executor.h:93-100).  The function of a handler may
    keep state: [f n ms] is what its [n]-th call gives. *)
Inductive xcall :=
| AddHandler (u : uid) (senders receivers : list uid) (f : nat -> list message -> list N)
| AddObserver (ty : nat) (u : uid) (senders : list uid).
(** The endpoint of the first call gets number [id]. *)
Fixpoint call_ops (id : nat) (calls : list xcall) : list op :=
  match calls with
  | [] => []
  | AddHandler u ss rs _ :: t => OCreate :: OSubscribe id 0 u ss :: map (fun r => OSubscribe 0 0 r [u]) rs ++ call_ops (S id) t
  | AddObserver ty u ss :: t => OCreate :: OSubscribe id ty u ss :: call_ops (S id) t
  end.

(** The executor: the backend, the buffers of the output channels, and how many
    steps were done. *)
Record xstate := mkX { x_net : nbackend; x_buffers : list (list message); x_done : nat }.
(** [ModelLoader::load], model_loader.cpp:123-141, on channels that are given as
    the loader sees them (Framework_Model.channels_of), then the calls above, then
    [_init] of the backend (cpu-single-threaded-backend/impl/backend.cpp:207-214),
    which the first start makes.  Every projection of the network is supported by
    the backend and is loaded with an empty queue. *)
Definition executor_init (gens : list uid) (ins outs : list (uid * list uid)) (calls : list xcall)
    (pops : list (uid * npop)) (projs : list nproj) : outcome xstate :=
  obind (gen_inputs gens ins) (fun li =>
  let lo := gen_outputs (S (length ins)) outs in
  obind (run bus_init (OCreate :: snd li ++ snd lo ++ call_ops (S (length ins) + length outs) calls ++ ninit_ops projs)) (fun r =>
  Ret (mkX (mkNB (fst r) pops projs 0) (map (fun _ => []) outs) 0))).

(** [receive_all_messages] and [unload_messages], at the start of
    [OutputChannel::update] (impl/output_channel.cpp:40-41),
    [SpikeMessageHandler::update] (model_executor.cpp:64-65) and
    [MessageObserver::update] (include/knp/framework/monitoring/observer.h:99-100). *)
Definition hear (b : bus) (id ty : nat) (u : uid) : outcome (bus * list message) :=
  obind (exec b (OReceiveAll id)) (fun x =>
  obind (exec (fst x) (OUnload id ty u)) (fun y =>
  match snd y with OutMsgs l => Ret (fst y, l) | _ => UB end)).
(** [i_ch.send(step)], model_executor.cpp:100-103: channel number [j] has endpoint
    [S j]. *)
Fixpoint send_inputs (step : N) (j : nat) (chans : list (uid * list uid)) (data : nat -> list N) (b : bus) : outcome bus :=
  match chans with
  | [] => Ret b
  | (c, _) :: t =>
      obind (run b (map (OSend (S j)) (ic_send c step (data j)))) (fun r => send_inputs step (S j) t data (fst r))
  end.
(** [o_ch.update()], model_executor.cpp:110-113: the messages that each channel
    adds to its buffer. *)
Fixpoint update_outputs (id : nat) (chans : list (uid * list uid)) (b : bus) : outcome (bus * list (list message)) :=
  match chans with
  | [] => Ret (b, [])
  | (c, _) :: t =>
      obind (hear b id 0 c) (fun x =>
      obind (update_outputs (S id) t (fst x)) (fun y => Ret (fst y, snd x :: snd y)))
  end.
(** [handler->update(step)], model_executor.cpp:115-118 and 62-72: what each handler
    got and what it sent. *)
Fixpoint update_handlers (n : nat) (step : N) (id : nat) (calls : list xcall) (b : bus)
  : outcome (bus * list (list message * list message)) :=
  match calls with
  | [] => Ret (b, [])
  | AddHandler u _ _ f :: t =>
      obind (hear b id 0 u) (fun x =>
      let sent := match f n (snd x) with [] => [] | d => [SpikeMsg u step d] end in
      obind (run (fst x) (map (OSend id) sent)) (fun y =>
      obind (update_handlers n step (S id) t (fst y)) (fun z => Ret (fst z, (snd x, sent) :: snd z))))
  | AddObserver _ _ _ :: t => update_handlers n step (S id) t b
  end.
(** The observers, model_executor.cpp:120-123: what each is called with. *)
Fixpoint update_observers (id : nat) (calls : list xcall) (b : bus) : outcome (bus * list (list message)) :=
  match calls with
  | [] => Ret (b, [])
  | AddHandler _ _ _ _ :: t => update_observers (S id) t b
  | AddObserver ty u _ :: t =>
      obind (hear b id ty u) (fun x =>
      obind (update_observers (S id) t (fst x)) (fun y => Ret (fst y, snd x :: snd y)))
  end.

(** One round of the loop of [Backend::start] (core-library/impl/backend.cpp:122-133)
    as [ModelExecutor::start] (model_executor.cpp:92-128) uses it: calls of
    [start_learning]/[stop_learning] made before the round, the data that the
    generators of the channels yield, and the answer of the user's predicate. *)
Record xturn := mkXT { xt_learn : list bool; xt_data : nat -> list N; xt_go : bool }.
(** What can be seen of a round with a step. *)
Record xrecord := mkXR {
  xr_net : nrecord; xr_out : list (list message);
  xr_handled : list (list message * list message); xr_observed : list (list message) }.
Definition with_net (k : nbackend) (b : bus) (projs : list nproj) : nbackend := mkNB b (nb_pops k) projs (nb_step k).

Section Executor.
Variables pow2f expf : flt -> flt.
Variables (ins outs : list (uid * list uid)) (calls : list xcall).
Definition executor_turn (u : xturn) (x : xstate) : outcome (xstate * option xrecord) :=
  let k := x_net x in
  obind (send_inputs (nb_step k) 0 ins (xt_data u) (nb_bus k)) (fun b =>
  let k1 := with_net k b (learn_all (xt_learn u) (nb_projs k)) in
  if xt_go u then
    obind (nbackend_step pow2f expf (pending b) k1) (fun s =>
    let k2 := fst s in
    obind (update_outputs (S (length ins)) outs (nb_bus k2)) (fun o =>
    obind (update_handlers (x_done x) (nb_step k2) (S (length ins) + length outs) calls (fst o)) (fun h =>
    obind (update_observers (S (length ins) + length outs) calls (fst h)) (fun v =>
    Ret (mkX (with_net k2 (fst v) (nb_projs k2))
             (map (fun e => oc_update (snd e) (fst e)) (combine (x_buffers x) (snd o))) (S (x_done x)),
         Some (mkXR (snd s) (snd o) (snd h) (snd v)))))))
  else Ret (mkX k1 (x_buffers x) (x_done x), None)).
(** A sequence of rounds, over any number of calls of [start]: a round that the
    predicate refuses ends the call. *)
Fixpoint executor_run (turns : list xturn) (x : xstate) : outcome (xstate * list xrecord) :=
  match turns with
  | [] => Ret (x, [])
  | u :: t =>
      obind (executor_turn u x) (fun y =>
      obind (executor_run t (fst y)) (fun z =>
      Ret (fst z, match snd y with Some r => r :: snd z | None => snd z end)))
  end.
End Executor.
