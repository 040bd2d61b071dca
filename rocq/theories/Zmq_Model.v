(** Model of the ZeroMQ message bus.  Paths are relative to
    /repo/knp/core-library/impl/.  The sockets are modelled by what libzmq documents:
    - every endpoint has a DEALER socket connected to the bus' ROUTER socket: a pipe of
      the messages that were sent and not yet taken (oldest first); the ROUTER takes from
      any non-empty pipe (fair queueing: the model allows every choice) and delivers two
      frames, the automatic identity of the peer (5 bytes) and the body;
    - every endpoint has a SUB socket subscribed to everything and connected to the bus'
      PUB socket: a pipe of the messages that were published and not yet received; a PUB
      socket drops a message for a peer whose pipe is full;
    - a DEALER refuses to send (EAGAIN) while its pipe is full;
    - a closed DEALER's pipe is still read by the ROUTER.
    The capacities of the pipes (high-water marks, by default 1000 on each side) and the
    sizes of the packed messages are parameters. *)
From Verif Require Import Base Messaging_Model.

Record zcfg := mkCfg { packed_size : message -> nat; out_limit : nat; in_limit : nat }.

(** An endpoint: message_bus_zmq_impl/message_endpoint_zmq_impl.h:76-79 (the two
    sockets) and message_endpoint.h:219 (subscriptions). *)
Record zep := mkZ { z_alive : bool; z_out : list message; z_in : list message; z_subs : subs }.
(** The bus: message_bus_zmq_impl/message_bus_zmq_impl.h:57-83.  [z_half] is the body
    that follows an identity frame that was read, with the number of its sender. *)
Record zbus := mkZb { z_eps : list zep; z_half : option (nat * message) }.

Fixpoint upd {A} (i : nat) (f : A -> A) (l : list A) : list A :=
  match l, i with
  | [], _ => []
  | x :: t, 0 => f x :: t
  | x :: t, S i => x :: upd i f t
  end.

(** One call, or one step of the bus. *)
Inductive zlabel :=
| ZCreate (i : nat)
| ZDestroy (i : nat)
| ZSubscribe (i ty : nat) (receiver : uid) (senders : list uid)
| ZSend (i : nat) (m : message)
| ZIdentity (i : nat)                          (* step(): an identity frame, returns 1 *)
| ZPublish (i : nat) (m : message) (lost : list nat)  (* step(): a body is sent on; [lost]: endpoints whose pipe was full *)
| ZIgnored (i : nat) (m : message)             (* step(): a body that looks like an identity *)
| ZIdle                                        (* step(): nothing to do, returns 0 *)
| ZReceive (i : nat) (m : message)             (* receive_message() returns true *)
| ZNothing (i : nat)                           (* receive_message() returns false *)
| ZUnload (i ty : nat) (receiver : uid) (l : list message).

(** What [MessageBusZMQImpl::step] returns,
    message_bus_zmq_impl/message_bus_zmq_impl.cpp:106-143: 0 when poll() finds nothing
    (116-119), 1 for an identity - recognized by its 5 bytes, message_bus_zmq_impl.h:54
    (121-124), else whether the size of the body is not 0 (142). *)
Definition step_result (c : zcfg) (a : zlabel) : option nat :=
  match a with
  | ZIdentity _ | ZIgnored _ _ => Some 1
  | ZPublish _ m _ => Some (if Nat.eqb (packed_size c m) 0 then 0 else 1)
  | ZIdle => Some 0
  | _ => None
  end.

(** Publishing: message_bus_zmq_impl.cpp:128-133. *)
Definition z_full (c : zcfg) (e : zep) : bool := z_alive e && Nat.leb (in_limit c) (length (z_in e)).
Definition z_offer (c : zcfg) (m : message) (e : zep) : zep :=
  if z_alive e && negb (z_full c e) then mkZ (z_alive e) (z_out e) (z_in e ++ [m]) (z_subs e) else e.
Fixpoint z_lost (c : zcfg) (k : nat) (eps : list zep) : list nat :=
  match eps with
  | [] => []
  | e :: t => if z_full c e then k :: z_lost c (S k) t else z_lost c (S k) t
  end.

(** [Subscription::add_senders] through [MessageEndpoint::subscribe],
    message_endpoint.cpp:78-109 (the endpoint's own sender set is not used here: it is
    only for the CPU bus). *)
Definition z_subscribe (ty : nat) (r : uid) (senders : list uid) (l : subs) : subs :=
  sub_set (ty, r) (match sub_find (ty, r) l with
                   | Some s => mkSub (s_senders s ++ senders) (s_msgs s)
                   | None => mkSub senders []
                   end) l.

Inductive zstep (c : zcfg) : zlabel -> zbus -> zbus -> Prop :=
(** [create_endpoint], message_bus_zmq_impl.cpp:146-174. *)
| zs_create b : zstep c (ZCreate (length (z_eps b))) b (mkZb (z_eps b ++ [mkZ true [] [] []]) (z_half b))
(** destruction of the endpoint: both sockets are closed *)
| zs_destroy b i e : nth_error (z_eps b) i = Some e -> z_alive e = true ->
    zstep c (ZDestroy i) b (mkZb (upd i (fun e => mkZ false (z_out e) [] []) (z_eps b)) (z_half b))
| zs_subscribe b i e ty r senders : nth_error (z_eps b) i = Some e -> z_alive e = true ->
    zstep c (ZSubscribe i ty r senders) b (mkZb (upd i (fun e => mkZ (z_alive e) (z_out e) (z_in e) (z_subscribe ty r senders (z_subs e))) (z_eps b)) (z_half b))
(** [send_message], message_endpoint_zmq_impl.h:58-63, and [send_zmq_message],
    message_endpoint_zmq_impl.cpp:60-81, which repeats until the socket takes the
    message: while the pipe is full the call does not return. *)
| zs_send b i e m : nth_error (z_eps b) i = Some e -> z_alive e = true -> length (z_out e) < out_limit c ->
    zstep c (ZSend i m) b (mkZb (upd i (fun e => mkZ (z_alive e) (z_out e ++ [m]) (z_in e) (z_subs e)) (z_eps b)) (z_half b))
(** [step], message_bus_zmq_impl.cpp:106-143: one frame *)
| zs_identity b i e m rest : z_half b = None -> nth_error (z_eps b) i = Some e -> z_out e = m :: rest ->
    zstep c (ZIdentity i) b (mkZb (upd i (fun e => mkZ (z_alive e) rest (z_in e) (z_subs e)) (z_eps b)) (Some (i, m)))
| zs_publish b i m : z_half b = Some (i, m) -> packed_size c m <> 5 ->
    zstep c (ZPublish i m (z_lost c 0 (z_eps b))) b (mkZb (map (z_offer c m) (z_eps b)) None)
| zs_ignored b i m : z_half b = Some (i, m) -> packed_size c m = 5 ->
    zstep c (ZIgnored i m) b (mkZb (z_eps b) None)
| zs_idle b : z_half b = None -> Forall (fun e => z_out e = []) (z_eps b) -> zstep c ZIdle b b
(** [receive_message], message_endpoint_zmq_impl.h:46-56, message_endpoint_zmq_impl.cpp:84-128,
    message_endpoint.cpp:151-205 *)
| zs_receive b i e m rest : nth_error (z_eps b) i = Some e -> z_alive e = true -> z_in e = m :: rest ->
    zstep c (ZReceive i m) b (mkZb (upd i (fun e => mkZ (z_alive e) (z_out e) rest (map (deliver_to m) (z_subs e))) (z_eps b)) (z_half b))
| zs_nothing b i e : nth_error (z_eps b) i = Some e -> z_alive e = true -> z_in e = [] ->
    zstep c (ZNothing i) b b
(** [unload_messages], message_endpoint.cpp:226-241 *)
| zs_unload b i e ty r s : nth_error (z_eps b) i = Some e -> z_alive e = true -> sub_find (ty, r) (z_subs e) = Some s ->
    zstep c (ZUnload i ty r (s_msgs s)) b
      (mkZb (upd i (fun e => mkZ (z_alive e) (z_out e) (z_in e) (sub_set (ty, r) (mkSub (s_senders s) []) (z_subs e))) (z_eps b)) (z_half b))
| zs_unload_none b i e ty r : nth_error (z_eps b) i = Some e -> z_alive e = true -> sub_find (ty, r) (z_subs e) = None ->
    zstep c (ZUnload i ty r []) b b.

(** [route_messages], message_bus.cpp:81-96: [update] does nothing (message_bus_impl.h:55),
    then steps until one returns 0; the result is the sum. *)
Inductive zroute (c : zcfg) : zbus -> list zlabel -> nat -> zbus -> Prop :=
| zr_stop b a b' : zstep c a b b' -> step_result c a = Some 0 -> zroute c b [a] 0 b'
| zr_more b a b' tr n k b'' : zstep c a b b' -> step_result c a = Some (S k) -> zroute c b' tr n b'' -> zroute c b (a :: tr) (S k + n) b''.

(** [receive_all_messages], message_endpoint.cpp:208-222. *)
Inductive zreceive_all (c : zcfg) (i : nat) : zbus -> nat -> zbus -> Prop :=
| za_stop b b' : zstep c (ZNothing i) b b' -> zreceive_all c i b 0 b'
| za_more b m b' n b'' : zstep c (ZReceive i m) b b' -> zreceive_all c i b' n b'' -> zreceive_all c i b (S n) b''.

Definition zinit : zbus := mkZb [] None.
