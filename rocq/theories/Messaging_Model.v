(** Model of the message endpoints and of the in-process ("CPU") message bus. *)
From Verif Require Import Base.

(** /repo/knp/core-library/include/knp/core/messaging/synaptic_impact_message.h
    (struct SynapticImpact): index of the synapse in its projection, value,
    type, source and target neuron. *)
Record impact := mkImpact {
  i_conn : N; i_value : flt; i_type : output_type; i_pre : N; i_post : N }.

(** /repo/knp/core-library/include/knp/core/messaging/messaging.h:40
    (ALL_MESSAGES = SpikeMessage, SynapticImpactMessage), spike_message.h and
    synaptic_impact_message.h: the two alternatives of MessageVariant. *)
Inductive message :=
| SpikeMsg (sender : uid) (time : N) (idx : list N)
| ImpactMsg (sender : uid) (time : N) (pre post : uid) (forcing : bool)
            (impacts : list impact).

(** [message.index()]: position of the alternative in the variant. *)
Definition msg_type (m : message) : nat :=
  match m with SpikeMsg _ _ _ => 0 | ImpactMsg _ _ _ _ _ _ => 1 end.

(** [get_header(message).sender_uid_], message_endpoint.cpp:48-51. *)
Definition msg_sender (m : message) : uid :=
  match m with SpikeMsg s _ _ => s | ImpactMsg s _ _ _ _ _ => s end.

(** /repo/knp/core-library/include/knp/core/subscription.h:42-178.  The
    receiver identifier is part of the key in the container below.  The
    unordered set of senders is a list used through membership only. *)
Record sub := mkSub { s_senders : list uid; s_msgs : list message }.

(** Key of the subscription container, message_endpoint.h:219: (type index,
    receiver). *)
Definition key := (nat * uid)%type.
Definition key_eqb (a b : key) : bool :=
  Nat.eqb (fst a) (fst b) && N.eqb (snd a) (snd b).

(** The container [std::map<key, SubscriptionVariant>], message_endpoint.h:219,
    as an association list.  Iteration order never matters below: each
    subscription is updated on its own. *)
Definition subs := list (key * sub).
Fixpoint sub_find (k : key) (l : subs) : option sub :=
  match l with
  | [] => None
  | (k', s) :: t => if key_eqb k k' then Some s else sub_find k t
  end.
Fixpoint sub_set (k : key) (s : sub) (l : subs) : subs :=
  match l with
  | [] => [(k, s)]
  | (k', s') :: t => if key_eqb k k' then (k, s) :: t else (k', s') :: sub_set k s t
  end.
Definition sub_erase (k : key) (l : subs) : subs :=
  filter (fun p => negb (key_eqb k (fst p))) l.

(** A message endpoint (message_endpoint.h:72-267) together with the two
    buffers its CPU implementation shares with the bus
    (message_endpoint_cpu_impl.h:79-80): [e_send] = messages_to_send_,
    [e_recv] = received_messages_ (both oldest first), [e_filter] = senders_
    (message_endpoint.h:260), [e_subs] = subscriptions_.  [e_alive] is false
    once the endpoint object is destroyed, i.e. when the bus' weak pointers
    have expired. *)
Record endpoint := mkEp {
  e_id : nat; e_alive : bool;
  e_send : list message; e_recv : list message;
  e_filter : list uid; e_subs : subs }.

(** [MessageEndpoint::subscribe], message_endpoint.cpp:78-109: the senders are
    added to the endpoint's sender set (93), and to the existing subscription
    (95-101) or to a new one (104-108).  [Subscription::add_senders],
    subscription.h:112-117. *)
Definition subscribe (ty : nat) (receiver : uid) (senders : list uid) (e : endpoint) : endpoint :=
  let k := (ty, receiver) in
  let s' := match sub_find k (e_subs e) with
            | Some s => mkSub (s_senders s ++ senders) (s_msgs s)
            | None => mkSub senders []
            end in
  mkEp (e_id e) (e_alive e) (e_send e) (e_recv e)
       (e_filter e ++ senders) (sub_set k s' (e_subs e)).

(** [MessageEndpoint::unsubscribe], message_endpoint.cpp:113-125.
    [update_senders] (244-255) builds a set and drops it, so the sender set
    stays as it is. *)
Definition unsubscribe (ty : nat) (receiver : uid) (e : endpoint) : endpoint * bool :=
  let k := (ty, receiver) in
  match sub_find k (e_subs e) with
  | Some _ => (mkEp (e_id e) (e_alive e) (e_send e) (e_recv e) (e_filter e)
                    (sub_erase k (e_subs e)), true)
  | None => (e, false)
  end.

(** [MessageEndpoint::remove_receiver], message_endpoint.cpp:128-140.  The loop
    erases the element its iterator points to and then increments that
    (now invalid) iterator: undefined behaviour as soon as one subscription
    matches. *)
Fixpoint remove_receiver_loop (receiver : uid) (l : subs) : outcome unit :=
  match l with
  | [] => Ret tt
  | (k, _) :: t => if N.eqb (snd k) receiver then UB else remove_receiver_loop receiver t
  end.
Definition remove_receiver (receiver : uid) (e : endpoint) : outcome endpoint :=
  obind (remove_receiver_loop receiver (e_subs e)) (fun _ => Ret e).

(** [Subscription::add_sender], subscription.h:103, through the reference that
    [subscribe] returns: only the subscription's own set changes. *)
Definition add_sender (ty : nat) (receiver : uid) (u : uid) (e : endpoint) : outcome endpoint :=
  match sub_find (ty, receiver) (e_subs e) with
  | Some s => Ret (mkEp (e_id e) (e_alive e) (e_send e) (e_recv e) (e_filter e)
                        (sub_set (ty, receiver) (mkSub (s_senders s ++ [u]) (s_msgs s)) (e_subs e)))
  | None => UB (* dangling reference *)
  end.

(** [Subscription::remove_sender], subscription.h:92. *)
Definition remove_sender (ty : nat) (receiver : uid) (u : uid) (e : endpoint) : outcome endpoint :=
  match sub_find (ty, receiver) (e_subs e) with
  | Some s => Ret (mkEp (e_id e) (e_alive e) (e_send e) (e_recv e) (e_filter e)
                        (sub_set (ty, receiver)
                           (mkSub (filter (fun v => negb (N.eqb u v)) (s_senders s)) (s_msgs s))
                           (e_subs e)))
  | None => UB
  end.

(** [MessageEndpointCPUImpl::send_message], message_endpoint_cpu_impl.h:54-60. *)
Definition send_message (m : message) (e : endpoint) : endpoint :=
  mkEp (e_id e) (e_alive e) (e_send e ++ [m]) (e_recv e) (e_filter e) (e_subs e).

(** Storing one received message: the loop of
    [MessageEndpoint::receive_message], message_endpoint.cpp:168-202: every
    subscription of the message's type (170) that has the sender (182) gets a
    copy (185). *)
Definition deliver_to (m : message) (p : key * sub) : key * sub :=
  let (k, s) := p in
  if Nat.eqb (fst k) (msg_type m) && mem (msg_sender m) (s_senders s)
  then (k, mkSub (s_senders s) (s_msgs s ++ [m]))
  else (k, s).

(** [MessageEndpoint::receive_message], message_endpoint.cpp:151-205, with
    [MessageEndpointCPUImpl::receive_message],
    message_endpoint_cpu_impl.h:64-76, which takes the message at the back. *)
Definition receive_message (e : endpoint) : endpoint * bool :=
  match pop_back (e_recv e) with
  | None => (e, false)
  | Some (rest, m) =>
      (mkEp (e_id e) (e_alive e) (e_send e) rest (e_filter e)
            (map (deliver_to m) (e_subs e)), true)
  end.

(** [MessageEndpoint::receive_all_messages], message_endpoint.cpp:208-222.
    Each successful receive shortens the buffer by one, so its length is the
    fuel. *)
Fixpoint receive_all_fuel (fuel : nat) (e : endpoint) (count : nat) : endpoint * nat :=
  match fuel with
  | 0 => (e, count)
  | S f => match receive_message e with
           | (e', true) => receive_all_fuel f e' (S count)
           | (e', false) => (e', count)
           end
  end.
Definition receive_all (e : endpoint) : endpoint * nat :=
  receive_all_fuel (S (length (e_recv e))) e 0.

(** [MessageEndpoint::unload_messages], message_endpoint.cpp:226-241. *)
Definition unload_messages (ty : nat) (receiver : uid) (e : endpoint) : endpoint * list message :=
  match sub_find (ty, receiver) (e_subs e) with
  | None => (e, [])
  | Some s => (mkEp (e_id e) (e_alive e) (e_send e) (e_recv e) (e_filter e)
                    (sub_set (ty, receiver) (mkSub (s_senders s) []) (e_subs e)),
               s_msgs s)
  end.

(** [MessageBusCPUImpl], message_bus_cpu_impl.h:44-67: the endpoint list and
    [messages_to_route_].  [b_next] numbers the endpoints in creation order so
    that operations can name them. *)
Record bus := mkBus { b_eps : list endpoint; b_route : list message; b_next : nat }.
Definition bus_init : bus := mkBus [] [] 0.

(** [MessageBusCPUImpl::create_endpoint], message_bus_cpu_impl.cpp:91-103. *)
Definition create_endpoint (b : bus) : bus :=
  mkBus (b_eps b ++ [mkEp (b_next b) true [] [] [] []]) (b_route b) (S (b_next b)).

(** Destruction of an endpoint object: its containers are freed, the bus' weak
    pointers expire (message_bus_cpu_impl.cpp:48-54, 77-80). *)
Definition destroy_endpoint (id : nat) (b : bus) : bus :=
  mkBus (map (fun e => if Nat.eqb (e_id e) id
                       then mkEp (e_id e) false [] [] [] [] else e) (b_eps b))
        (b_route b) (b_next b).

(** [MessageBusCPUImpl::update], message_bus_cpu_impl.cpp:41-63: expired
    endpoints are dropped (50-54), the sent messages of each live one are moved
    to the end of the buffer, in the order of the endpoint list (57-60). *)
Fixpoint update_loop (eps : list endpoint) (route : list message) : list endpoint * list message :=
  match eps with
  | [] => ([], route)
  | e :: t =>
      if e_alive e then
        let '(t', r) := update_loop t (route ++ e_send e) in
        (mkEp (e_id e) true [] (e_recv e) (e_filter e) (e_subs e) :: t', r)
      else update_loop t route
  end.
Definition bus_update (b : bus) : bus :=
  let '(eps, r) := update_loop (b_eps b) (b_route b) in mkBus eps r (b_next b).

(** Delivery of one message to one endpoint, message_bus_cpu_impl.cpp:77-84. *)
Definition offer (m : message) (e : endpoint) : endpoint :=
  if e_alive e && mem (msg_sender m) (e_filter e)
  then mkEp (e_id e) (e_alive e) (e_send e) (e_recv e ++ [m]) (e_filter e) (e_subs e)
  else e.

(** [MessageBusCPUImpl::step], message_bus_cpu_impl.cpp:66-88: takes the
    message at the back (71-73) and offers it to every endpoint (75-85). *)
Definition bus_step (b : bus) : bus * nat :=
  match pop_back (b_route b) with
  | None => (b, 0)
  | Some (rest, m) => (mkBus (map (offer m) (b_eps b)) rest (b_next b), 1)
  end.

(** [MessageBus::route_messages], message_bus.cpp:81-96.  Every step that
    returns 1 shortens the buffer, so its length is the fuel. *)
Fixpoint route_fuel (fuel : nat) (b : bus) (count : nat) : bus * nat :=
  match fuel with
  | 0 => (b, count)
  | S f => match bus_step b with
           | (b', 0) => (b', count)
           | (b', n) => route_fuel f b' (count + n)
           end
  end.
Definition route_messages (b : bus) : bus * nat :=
  let b1 := bus_update b in route_fuel (S (length (b_route b1))) b1 0.

(** ** Histories: sequences of API calls. *)
Inductive op :=
| OCreate
| ODestroy (id : nat)
| OSubscribe (id : nat) (ty : nat) (receiver : uid) (senders : list uid)
| OUnsubscribe (id : nat) (ty : nat) (receiver : uid)
| ORemoveReceiver (id : nat) (receiver : uid)
| OAddSender (id : nat) (ty : nat) (receiver : uid) (u : uid)
| ORemoveSender (id : nat) (ty : nat) (receiver : uid) (u : uid)
| OSend (id : nat) (m : message)
| OStep
| ORoute
| OReceive (id : nat)
| OReceiveAll (id : nat)
| OUnload (id : nat) (ty : nat) (receiver : uid).

Inductive out :=
| OutUnit | OutBool (b : bool) | OutCount (n : nat) | OutMsgs (l : list message).

(** The live endpoint object with a given number. *)
Definition ep_find (id : nat) (b : bus) : option endpoint :=
  find (fun e => Nat.eqb (e_id e) id && e_alive e) (b_eps b).
Definition ep_put (e : endpoint) (b : bus) : bus :=
  mkBus (map (fun e' => if Nat.eqb (e_id e') (e_id e) then e else e') (b_eps b))
        (b_route b) (b_next b).

(** A method call on an endpoint object; on a destroyed or unknown one it is
    undefined behaviour. *)
Definition on_ep (id : nat) (b : bus) (f : endpoint -> outcome (endpoint * out)) : outcome (bus * out) :=
  match ep_find id b with
  | None => UB
  | Some e => obind (f e) (fun p => Ret (ep_put (fst p) b, snd p))
  end.

(** One API call. *)
Definition exec (b : bus) (o : op) : outcome (bus * out) :=
  match o with
  | OCreate => Ret (create_endpoint b, OutUnit)
  | ODestroy id => match ep_find id b with
                   | Some _ => Ret (destroy_endpoint id b, OutUnit) | None => UB end
  | OSubscribe id ty r ss => on_ep id b (fun e => Ret (subscribe ty r ss e, OutUnit))
  | OUnsubscribe id ty r =>
      on_ep id b (fun e => let (e', x) := unsubscribe ty r e in Ret (e', OutBool x))
  | ORemoveReceiver id r =>
      on_ep id b (fun e => obind (remove_receiver r e) (fun e' => Ret (e', OutUnit)))
  | OAddSender id ty r u =>
      on_ep id b (fun e => obind (add_sender ty r u e) (fun e' => Ret (e', OutUnit)))
  | ORemoveSender id ty r u =>
      on_ep id b (fun e => obind (remove_sender ty r u e) (fun e' => Ret (e', OutUnit)))
  | OSend id m => on_ep id b (fun e => Ret (send_message m e, OutUnit))
  | OStep => let (b', n) := bus_step b in Ret (b', OutCount n)
  | ORoute => let (b', n) := route_messages b in Ret (b', OutCount n)
  | OReceive id => on_ep id b (fun e => let (e', x) := receive_message e in Ret (e', OutBool x))
  | OReceiveAll id => on_ep id b (fun e => let (e', n) := receive_all e in Ret (e', OutCount n))
  | OUnload id ty r =>
      on_ep id b (fun e => let (e', l) := unload_messages ty r e in Ret (e', OutMsgs l))
  end.

(** A whole history, with the result of every call. *)
Fixpoint run (b : bus) (ops : list op) : outcome (bus * list (op * out)) :=
  match ops with
  | [] => Ret (b, [])
  | o :: t => obind (exec b o) (fun p =>
               obind (run (fst p) t) (fun q => Ret (fst q, (o, snd p) :: snd q)))
  end.
