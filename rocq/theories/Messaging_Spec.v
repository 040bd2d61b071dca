(** What the messaging properties talk about, in terms of API calls only. *)
From Verif Require Import Base Messaging_Model.

(** Everything that is waiting to be routed: what the bus still holds, then
    the messages sent through each live endpoint, endpoints in creation order,
    messages of one endpoint in sending order. *)
Definition pending (b : bus) : list message :=
  b_route b ++ flat_map e_send (filter e_alive (b_eps b)).

(** A subscription for messages of type [ty] from [senders] takes [m]. *)
Definition wanted (ty : nat) (senders : list uid) (m : message) : bool :=
  Nat.eqb (msg_type m) ty && mem (msg_sender m) senders.

(** The senders that the history of calls gives the subscription of [receiver]
    to messages of type [ty] at endpoint [id]; [None] if there is none. *)
Definition hist_step (id ty : nat) (receiver : uid) (acc : option (list uid)) (o : op) : option (list uid) :=
  match o with
  | OSubscribe id' ty' r ss =>
      if Nat.eqb id' id && Nat.eqb ty' ty && N.eqb r receiver
      then Some (match acc with Some l => l ++ ss | None => ss end) else acc
  | OUnsubscribe id' ty' r =>
      if Nat.eqb id' id && Nat.eqb ty' ty && N.eqb r receiver then None else acc
  | OAddSender id' ty' r u =>
      if Nat.eqb id' id && Nat.eqb ty' ty && N.eqb r receiver
      then match acc with Some l => Some (l ++ [u]) | None => None end else acc
  | ORemoveSender id' ty' r u =>
      if Nat.eqb id' id && Nat.eqb ty' ty && N.eqb r receiver
      then match acc with Some l => Some (filter (fun v => negb (N.eqb u v)) l) | None => None end
      else acc
  | ODestroy id' => if Nat.eqb id' id then None else acc
  | _ => acc
  end.
Definition hist_senders (ops : list op) (id ty : nat) (receiver : uid) : option (list uid) :=
  fold_left (hist_step id ty receiver) ops None.

(** Histories that do not touch a subscription's sender set behind the
    endpoint's back. *)
Definition is_add_sender (o : op) : bool :=
  match o with OAddSender _ _ _ _ => true | _ => false end.
Definition no_add_sender (ops : list op) : Prop := existsb is_add_sender ops = false.

(** Occurrences of a message: decidable equality is not needed, a test [p]
    stands for "is the message I look for". *)
Definition count (p : message -> bool) (l : list message) : nat := length (filter p l).
(** How many messages satisfying [p] the history sent. *)
Fixpoint sent (p : message -> bool) (tr : list (op * out)) : nat :=
  match tr with
  | [] => 0
  | (OSend _ m, _) :: t => (if p m then 1 else 0) + sent p t
  | _ :: t => sent p t
  end.
(** How many messages satisfying [p] the history unloaded at endpoint [id] for
    (ty, receiver). *)
Fixpoint unloaded (p : message -> bool) (id ty : nat) (receiver : uid) (tr : list (op * out)) : nat :=
  match tr with
  | [] => 0
  | (OUnload id' ty' r, OutMsgs l) :: t =>
      (if Nat.eqb id' id && Nat.eqb ty' ty && N.eqb r receiver then count p l else 0)
      + unloaded p id ty receiver t
  | _ :: t => unloaded p id ty receiver t
  end.

(** Every sender that was ever named in a [subscribe] call on endpoint [id]. *)
Definition known_step (id : nat) (acc : list uid) (o : op) : list uid :=
  match o with
  | OSubscribe id' _ _ ss => if Nat.eqb id' id then acc ++ ss else acc
  | _ => acc
  end.
Definition known_senders (ops : list op) (id : nat) : list uid :=
  fold_left (known_step id) ops [].
