(** What the properties of the ZeroMQ bus talk about. *)
From Verif Require Import Base Messaging_Model Zmq_Model.

(** A history: the labels of its steps, first to last. *)
Inductive zexecution (c : zcfg) : zbus -> list zlabel -> zbus -> Prop :=
| ze_nil b : zexecution c b [] b
| ze_snoc b tr b' a b'' : zexecution c b tr b' -> zstep c a b' b'' -> zexecution c b (tr ++ [a]) b''.

(** Messages sent through endpoint [i], in order. *)
Definition sent_by (i : nat) (tr : list zlabel) : list message :=
  flat_map (fun a => match a with ZSend j m => if Nat.eqb j i then [m] else [] | _ => [] end) tr.
(** Messages that the bus took from endpoint [i] and published. *)
Definition routed_from (i : nat) (tr : list zlabel) : list message :=
  flat_map (fun a => match a with ZPublish j m _ | ZIgnored j m => if Nat.eqb j i then [m] else [] | _ => [] end) tr.
(** Messages published, in order. *)
Definition published (tr : list zlabel) : list message :=
  flat_map (fun a => match a with ZPublish _ m _ => [m] | _ => [] end) tr.
(** Messages that receive_message() took at endpoint [i]. *)
Definition received_by (i : nat) (tr : list zlabel) : list message :=
  flat_map (fun a => match a with ZReceive j m => if Nat.eqb j i then [m] else [] | _ => [] end) tr.
(** The part of the history after the creation of endpoint [i]. *)
Fixpoint since (i : nat) (tr : list zlabel) : list zlabel :=
  match tr with
  | [] => []
  | ZCreate j :: t => if Nat.eqb j i then t else since i t
  | _ :: t => since i t
  end.
(** Endpoint [i] never had a full pipe when a message was published. *)
Definition nothing_lost (i : nat) (tr : list zlabel) : Prop :=
  Forall (fun a => match a with ZPublish _ _ lost => ~ In i lost | _ => True end) tr.
(** [l] is [l'] with some elements left out. *)
Inductive subsequence {A} : list A -> list A -> Prop :=
| sq_nil l : subsequence [] l
| sq_take x l l' : subsequence l l' -> subsequence (x :: l) (x :: l')
| sq_skip x l l' : subsequence l l' -> subsequence l (x :: l').
(** [l] consists of all elements of the lists [ls], each list in its own order. *)
Inductive interleaving {A} : list (list A) -> list A -> Prop :=
| il_nil ls : Forall (fun l => l = []) ls -> interleaving ls []
| il_take ls1 x l ls2 r : interleaving (ls1 ++ l :: ls2) r -> interleaving (ls1 ++ (x :: l) :: ls2) (x :: r).
(** What waits in the pipes to the bus. *)
Definition waiting_out (b : zbus) : list (list message) := map z_out (z_eps b).
