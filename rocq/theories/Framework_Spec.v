(** What the properties of the framework talk about. *)
From Verif Require Import Base Messaging_Model Messaging_Spec Core_Model Framework_Model.
From Coq Require Export Sorted.

(** ** Network *)
(** The entities a history has left: added and not removed since, in the order of
    addition. *)
Definition live_step {A} (l : list (uid * A)) (e : rop A * rout A) : list (uid * A) :=
  match e with
  | (RAdd u x, ROk) | (RAddVariant u x, ROk) => l ++ [(u, x)]
  | (RRemove u, ROk) => filter (fun p => negb (N.eqb (fst p) u)) l
  | _ => l
  end.
Definition live {A} (tr : list (rop A * rout A)) : list (uid * A) := fold_left live_step tr [].
(** The right answer to a call when [l] is what is there. *)
Definition right_answer {A} (l : list (uid * A)) (o : rop A) (x : rout A) : Prop :=
  match o, x with
  | RAdd u _, ROk => ~ In u (map fst l)
  | RAdd u _, RThrew => In u (map fst l)
  | RRemove u, ROk => In u (map fst l)
  | RRemove u, RThrew => ~ In u (map fst l)
  | RGet u, RValue v => In (u, v) l
  | RGet u, RThrew => ~ In u (map fst l)
  | RExists u, RBool b => b = true <-> In u (map fst l)
  | RList, RAll l' => l' = l
  | _, _ => False
  end.
Definition checked {A} (o : rop A) : bool := match o with RAddVariant _ _ => false | _ => true end.

(** ** Loader *)
(** The buckets of a multimap with the given entries under a hash function. *)
Definition layout (h : uid -> nat) (entries : list (uid * uid)) (b : buckets) : Prop :=
  (forall i, Permutation (nth i b []) (filter (fun e => Nat.eqb (h (fst e)) i) entries)) /\
  (forall e, In e entries -> h (fst e) < length b).
(** The history makes endpoint [id] store spikes of [sender] for [receiver]. *)
Definition listens (ops : list op) (id : nat) (receiver sender : uid) : Prop :=
  exists l, hist_senders ops id 0 receiver = Some l /\ In sender l.

(** ** Output channel *)
Definition in_interval (a b : N) (m : message) : bool := ((a <=? msg_time m) && (msg_time m <=? b))%N.
Definition earlier (m m' : message) : Prop := (msg_time m <= msg_time m')%N.
(** The buffer a history leaves, and what its reads give. *)
Fixpoint oc_expected (buf : list message) (ops : list oc_op) : list message * list (list message) :=
  match ops with
  | [] => (buf, [])
  | OcUpdate ms :: t => oc_expected (buf ++ ms) t
  | OcRead a b :: t =>
      let (last, rs) := oc_expected (filter (fun m => negb (in_interval a b m)) buf) t in
      (last, filter (in_interval a b) buf :: rs)
  end.
Definition arriving (ops : list oc_op) : list message :=
  flat_map (fun o => match o with OcUpdate ms => ms | OcRead _ _ => [] end) ops.
Definition read_ok (limit : N) (o : oc_op) : Prop :=
  match o with OcRead a b => (a <= b)%N /\ (a + b + 1 <= limit)%N | OcUpdate _ => True end.

(** ** Texts *)
(** Digits as characters, numbers with a delimiter between them, and the number
    that digits denote. *)
Definition text_of (ds : list N) : list N := map (fun d => (d + 48)%N) ds.
Fixpoint joined (delim : N) (numbers : list (list N)) : list N :=
  match numbers with
  | [] => []
  | [ds] => text_of ds
  | ds :: t => text_of ds ++ delim :: joined delim t
  end.
Definition denotes (ds : list N) : N := fold_left (fun v d => (v * 10 + d)%N) ds 0%N.

(** ** Executor *)
(** The messages sent in a trace, the other calls in it, and the steps for which a
    predicate was called. *)
Definition sent_in (tr : list xevent) : list message :=
  flat_map (fun x => match x with XSend m => [m] | XOther _ => [] end) tr.
Definition calls_in (tr : list xevent) : list event :=
  flat_map (fun x => match x with XSend _ => [] | XOther e => [e] end) tr.
Definition pre_steps (evs : list event) : list N :=
  flat_map (fun e => match e with EPre s _ => [s] | _ => [] end) evs.
(** What the input channels have to send when they are asked for the [i]-th time,
    for step [s]: one message per channel with data, channels in order. *)
Fixpoint due_inputs (chans : list uid) (d : nat -> N -> list N) (s : N) : list message :=
  match chans with
  | [] => []
  | c :: t => (if Nat.eqb (length (d 0 s)) 0 then [] else [SpikeMsg c s (d 0 s)]) ++ due_inputs t (fun j => d (S j)) s
  end.
Fixpoint all_due (chans : list uid) (data : nat -> nat -> N -> list N) (i : nat) (steps : list N) : list message :=
  match steps with
  | [] => []
  | s :: t => due_inputs chans (data i) s ++ all_due chans data (S i) t
  end.
(** No two channel identifiers of the model share a bucket. *)
Definition separated (h : uid -> nat) (entries : list (uid * uid)) : Prop :=
  forall e e', In e entries -> In e' entries -> h (fst e) = h (fst e') -> fst e = fst e'.
