(** What a user expects of the message bus of the CUDA backend. *)
From Verif Require Import Base Messaging_Model Gpu_Model Gpu_Spec GpuBus_Model.

(** The contents of a bus: its subscriptions, oldest first, and its messages. *)
Definition gstate := (list gsub * list gmsg)%type.
Definition holds (b : gbus) (st : gstate) : Prop := contains (g_subs b) (fst st) /\ contains (g_msgs b) (snd st).

Definition same_key (r : uid) (ty : nat) (s : gsub) : bool := Nat.eqb (gs_type s) ty && N.eqb (gs_receiver s) r.
(** The senders [l] and, behind them, those of [new] that are not there yet. *)
Definition add_new (l new : list uid) : list uid :=
  fold_left (fun l u => if mem u l then l else l ++ [u]) new l.
(** A subscription is added to, or created at the end. *)
Fixpoint add_sub (l : list gsub) (r : uid) (ty : nat) (senders : list uid) : list gsub :=
  match l with
  | [] => [mkGSub r ty (add_new [] senders)]
  | s :: t => if same_key r ty s then mkGSub r ty (add_new (gs_senders s) senders) :: t
              else s :: add_sub t r ty senders
  end.
(** Only the youngest subscription may be removed ([None]: another one is). *)
Fixpoint drop_sub (l : list gsub) (r : uid) (ty : nat) : option (list gsub) :=
  match l with
  | [] => Some []
  | s :: t => if same_key r ty s then match t with [] => Some [] | _ => None end
              else option_map (cons s) (drop_sub t r ty)
  end.
(** The contents after a call, [None] if the call is undefined. *)
Definition gspec (st : gstate) (o : gop) : option gstate :=
  match o with
  | GSubscribe r ty ss => Some (add_sub (fst st) r ty ss, snd st)
  | GUnsubscribe r ty => option_map (fun l => (l, snd st)) (drop_sub (fst st) r ty)
  | GRemoveReceiver _ => Some st
  | GSend m => Some (fst st, snd st ++ [m])
  | GBatch ms => Some (fst st, snd st ++ ms)
  | GClear => Some (fst st, [])
  | GUnload _ _ => Some st
  end.
(** The answer of a call made with these contents. *)
Definition mine (subs : list gsub) (r : uid) (ty : nat) (m : gmsg) : Prop :=
  g_type m = ty /\ exists s, In s subs /\ gs_receiver s = r /\ gs_type s = ty /\ In (g_sender m) (gs_senders s).
Definition ganswer (st : gstate) (o : gop) (x : gout) : Prop :=
  match o with
  | GSubscribe r ty _ => x = GBool (negb (existsb (same_key r ty) (fst st)))
  | GUnsubscribe r ty => x = GBool (existsb (same_key r ty) (fst st))
  | GUnload ty r => exists l, x = GIds l /\ NoDup l /\
      forall i, In i l <-> exists m, nth_error (snd st) i = Some m /\ mine (fst st) r ty m
  | _ => x = GUnit
  end.
Fixpoint gspecs (st : gstate) (ops : list gop) : option gstate :=
  match ops with
  | [] => Some st
  | o :: t => match gspec st o with Some st => gspecs st t | None => None end
  end.
Fixpoint ganswers (st : gstate) (ops : list gop) (xs : list gout) : Prop :=
  match ops, xs with
  | [], [] => True
  | o :: t, x :: xs => ganswer st o x /\ match gspec st o with Some st => ganswers st t xs | None => False end
  | _, _ => False
  end.

(** The history fits into what a launch reaches. *)
Definition weight (o : gop) : nat :=
  match o with GSubscribe _ _ ss => 1 + length ss | GSend _ => 1 | GBatch ms => length ms | _ => 0 end.
Definition moderate (ops : list gop) : Prop := (N.of_nat (list_sum (map weight ops)) <= limit)%N.
Definition fair_call (ord : nat -> orders) : Prop := forall k, any_orders (ord k).

(** The same message in the other memory. *)
Definition as_host (g : gmsg) : message :=
  match g with
  | GSpike s t _ idx => SpikeMsg s t idx
  | GImpact s t _ p q f is => ImpactMsg s t p q f is
  end.
Definition as_gpu (m : message) : gmsg :=
  match m with
  | SpikeMsg s t idx => GSpike s t true idx
  | ImpactMsg s t p q f is => GImpact s t true p q f is
  end.
Definition payload (m : message) : nat :=
  match m with SpikeMsg _ _ idx => length idx | ImpactMsg _ _ _ _ _ is => length is end.
(** The messages that go to the host in step [step]: those made on the device in
    this step or the one before. *)
Definition for_host (step : N) (g : gmsg) : bool :=
  negb (g_external g) && ((g_time g =? step)%N || (g_time g =? sub64 step 1)%N).
(** What the calls of a host history unloaded. *)
Definition unloaded_msgs (tr : list (op * out)) : list message :=
  flat_map (fun x => match snd x with OutMsgs l => l | _ => [] end) tr.
