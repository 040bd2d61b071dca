(** What the properties of the model executor talk about. *)
From Verif Require Import Base Messaging_Model Messaging_Spec Neuron_Model Pipeline_Model Pipeline_Spec Train_Model Net_Model Net_Spec Framework_Model Exec_Model.

(** The subscriptions that input channels and handlers give to the backend. *)
Definition connections (ins : list (uid * list uid)) (calls : list xcall) : list subscr :=
  flat_map (fun c => map (fun p => mkSubscr 0 p [fst c]) (snd c)) ins ++
  flat_map (fun c => match c with AddHandler u _ rs _ => map (fun p => mkSubscr 0 p [u]) rs | _ => [] end) calls.
(** The handlers and the observers, in the order they were added. *)
Definition handlers (calls : list xcall) : list (uid * list uid * (nat -> list message -> list N)) :=
  flat_map (fun c => match c with AddHandler u ss _ f => [(u, ss, f)] | _ => [] end) calls.
Definition observers (calls : list xcall) : list (nat * list uid) :=
  flat_map (fun c => match c with AddObserver ty _ ss => [(ty, ss)] | _ => [] end) calls.

(** The rounds of each step: the rounds that were refused since the step before,
    and the round of the step. *)
Fixpoint rounds (refused turns : list xturn) : list (list xturn) :=
  match turns with
  | [] => []
  | u :: t => if xt_go u then (refused ++ [u]) :: rounds [] t else rounds (refused ++ [u]) t
  end.
(** What the channels sent for step [s] in these rounds: channel after channel. *)
Fixpoint inputs_for (s : N) (j : nat) (ins : list (uid * list uid)) (g : list xturn) : list message :=
  match ins with
  | [] => []
  | (c, _) :: t =>
      flat_map (fun u => if Nat.eqb (length (xt_data u j)) 0 then [] else [SpikeMsg c s (xt_data u j)]) g ++ inputs_for s (S j) t g
  end.
(** What a listener to messages of type [ty] from [senders] gets in a step: first
    what the projections sent, then what the populations sent, then what came from
    outside. *)
Definition received (ty : nat) (senders : list uid) (r : record) : list message :=
  filter (wanted ty senders) (sent_msgs (r_proj_out r) ++ sent_msgs (r_pop_out r) ++ r_ext r).
(** What the handlers sent in the step before. *)
Definition handled_before (recs : list xrecord) (t : nat) : list message :=
  match t with
  | 0 => []
  | S t' => match nth_error recs t' with Some x => flat_map snd (xr_handled x) | None => [] end
  end.
(** The rounds refused since the last step. *)
Fixpoint unfinished (refused turns : list xturn) : list xturn :=
  match turns with [] => refused | u :: t => if xt_go u then unfinished [] t else unfinished (refused ++ [u]) t end.
(** A loaded executor, and a sequence of rounds on it. *)
Definition executor_ran (pow2f expf : flt -> flt) (gens : list uid) (ins outs : list (uid * list uid)) (calls : list xcall)
    (pops : list (uid * npop)) (projs : list nproj) (turns : list xturn) (x : xstate) (recs : list xrecord) : Prop :=
  exists x0, executor_init gens ins outs calls pops projs = Ret x0 /\
             executor_run pow2f expf ins outs calls turns x0 = Ret (x, recs).
(** What a handler is called with and what it sends in step [t]: its message is for
    the next step. *)
Definition reply (t : nat) (r : record) (h : uid * list uid * (nat -> list message -> list N)) : list message * list message :=
  let '(u, senders, f) := h in
  let d := f t (received 0 senders r) in
  (received 0 senders r, if Nat.eqb (length d) 0 then [] else [SpikeMsg u (N.of_nat (S t) mod two64) d]).
(** Channels, handlers and populations have identifiers of their own. *)
Definition own_ids (ins : list (uid * list uid)) (calls : list xcall) (pops : list (uid * npop)) : Prop :=
  NoDup (map fst ins ++ map (fun h => fst (fst h)) (handlers calls) ++ map fst pops).
Definition from (u : uid) (m : message) : bool := N.eqb (msg_sender m) u.
(** The spikes that the populations [senders] sent in a step. *)
Definition spikes_of (senders : list uid) (x : xrecord) : list message :=
  filter (fun m => mem (msg_sender m) senders) (sent_msgs (r_pop_out (nr_msgs (xr_net x)))).
