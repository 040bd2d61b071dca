(** CUDA backend, message bus.  Directory: /repo/knp/backends/gpu/cuda-backend/
    impl/cuda_bus. *)
From Verif Require Import Base Messaging_Model Gpu_Model.

(** ** Messages *)
(** message_header.cuh:37-58, spike_message.cuh:54-66, synaptic_impact_message
    .cuh:94-122.  The structure of an impact has the same fields as the host's
    (45-71).  The vectors inside of a message hold plain data and are lists here
    (C92). *)
Inductive gmsg :=
| GSpike (sender : uid) (time : N) (external : bool) (idx : list N)
| GImpact (sender : uid) (time : N) (external : bool) (pre post : uid) (forcing : bool) (impacts : list impact).

Definition g_sender (m : gmsg) := match m with GSpike s _ _ _ | GImpact s _ _ _ _ _ _ => s end.
Definition g_time (m : gmsg) := match m with GSpike _ t _ _ | GImpact _ t _ _ _ _ _ => t end.
Definition g_external (m : gmsg) := match m with GSpike _ _ e _ | GImpact _ _ e _ _ _ _ => e end.
(** [index()] of the variant, messaging.cuh:40-44. *)
Definition g_type (m : gmsg) : nat := match m with GSpike _ _ _ _ => 0 | GImpact _ _ _ _ _ _ _ => 1 end.
(** A default message is the first alternative, a spike message with a zero
    identifier.  ([send_time_] has no initialiser, message_header.cuh:47; device
    memory is assumed to be zero there.) *)
Definition g_default : gmsg := GSpike 0 0 false [].
(** Messages own memory, so they are class objects; a move empties them. *)
Definition g_moved (m : gmsg) : gmsg :=
  match m with
  | GSpike s t e _ => GSpike s t e []
  | GImpact s t e p q f _ => GImpact s t e p q f []
  end.
(** [==] of messages is not used by the bus. *)
Definition gmsg_elem : elem gmsg := mkElem false g_default g_moved (fun _ _ => false).

(** [make_gpu_impact] and [make_host_impact], synaptic_impact_message.cuh:150-167. *)
Definition convert_impact (i : impact) : impact :=
  mkImpact (i_conn i) (i_value i) (i_type i) (i_pre i) (i_post i).

(** messaging.cu:129-136 and 139-146: a kernel that writes converted impacts
    into memory.  *)
Definition impact_kernel (ord : orders) k (to : list (cell impact)) (from : list (cell impact)) n :=
  launch ord k n (fun i m => obind (read from i) (fun a => write m i (Obj (convert_impact a)))) to.
Definition no_impact : impact := mkImpact 0 (SpecFloat.S754_zero false) EXCITATORY 0 0.
Definition impact_elem : elem impact := mkElem true no_impact (fun i => i) (fun _ _ => false).
Definition index_elem : elem N := mkElem true 0%N (fun i => i) N.eqb.

(** messaging.cu:96-109 and 149-170 (dispatch 210-216).  The header is marked as
    external, message_header.cuh:63-67; identifiers are copied byte by byte
    (uid.cu:30-51) and are not changed. *)
Definition make_gpu (ord : orders) (m : message) : outcome gmsg :=
  match m with
  | SpikeMsg s t idx =>
      match idx with
      | [] => Ret (GSpike s t true [])
      | _ => obind (h_resize index_elem ord 0 v_empty (length idx)) (fun v =>
             obind (memcpy (deref v) idx) (fun m =>
             obind (to_std (with_mem v m (v_size v))) (fun l => Ret (GSpike s t true l))))
      end
  | ImpactMsg s t p q f is =>
      match is with
      | [] => Ret (GImpact s t true p q f [])
      | _ => obind (h_resize impact_elem ord 0 v_empty (length is)) (fun v =>
             obind (impact_kernel ord 3 (deref v) (map Obj is) (length is)) (fun m =>
             obind (to_std (with_mem v m (v_size v))) (fun l => Ret (GImpact s t true p q f l))))
      end
  end.
(** messaging.cu:112-125 and 173-198 (dispatch 201-207). *)
Definition make_host (ord : orders) (g : gmsg) : outcome message :=
  match g with
  | GSpike s t _ idx => Ret (SpikeMsg s t idx)
  | GImpact s t _ p q f is =>
      match is with
      | [] => Ret (ImpactMsg s t p q f [])
      | _ => obind (impact_kernel ord 0 (repeat Raw (length is)) (map Obj is) (length is)) (fun m =>
             obind (read_all m 0 (length is)) (fun l => Ret (ImpactMsg s t p q f l)))
      end
  end.

(** ** Subscriptions *)
(** subscription.cuh:234-248.  The identifiers of the senders are plain data in a
    vector, a list here (C92). *)
Record gsub := mkGSub { gs_receiver : uid; gs_type : nat; gs_senders : list uid }.
Definition gsub_elem : elem gsub :=
  mkElem false (mkGSub 0 0 []) (fun s => mkGSub (gs_receiver s) (gs_type s) []) (fun _ _ => false).

(** subscription.cuh:172-200 on the host, has_sender_kernel (kernels.cu:43-50)
    with its atomic [or]. *)
Definition gs_has (ord : orders) (s : gsub) (u : uid) : outcome bool :=
  match gs_senders s with
  | [] => Ret false
  | _ => launch ord 0 (length (gs_senders s))
           (fun i r => obind (read (map Obj (gs_senders s)) i) (fun v =>
                       Ret (if negb (N.eqb v u) then r else true))) false
  end.
(** The same on the device: 175-185. *)
Fixpoint gs_dev_has (l : list uid) (u : uid) : bool :=
  match l with [] => false | v :: t => if N.eqb v u then true else gs_dev_has t u end.

(** 145-150. *)
Definition gs_add (ord : orders) (s : gsub) (u : uid) : outcome (gsub * bool) :=
  obind (gs_has ord s u) (fun h =>
  if h then Ret (s, false)
  else Ret (mkGSub (gs_receiver s) (gs_type s) (gs_senders s ++ [u]), true)).
(** The loops 72 and message_bus.cuh:200-203. *)
Fixpoint gs_adds (ord : nat -> orders) k (s : gsub) (l : list uid) : outcome gsub :=
  match l with
  | [] => Ret s
  | u :: t => obind (gs_add (ord k) s u) (fun r => gs_adds ord (S k) (fst r) t)
  end.
(** 125-137, called by the host. *)
Fixpoint gs_remove_from (ord : orders) (s : gsub) (u : uid) (i n : nat) : outcome (gsub * bool) :=
  match n with
  | 0 => Ret (s, false)
  | S n' =>
      match nth_error (gs_senders s) i with
      | None => UB
      | Some v =>
          if N.eqb v u
          then obind (h_from_std (gs_senders s)) (fun w =>
               obind (h_erase (mkElem true 0%N (fun x => x) N.eqb) ord w i (i + 1)) (fun w =>
               obind (to_std w) (fun l => Ret (mkGSub (gs_receiver s) (gs_type s) l, true))))
          else gs_remove_from ord s u (S i) n'
      end
  end.
Definition gs_remove (ord : orders) (s : gsub) (u : uid) : outcome (gsub * bool) :=
  gs_remove_from ord s u 0 (length (gs_senders s)).
(** 202-210. *)
Definition is_my_message (s : gsub) (m : gmsg) : bool :=
  if negb (Nat.eqb (g_type m) (gs_type s)) then false else gs_dev_has (gs_senders s) (g_sender m).

(** ** The bus *)
(** message_bus.cuh:229-236. *)
Record gbus := mkGBus { g_subs : vec gsub; g_msgs : vec gmsg }.
Definition gbus_init : gbus := mkGBus v_empty v_empty.

(** message_bus.cu:44-52 and 63-80: the number of subscriptions if there is
    none. *)
Definition find_subscription (ord : orders) (b : gbus) (r : uid) (ty : nat) : outcome nat :=
  if v_size (g_subs b) =? 0 then Ret 0
  else launch ord 0 (v_size (g_subs b))
         (fun i found => obind (read (deref (g_subs b)) i) (fun s =>
            if negb (Nat.eqb (gs_type s) ty) then Ret found
            else if N.eqb (gs_receiver s) r then Ret i else Ret found)) (v_size (g_subs b)).

(** message_bus.cuh:193-211. *)
Definition subscribe_gpu (ord : nat -> orders) (b : gbus) (r : uid) (senders : list uid) (ty : nat)
  : outcome (gbus * bool) :=
  obind (find_subscription (ord 0) b r ty) (fun i =>
  if negb (i =? v_size (g_subs b))
  then obind (read (deref (g_subs b)) i) (fun s =>
       obind (gs_adds ord 2 s senders) (fun s =>
       obind (h_set (g_subs b) i s) (fun v => Ret (mkGBus (fst v) (g_msgs b), false))))
  else obind (gs_adds ord 2 (mkGSub r ty []) senders) (fun s =>
       obind (h_push gsub_elem (ord 1) (g_subs b) s) (fun v => Ret (mkGBus v (g_msgs b), true)))).

(** message_bus.cu:83-97. *)
Definition unsubscribe_gpu (ord : nat -> orders) (b : gbus) (r : uid) (ty : nat) : outcome (gbus * bool) :=
  obind (find_subscription (ord 0) b r ty) (fun i =>
  if v_size (g_subs b) <=? i then Ret (b, false)
  else obind (h_erase gsub_elem (ord 1) (g_subs b) i (i + 1)) (fun v => Ret (mkGBus v (g_msgs b), true))).

(** 100-106: the loop has no body. *)
Definition remove_receiver_gpu (b : gbus) (r : uid) : gbus := b.

(** 110-113, called by the host. *)
Definition send_gpu (ord : orders) (b : gbus) (m : gmsg) : outcome gbus :=
  obind (h_push gmsg_elem ord (g_msgs b) m) (fun v => Ret (mkGBus (g_subs b) v)).

(** 116-125, copy_kernel of vector_kernels.cuh:66-73. *)
Definition send_batch (ord : orders) (b : gbus) (vec : vec gmsg) : outcome gbus :=
  let size := v_size (g_msgs b) in
  obind (h_resize gmsg_elem ord 0 (g_msgs b) (size + v_size vec)) (fun v =>
  if v_size vec =? 0 then Ret (mkGBus (g_subs b) v)
  else obind (launch ord 3 (v_size vec) (fun i m => obind (read (deref vec) i) (assign gmsg_elem m (size + i))) (deref v))
         (fun m => Ret (mkGBus (g_subs b) (with_mem v m (v_size v))))).

(** message_bus.cuh:121. *)
Definition clear_bus (ord : orders) (b : gbus) : outcome gbus :=
  obind (h_clear gmsg_elem ord 0 (g_msgs b)) (fun v => Ret (mkGBus (g_subs b) v)).

(** message_bus.cu:137-147.  [atomicAdd] gives every thread its own place, so the
    two actions of a thread may be taken as one. *)
Definition find_kernel (ord : orders) (b : gbus) (s : gsub) :=
  launch ord 1 (v_size (g_msgs b))
    (fun i st => obind (read (deref (g_msgs b)) i) (fun m =>
       if is_my_message s m
       then obind (write (snd st) (fst st) (Obj i)) (fun ind => Ret (S (fst st), ind))
       else Ret st)) (0, repeat (@Raw nat) (v_size (g_msgs b))).
(** 150-185: indexes into the messages of the bus, which stay there.  The copy
    into the result (177-182) is a copy of plain data. *)
Definition unload_gpu (ord : nat -> orders) (b : gbus) (ty : nat) (r : uid) : outcome (list nat) :=
  obind (find_subscription (ord 0) b r ty) (fun i =>
  if v_size (g_subs b) <=? i then Ret []
  else if v_size (g_msgs b) =? 0 then Ret []
  else obind (read (deref (g_subs b)) i) (fun s =>
       if negb (Nat.eqb (gs_type s) ty) then Ret []
       else obind (find_kernel (ord 1) b s) (fun st => read_all (snd st) 0 (fst st)))).

(** Histories of calls. *)
Inductive gop :=
| GSubscribe (r : uid) (ty : nat) (senders : list uid)
| GUnsubscribe (r : uid) (ty : nat)
| GRemoveReceiver (r : uid)
| GSend (m : gmsg)
| GBatch (ms : list gmsg)
| GClear
| GUnload (ty : nat) (r : uid).
Inductive gout := GUnit | GBool (b : bool) | GIds (l : list nat).
Definition gexec (ord : nat -> orders) (b : gbus) (o : gop) : outcome (gbus * gout) :=
  match o with
  | GSubscribe r ty ss => obind (subscribe_gpu ord b r ss ty) (fun x => Ret (fst x, GBool (snd x)))
  | GUnsubscribe r ty => obind (unsubscribe_gpu ord b r ty) (fun x => Ret (fst x, GBool (snd x)))
  | GRemoveReceiver r => Ret (remove_receiver_gpu b r, GUnit)
  | GSend m => obind (send_gpu (ord 0) b m) (fun b => Ret (b, GUnit))
  | GBatch ms => obind (h_from_std ms) (fun v => obind (send_batch (ord 0) b v) (fun b => Ret (b, GUnit)))
  | GClear => obind (clear_bus (ord 0) b) (fun b => Ret (b, GUnit))
  | GUnload ty r => obind (unload_gpu ord b ty r) (fun l => Ret (b, GIds l))
  end.
(** Every call with its own orders of threads. *)
Fixpoint grun (b : gbus) (ops : list ((nat -> orders) * gop)) : outcome (gbus * list gout) :=
  match ops with
  | [] => Ret (b, [])
  | (ord, o) :: t => obind (gexec ord b o) (fun x =>
                     obind (grun (fst x) t) (fun y => Ret (fst y, snd x :: snd y)))
  end.

(** ** The host's side *)
(** message_bus.cu:207-230 for the types 0 and 1; the backend's endpoint is
    number 0 of the host's bus. *)
Definition subscribe_host (h : bus) (r : uid) (senders : list uid) (ty : nat) : outcome bus :=
  if ty <? 2 then obind (exec h (OSubscribe 0 ty r senders)) (fun x => Ret (fst x)) else Ret h.

(** 233-246.  [step - 1] is a 64-bit subtraction. *)
Definition to_host (step : N) (m : gmsg) : bool :=
  negb (negb (N.eqb (g_time m) (sub64 step 1)) && negb (N.eqb (g_time m) step) || g_external m).
Fixpoint send_to_host (ord : nat -> orders) (step : N) (l : list gmsg) (h : bus) : outcome bus :=
  match l with
  | [] => Ret h
  | m :: t =>
      if to_host step m
      then obind (make_host (ord 0) m) (fun x =>
           obind (exec h (OSend 0 x)) (fun h => send_to_host (fun k => ord (S k)) step t (fst h)))
      else send_to_host (fun k => ord (S k)) step t h
  end.
Definition send_messages_to_host (ord : nat -> orders) (step : N) (b : gbus) (h : bus) : outcome bus :=
  obind (to_std (g_msgs b)) (fun l => send_to_host ord step l h).

(** 285-296 with message_bus.cuh:213-219 and subscription.cu:30-54; [order] is the
    order in which the host's container is visited. *)
Fixpoint sync_loop (ord : nat -> nat -> orders) (order : list (key * sub)) (b : gbus) (h : bus)
  : outcome (gbus * bus) :=
  match order with
  | [] => Ret (b, h)
  | ((ty, r), s) :: t =>
      obind (subscribe_gpu (ord 0) b r (s_senders s) ty) (fun x =>
      obind (subscribe_host h r (s_senders s) ty) (fun h =>
      sync_loop (fun k => ord (S k)) t (fst x) h))
  end.

(** 300-336. *)
Fixpoint push_all (ord : nat -> orders) (b : gbus) (l : list message) : outcome gbus :=
  match l with
  | [] => Ret b
  | m :: t => obind (make_gpu (ord 0) m) (fun g =>
              obind (send_gpu (ord 1) b g) (fun b => push_all (fun k => ord (2 + k)) b t))
  end.
Fixpoint receive_loop (ord : nat -> nat -> orders) (l : list gsub) (b : gbus) (h : bus) : outcome (gbus * bus) :=
  match l with
  | [] => Ret (b, h)
  | s :: t =>
      if gs_type s <? 2
      then obind (exec h (OUnload 0 (gs_type s) (gs_receiver s))) (fun x =>
           match snd x with
           | OutMsgs ms => obind (push_all (ord 0) b ms) (fun b => receive_loop (fun k => ord (S k)) t b (fst x))
           | _ => UB
           end)
      else receive_loop (fun k => ord (S k)) t b h
  end.
Definition receive_messages_from_host (ord : nat -> nat -> orders) (b : gbus) (h : bus) : outcome (gbus * bus) :=
  obind (exec h (OReceiveAll 0)) (fun x =>
  obind (to_std (g_subs b)) (fun l => receive_loop ord l b (fst x))).
