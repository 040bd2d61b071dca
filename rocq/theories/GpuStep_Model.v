(** CUDA backend, whole steps.  Directory: /repo/knp/backends/gpu/cuda-backend/
    impl. *)
From Verif Require Import Base Messaging_Model Projection_Model Delta_Model Neuron_Model Gpu_Model GpuBus_Model GpuNet_Model.

Section Step.
(** The size of a message in bytes, see [d_reserve]. *)
Context (sz : nat).

(** backend_impl.cuh: the device's bus, populations (with their identifiers) and
    projections, and the number of the step.  The vectors of populations and
    projections are made by the host (load_populations and load_projections,
    backend_impl.cu:322-363) and never change their size: lists here (C95). *)
Record gdev := mkGD { gd_bus : gbus; gd_pops : list (uid * list (bl_par * bl)); gd_projs : list gproj; gd_step : N }.

(** [CUDABackendImpl::init], backend_impl.cu:400-417; [empty_uid], uid.cuh:58-66. *)
Fixpoint g_subscribe (o : nat -> nat -> nat -> orders) (l : list gproj) (b : gbus) : outcome gbus :=
  match l with
  | [] => Ret b
  | p :: t =>
      obind (if N.eqb (gp_pre p) 0 then Ret b
             else obind (subscribe_gpu (o 0 0) b (gp_uid p) [gp_pre p] 0) (fun x => Ret (fst x))) (fun b =>
      obind (if N.eqb (gp_post p) 0 then Ret b
             else obind (subscribe_gpu (o 0 1) b (gp_post p) [gp_uid p] 1) (fun x => Ret (fst x))) (fun b =>
      g_subscribe (fun k => o (S k)) t b))
  end.
(** A loaded and initialised backend. *)
Definition g_init (o : nat -> nat -> nat -> orders) (pops : list (uid * list (bl_par * bl))) (projs : list (phead * list dsyn))
  : outcome gdev :=
  let l := map (fun x => load_projection (fst x) (snd x)) projs in
  obind (g_subscribe o l gbus_init) (fun b => Ret (mkGD b pops l 0)).

(** The loops 235-241 and 304-309. *)
Fixpoint unload_each (o : nat -> nat -> orders) (b : gbus) (ty : nat) (us : list uid) : outcome (list (list nat)) :=
  match us with
  | [] => Ret []
  | u :: t => obind (unload_gpu (o 0) b ty u) (fun l =>
              obind (unload_each (fun k => o (S k)) b ty t) (fun r => Ret (l :: r)))
  end.

(** [calculate_populations], 194-252: every thread works on its own population
    and its own place of the vector of results. *)
Definition g_populations (o : nat -> nat -> nat -> orders) (step : N) (b : gbus) (pops : list (uid * list (bl_par * bl)))
  : outcome (gbus * list (uid * list (bl_par * bl)) * list gmsg * list (list nat)) :=
  match pops with
  | [] => Ret (b, [], [], [])
  | _ =>
      obind (unload_each (o 0) b 1 (map fst pops)) (fun idxs =>
      obind (launch (o 1 0 0) 0 (length pops)
               (fun i => update_at i (fun x => match nth_error idxs i with
                  | Some idx => obind (g_population_thread sz (fst (fst x)) step (deref (g_msgs b)) (v_size (g_msgs b)) idx (snd (fst x)))
                                  (fun r => Ret (fst (fst x), fst r, snd r))
                  | None => UB
                  end)) (map (fun p => (p, g_default)) pops)) (fun res =>
      obind (h_from_std (map snd res)) (fun v =>
      obind (send_batch (o 1 1 0) b v) (fun b => Ret (b, map fst res, map snd res, idxs)))))
  end.

(** [calculate_projections], 265-319. *)
Definition g_projections (o : nat -> nat -> nat -> orders) (step : N) (b : gbus) (projs : list gproj)
  : outcome (list gproj * list (list nat)) :=
  match projs with
  | [] => Ret ([], [])
  | _ =>
      obind (unload_each (o 0) b 0 (map gp_uid projs)) (fun idxs =>
      obind (launch (o 1 0 0) 0 (length projs)
               (fun i => update_at i (fun p => match nth_error idxs i with
                  | Some idx => g_calculate sz p step (deref (g_msgs b)) (v_size (g_msgs b)) idx
                  | None => UB
                  end)) projs) (fun l => Ret (l, idxs)))
  end.

(** [route_projection_messages], 646-662. *)
Fixpoint g_routes (o : nat -> nat -> orders) (step : N) (b : gbus) (projs : list gproj)
  : outcome (gbus * list gproj * list (list gmsg)) :=
  match projs with
  | [] => Ret (b, [], [])
  | p :: t =>
      obind (g_route sz (o 0 0) p step) (fun r =>
      obind (to_std (snd r)) (fun out =>
      obind (send_batch (o 0 1) b (snd r)) (fun b =>
      obind (g_routes (fun k => o (S k)) step b t) (fun x =>
      Ret (fst (fst x), fst r :: snd (fst x), out :: snd x)))))
  end.

(** What happened in a step; recorded only.  The messages on the bus at the
    start and those that came from the host, the places read by the populations,
    what they made, the places read by the projections, what those sent. *)
Record grec := mkGR { gr_bus : list gmsg; gr_host : list message; gr_pidx : list (list nat); gr_pout : list gmsg;
                      gr_qidx : list (list nat); gr_out : list (list gmsg) }.

(** The messages the host's endpoint holds for the subscriptions [l], for the
    record. *)
Definition host_unload (l : list gsub) : list op :=
  flat_map (fun s => if gs_type s <? 2 then [OUnload 0 (gs_type s) (gs_receiver s)] else []) l.
Definition peek (h : bus) (l : list gsub) : list message :=
  match run h (OReceiveAll 0 :: host_unload l) with
  | Ret (_, tr) => flat_map (fun x => match snd x with OutMsgs l => l | _ => [] end) tr
  | _ => []
  end.

(** [CUDABackend::_step], backend.cu:107-142.  [order] is the order in which the
    host endpoint's subscriptions are visited in the first step. *)
Definition g_step (o : nat -> nat -> nat -> nat -> orders) (order : list (key * sub)) (d : gdev) (h : bus)
  : outcome (gdev * bus * grec) :=
  let step := gd_step d in
  obind (if N.eqb step 0 then sync_loop (o 0 0) order (gd_bus d) h else Ret (gd_bus d, h)) (fun x =>
  let b := fst x in
  obind (send_messages_to_host (o 1 0 0) step b (snd x)) (fun h =>
  obind (exec h ORoute) (fun h =>
  obind (to_std (g_msgs b)) (fun old =>
  obind (to_std (g_subs b)) (fun subs =>
  let new := peek (fst h) subs in
  obind (receive_messages_from_host (o 2 0) b (fst h)) (fun x =>
  obind (g_populations (o 3) step (fst x) (gd_pops d)) (fun p =>
  let b := fst (fst (fst p)) in
  obind (exec (snd x) ORoute) (fun h =>
  obind (g_projections (o 4) step b (gd_projs d)) (fun q =>
  obind (send_messages_to_host (o 1 1 0) step b (fst h)) (fun h =>
  obind (exec h ORoute) (fun h =>
  obind (clear_bus (o 5 0 0 0) b) (fun b =>
  obind (g_routes (o 6 0) step b (fst q)) (fun r =>
  Ret (mkGD (fst (fst r)) (snd (fst (fst p))) (snd (fst r)) (add64 step 1), fst h,
       mkGR old new (snd p) (snd (fst p)) (snd q) (snd r))))))))))))))).

(** A run: before every step, calls on the host's bus. *)
Record gturn := mkGT { gt_ops : list op; gt_ord : nat -> nat -> nat -> nat -> orders; gt_order : list (key * sub) }.
Fixpoint g_steps (turns : list gturn) (d : gdev) (h : bus) : outcome (gdev * bus * list grec) :=
  match turns with
  | [] => Ret (d, h, [])
  | t :: r =>
      obind (run h (gt_ops t)) (fun x =>
      obind (g_step (gt_ord t) (gt_order t) d (fst x)) (fun y =>
      obind (g_steps r (fst (fst y)) (snd (fst y))) (fun z =>
      Ret (fst (fst z), snd (fst z), snd y :: snd z))))
  end.
End Step.
