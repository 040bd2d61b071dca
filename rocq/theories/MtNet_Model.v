(** Model of a whole step of the multi-threaded CPU backend with training,
    /repo/knp/backends/cpu/cpu-multi-threaded-backend/impl/backend.cpp.  Extends
    Mt_Model (plain populations, delta projections). *)
From Verif Require Import Base Messaging_Model Messaging_Spec Projection_Model Delta_Model Neuron_Model Pipeline_Model
  Stdp_Model Additive_Model Train_Model Net_Model Mt_Model Sched_Model.

(** What the thread scheduler decides in one step: for every population the orders of
    the parts of its first and of its last phase, the order in which the training tasks
    of the populations are executed (numbers of populations), and for every projection
    the order in which its parts are merged into its queue. *)
Record nsched := mkNSched { ns_pops : list (list (nat * nat) * list (nat * nat)); ns_train : list nat; ns_projs : list (list (nat * nat)) }.

(** A population with resource STDP up to its spike message, backend.cpp:77-162
    (cf. Net_Model.stdp_front): the parts of the first and of the last phase run in the
    given orders; impacts are one task. *)
Definition mt_stdp_front {A} (pre : A -> A) (imp : bool -> A -> impact -> outcome A) (post : A -> A * bool)
    (ms : list message) (o : list (nat * nat) * list (nat * nat)) (neurons : list A) : outcome (list A * list N) :=
  let n0 := fold_left (fun ns part => pre_part pre (fst part) (snd part - fst part) ns) (fst o) neurons in
  obind (impact_flagged imp (flagged ms) n0) (fun n1 =>
    let (n2, idx) := mt_post post (snd o) n1 in
    Ret (n2, map (fun i => w32 (N.of_nat i)) idx)).
(** A population up to its spike message. *)
Definition mt_front (u : uid) (step : N) (ms : list message) (o : list (nat * nat) * list (nat * nat)) (a : npop)
  : outcome (npop * list N) :=
  match a with
  | NPlain a => obind (mt_apop_step u step ms o a) (fun r =>
      Ret (NPlain (fst r), match snd r with Some (SpikeMsg _ _ idx) => idx | _ => [] end))
  | NStdpBlifat l => obind (mt_stdp_front (s_pre (bl_prestep true)) (s_impact bl_impact) (s_post bl_post) ms o l) (fun f =>
      Ret (NStdpBlifat (fst f), snd f))
  | NStdpAltai l => obind (mt_stdp_front (s_pre (al_prestep true)) (s_impact al_impact) (s_post al_post) ms o l) (fun f =>
      Ret (NStdpAltai (fst f), snd f))
  end.
Fixpoint mt_fronts (step : N) (ins : list (list message)) (os : list (list (nat * nat) * list (nat * nat)))
    (pops : list (uid * npop)) : outcome (list job) :=
  match pops, ins, os with
  | (u, a) :: t, ms :: ins', o :: os' =>
      obind (mt_front u step ms o a) (fun y =>
      obind (mt_fronts step ins' os' t) (fun z => Ret (mkJob u (fst y) (snd y) :: z)))
  | _, _, _ => Ret []
  end.

Section MtNet.
Variable pow2f : flt -> flt.
(** The training tasks, backend.cpp:163-198, executed in the given order; each changes
    its population and its projections in place.  (Simplification: a task is one
    action; see C87.) *)
Fixpoint train_at (step : N) (order : list nat) (jobs : list job) (projs : list nproj) : outcome (list job * list nproj) :=
  match order with
  | [] => Ret (jobs, projs)
  | i :: t => match nth_error jobs i with
              | Some jb => obind (finalize pow2f step jb projs) (fun r =>
                           train_at step t (put i (mkJob (jb_uid jb) (fst r) (jb_fired jb)) jobs) (snd r))
              | None => UB
              end
  end.

(** [calculate_projection_multithreaded_impl], delta_impl.h:117-175, for a part of a
    resource-STDP projection: as Delta_Model.mt_part, and every synapse of the part
    whose presynaptic neuron spiked gets the step number (138-141). *)
Definition stamp (step : N) (counts : list (N * N)) (s : rsyn) : rsyn :=
  match count_find (sy_from s) counts with
  | Some _ => mkSyn (on_rule (with_spike step) (sy_params s)) (sy_from s) (sy_to s)
  | None => s
  end.
Definition mt_resource_part (h : phead) (step : N) (counts : list (N * N)) (x : list rsyn * queue) (part : nat * nat)
  : list rsyn * queue :=
  (pre_part (stamp step counts) (fst part) (snd part - fst part) (fst x),
   mt_part h step counts (map r_delta (fst x)) (snd x) part).
(** One projection, backend.cpp:256-294.  Additive STDP is not in the variant of the
    projections of this backend (include/knp/backends/cpu-multi-threaded/backend.h:85-100),
    so such a projection cannot be loaded; [UB] stands for that. *)
Definition mt_nproj (step : N) (ms : list message) (o : list (nat * nat)) (w : nproj) : outcome (nproj * option message) :=
  match np_kind w with
  | NDelta p => let (q, m) := mt_calculate (np_head w) step ms (p_syn p) o (np_queue w) in Ret (np_with w (NDelta p) q, m)
  | NResource l p =>
      let x := match ms with
               | [] => (p_syn p, np_queue w)
               | m :: _ => fold_left (mt_resource_part (np_head w) step (convert_spikes (spikes_of [m]))) o (p_syn p, np_queue w)
               end in
      let p' := mkProj (fst x) (p_index p) (p_updated p) in
      match q_find step (snd x) with
      | Some m => Ret (np_with w (NResource l p') (q_erase step (snd x)), Some m)
      | None => Ret (np_with w (NResource l p') (snd x), None)
      end
  | NAdditive _ _ => UB
  end.
Fixpoint mt_nprojs (step : N) (ins : list (list message)) (os : list (list (nat * nat))) (projs : list nproj)
  : outcome (list nproj * list (option message)) :=
  match projs, ins, os with
  | w :: t, ms :: ins', o :: os' =>
      obind (mt_nproj step ms o w) (fun y =>
      obind (mt_nprojs step ins' os' t) (fun z => Ret (fst y :: fst z, snd y :: snd z)))
  | _, _, _ => Ret ([], [])
  end.

Definition job_message (step : N) (jb : job) : option message := spike_message (jb_uid jb) step (jb_fired jb).
(** [MultiThreadedCPUBackend::_step], backend.cpp:310-323, with [calculate_populations]
    (203-221) and [calculate_projections] (250-295). *)
Definition mt_nbackend_step (s : nsched) (ext : list message) (k : nbackend) : outcome (nbackend * nrecord) :=
  obind (unload_all 1 (map fst (nb_pops k)) (nb_bus k)) (fun x =>
  obind (mt_fronts (nb_step k) (snd x) (ns_pops s) (nb_pops k)) (fun jobs =>
  obind (train_at (nb_step k) (ns_train s) jobs (nb_projs k)) (fun y =>
  let pout := map (job_message (nb_step k)) (fst y) in
  let pops := map (fun jb => (jb_uid jb, jb_pop jb)) (fst y) in
  obind (send_all pout (fst x)) (fun b1 =>
  obind (route_receive_own b1) (fun b2 =>
  obind (unload_all 0 (map np_uid (snd y)) b2) (fun z =>
  obind (mt_nprojs (nb_step k) (snd z) (ns_projs s) (snd y)) (fun v =>
  obind (send_all (snd v) (fst z)) (fun b3 =>
  obind (route_receive_own b3) (fun b4 =>
  Ret (mkNB b4 pops (fst v) (add64 (nb_step k) 1),
       mkNR (mkRecord ext (snd x) pout (snd z) (snd v)) (nb_pops k) (nb_projs k) (snd y) pops (fst v))))))))))).
(** A run; [start_learning] and [stop_learning] are as on the other backend
    (include/knp/backends/cpu-multi-threaded/backend.h:356-375). *)
Fixpoint mt_nbackend_run (turns : list (turn * nsched)) (k : nbackend) : outcome (nbackend * list nrecord) :=
  match turns with
  | [] => Ret (k, [])
  | (u, s) :: t =>
      obind (run (nb_bus k) (tu_ops u)) (fun x =>
      obind (mt_nbackend_step s (pending (fst x)) (mkNB (fst x) (nb_pops k) (learn_all (tu_learn u) (nb_projs k)) (nb_step k))) (fun y =>
      obind (mt_nbackend_run t (fst y)) (fun z =>
      Ret (fst z, snd y :: snd z))))
  end.
End MtNet.
