(** Model of a whole step of the single-threaded CPU backend for every kind of
    population and projection it supports, with training and with the switching of
    learning.  Extends Pipeline_Model (plain populations, delta projections).
    [pow2f] and [expf] stand for the mathematical functions of Train_Model and
    Additive_Model. *)
From Verif Require Import Base Messaging_Model Messaging_Spec Projection_Model Delta_Model Neuron_Model Pipeline_Model
  Stdp_Model Additive_Model Train_Model.

(** ** Populations with resource STDP *)
(** A neuron with resource STDP: the base neuron and the added fields. *)
Section Stdp_neuron.
Context {P S : Type}.
Definition sneuron := (P * S * tn)%type.
(** blifat_impl.h:50-65, altai_impl.h:43-53: [pre] is the step of the base neuron
    with the dopamine value set to 0. *)
Definition s_pre (pre : P -> S -> S) (n : sneuron) : sneuron :=
  let '(p, s, x) := n in (p, pre p s, with_forced false x).
(** blifat_impl.h:96-107, altai_impl.h:86-96. *)
Definition s_impact (imp : S -> impact -> outcome S) (forcing : bool) (n : sneuron) (i : impact) : outcome sneuron :=
  let '(p, s, x) := n in
  obind (imp s i) (fun s' =>
    Ret (p, s', match i_type i with EXCITATORY => with_forced (t_forced x || forcing) x | _ => x end)).
Definition s_post (post : P -> S -> S * bool) (n : sneuron) : sneuron * bool :=
  let '(p, s, x) := n in let (s', b) := post p s in ((p, s', x), b).
End Stdp_neuron.
Arguments sneuron : clear implicits.

(** [impact_population], populations.h:73-85, with the flag of the message of each
    impact. *)
Fixpoint impact_flagged {A} (imp : bool -> A -> impact -> outcome A) (l : list (bool * impact)) (neurons : list A)
  : outcome (list A) :=
  match l with
  | [] => Ret neurons
  | (f, i) :: t => obind (update_at (N.to_nat (i_post i)) (fun n => imp f n i) neurons) (impact_flagged imp t)
  end.
Definition flagged (ms : list message) : list (bool * impact) :=
  flat_map (fun m => match m with ImpactMsg _ _ _ _ f l => map (pair f) l | _ => [] end) ms.
(** The part of [calculate_resource_stdp_population] before training,
    populations_old.h:200-205: the neurons and the indexes of the spike message. *)
Definition stdp_front {A} (pre : A -> A) (imp : bool -> A -> impact -> outcome A) (post : A -> A * bool)
    (ms : list message) (neurons : list A) : outcome (list A * list N) :=
  obind (impact_flagged imp (flagged ms) (pre_part pre 0 (length neurons) neurons)) (fun n1 =>
    let (n2, idx) := post_part post 0 0 (length n1) n1 in
    Ret (n2, map (fun i => w32 (N.of_nat i)) idx)).

(** What training reads and writes of the two kinds. *)
Definition bl_view (n : sneuron bl_par bl) : tview := let '(p, s, x) := n in mkV x (b_dopa s) (bp_add p).
Definition bl_write (n : sneuron bl_par bl) (v : tview) : sneuron bl_par bl :=
  let '(p, s, _) := n in
  (mkBlPar (bp_thr p) (v_add v) (bp_thr_decay p) (bp_thr_inc p) (bp_trace_decay p) (bp_trace_inc p) (bp_inh_decay p)
           (bp_pot_decay p) (bp_burst p) (bp_reflex p) (bp_rev p) (bp_refract p) (bp_reset p) (bp_min p), s, v_x v).
Definition al_view (n : sneuron al_par al) : tview := let '(p, s, x) := n in mkV x (a_dopa s) (ap_add p).
Definition al_write (n : sneuron al_par al) (v : tview) : sneuron al_par al :=
  let '(p, s, _) := n in
  (mkAlPar (ap_diff p) (ap_reset p) (ap_rev p) (ap_sat p) (ap_nosave p) (ap_thr p) (ap_neg p) (ap_leak p) (ap_resetv p) (v_add v),
   s, v_x v).
Definition write_all {A} (write : A -> tview -> A) (ns : list A) (vs : list tview) : list A :=
  map (fun e => write (fst e) (snd e)) (combine ns vs).

(** [SingleThreadedCPUBackend::PopulationVariants]. *)
Inductive npop :=
| NPlain (a : apop)
| NStdpBlifat (l : list (sneuron bl_par bl))
| NStdpAltai (l : list (sneuron al_par al)).

(** ** Projections *)
(** The kinds of projections and, for the STDP kinds, [stdp_populations_]
    (core-library/include/knp/core/projection.h:153-158; the order of the map is
    that of the list). *)
Inductive nkind :=
| NDelta (p : dproj)
| NAdditive (pops : list (uid * processing)) (p : aproj)
| NResource (pops : list (uid * processing)) (p : rproj).
(** [ProjectionWrapper]; [is_locked_] (projection.h:432) belongs to the projection. *)
Record nproj := mkNP { np_uid : uid; np_pre : uid; np_post : uid; np_locked : bool; np_kind : nkind; np_queue : queue }.
(** [is_forced], stdp_dispatcher.h:55, additive_stdp.h:200, synaptic_resource_stdp.h:59. *)
Definition np_forced (w : nproj) : bool := match np_kind w with NDelta _ => true | _ => false end.
Definition np_head (w : nproj) : phead := mkPH (np_uid w) (np_pre w) (np_post w) (np_forced w).
Definition stdp_pops (w : nproj) : list (uid * processing) :=
  match np_kind w with NDelta _ => [] | NAdditive l _ | NResource l _ => l end.
Definition np_with (w : nproj) (k : nkind) (q : queue) : nproj := mkNP (np_uid w) (np_pre w) (np_post w) (np_locked w) k q.

(** [find_projection_by_type_and_postsynaptic] with [exclude_locked],
    populations_old.h:58-83. *)
Definition working (u : uid) (w : nproj) : option rproj :=
  match np_kind w with
  | NResource _ p => if negb (np_locked w) && N.eqb (np_post w) u then Some p else None
  | _ => None
  end.
Definition works (u : uid) (l : list nproj) : list rproj :=
  flat_map (fun w => match working u w with Some p => [p] | None => [] end) l.
(** Training changes the working projections in place. *)
Definition set_rproj (w : nproj) (p : rproj) : nproj :=
  match np_kind w with NResource l _ => np_with w (NResource l p) (np_queue w) | _ => w end.
Fixpoint put_back (u : uid) (l : list nproj) (ps : list rproj) : list nproj :=
  match l with
  | [] => []
  | w :: t => match working u w, ps with
              | Some _, p :: ps' => set_rproj w p :: put_back u t ps'
              | _, _ => w :: put_back u t ps
              end
  end.

(** delta_impl.h:72-107 for the resource STDP synapse: [init_synapse]
    (synaptic_resource_stdp.h:36-41) stores the step. *)
Definition r_delta (s : rsyn) : dsyn := mkSyn (rp_delta (sy_params s)) (sy_from s) (sy_to s).
Fixpoint r_synapses (h : phead) (step : N) (l : list rsyn) (idx : list nat) (q : queue) : outcome (list rsyn * queue) :=
  match idx with
  | [] => Ret (l, q)
  | i :: t => match nth_error l i with
              | Some s => let s' := mkSyn (on_rule (with_spike step) (sy_params s)) (sy_from s) (sy_to s) in
                          r_synapses h step (put i s' l) t
                            (schedule h step (future_step (d_delay (rp_delta (sy_params s'))) step) (impact_of i (r_delta s')) q)
              | None => UB
              end
  end.
(** delta_impl.h:65-109. *)
Fixpoint r_spikes (h : phead) (step : N) (spikes : list N) (p : rproj) (q : queue) : outcome (rproj * queue) :=
  match spikes with
  | [] => Ret (p, q)
  | n :: t =>
      let (p', idx) := find_synapses ByPre n p in
      obind (r_synapses h step (p_syn p') idx q) (fun r =>
      r_spikes h step t (mkProj (fst r) (p_index p') (p_updated p')) (snd r))
  end.
(** [calculate_projection], projections.h:59-84, for SynapticResourceSTDPDeltaSynapse
    ([init_projection] and [modify_weights] do nothing). *)
Definition resource_step (h : phead) (step : N) (ms : list message) (p : rproj) (q : queue)
  : outcome (rproj * queue * option message) :=
  obind (r_spikes h step (spikes_of ms) p q) (fun r =>
    match q_find step (snd r) with
    | Some m => Ret (fst r, q_erase step (snd r), Some m)
    | None => Ret (fst r, snd r, None)
    end).
Definition map_of (l : list (uid * processing)) : pop_map :=
  fun u => match find (fun e => N.eqb u (fst e)) l with Some e => Some (snd e) | None => None end.

Section Net.
Variables pow2f expf : flt -> flt.

(** [calculate_projection], backend.cpp:263-289. *)
Definition nproj_step (step : N) (ms : list message) (w : nproj) : outcome (nproj * option message) :=
  match np_kind w with
  | NDelta p => obind (calculate_projection (np_head w) step ms p (np_queue w)) (fun r =>
                  let '(p', q', o) := r in Ret (np_with w (NDelta p') q', o))
  | NAdditive l p => obind (additive_step expf (np_head w) step (map_of l) ms p (np_queue w)) (fun r =>
                  let '(p', q', o) := r in Ret (np_with w (NAdditive l p') q', o))
  | NResource l p => obind (resource_step (np_head w) step ms p (np_queue w)) (fun r =>
                  let '(p', q', o) := r in Ret (np_with w (NResource l p') q', o))
  end.

(** The rest of [calculate_resource_stdp_population], populations_old.h:207-216. *)
Definition stdp_train {A} (view : A -> tview) (write : A -> tview -> A) (u : uid) (step : N) (spikes : list N)
    (ns : list A) (projs : list nproj) : outcome (list A * list nproj) :=
  obind (train_f pow2f step spikes (map view ns, works u projs)) (fun r =>
    Ret (write_all write ns (fst r), put_back u projs (snd r))).
Definition spike_message (u : uid) (step : N) (spikes : list N) : option message :=
  match spikes with [] => None | _ => Some (SpikeMsg u step spikes) end.
(** [calculate_population], backend.cpp:217-260. *)
Definition npop_step (u : uid) (step : N) (ms : list message) (a : npop) (projs : list nproj)
  : outcome (npop * list nproj * option message) :=
  match a with
  | NPlain a => obind (apop_step u step ms a) (fun r => Ret (NPlain (fst r), projs, snd r))
  | NStdpBlifat l =>
      obind (stdp_front (s_pre (bl_prestep true)) (s_impact bl_impact) (s_post bl_post) ms l) (fun f =>
      obind (stdp_train bl_view bl_write u step (snd f) (fst f) projs) (fun r =>
      Ret (NStdpBlifat (fst r), snd r, spike_message u step (snd f))))
  | NStdpAltai l =>
      obind (stdp_front (s_pre (al_prestep true)) (s_impact al_impact) (s_post al_post) ms l) (fun f =>
      obind (stdp_train al_view al_write u step (snd f) (fst f) projs) (fun r =>
      Ret (NStdpAltai (fst r), snd r, spike_message u step (snd f))))
  end.

(** The loop over the populations, backend.cpp:95-111. *)
Fixpoint npops_phase (step : N) (pops : list (uid * npop)) (projs : list nproj) (b : bus)
  : outcome (list (uid * npop) * list nproj * bus * list (list message) * list (option message)) :=
  match pops with
  | [] => Ret ([], projs, b, [], [])
  | (u, a) :: t =>
      obind (unload_own b 1 u) (fun x =>
      obind (npop_step u step (snd x) a projs) (fun y =>
      let '(a', projs1, o) := y in
      obind (send_own (fst x) o) (fun b2 =>
      obind (npops_phase step t projs1 b2) (fun z =>
        let '(t', projs2, b3, ins, outs) := z in
        Ret ((u, a') :: t', projs2, b3, snd x :: ins, o :: outs)))))
  end.
(** The loop over the projections, backend.cpp:117-133. *)
Fixpoint nprojs_phase (step : N) (projs : list nproj) (b : bus)
  : outcome (list nproj * bus * list (list message) * list (option message)) :=
  match projs with
  | [] => Ret ([], b, [], [])
  | w :: t =>
      obind (unload_own b 0 (np_uid w)) (fun x =>
      obind (nproj_step step (snd x) w) (fun y =>
      obind (send_own (fst x) (snd y)) (fun b2 =>
      obind (nprojs_phase step t b2) (fun z =>
        let '(t', b3, ins, outs) := z in
        Ret (fst y :: t', b3, snd x :: ins, snd y :: outs)))))
  end.

(** ** The backend *)
Record nbackend := mkNB { nb_bus : bus; nb_pops : list (uid * npop); nb_projs : list nproj; nb_step : N }.
(** [knp::backends::cpu::init], init.h:46-110. *)
Definition ninit_proj (w : nproj) : list op :=
  flat_map (fun e : uid * processing => if N.eqb (fst e) 0 then [] else [OSubscribe 0 0 (np_uid w) [fst e]]) (stdp_pops w) ++
  (if N.eqb (np_pre w) 0 then [] else [OSubscribe 0 0 (np_uid w) [np_pre w]]) ++
  (if N.eqb (np_post w) 0 then [] else [OSubscribe 0 1 (np_post w) [np_uid w]]).
Definition ninit_ops (projs : list nproj) : list op := flat_map ninit_proj projs.
Definition nbackend_init (extra : list subscr) (pops : list (uid * npop)) (projs : list nproj) : outcome nbackend :=
  obind (run bus_init (OCreate :: extra_ops extra ++ ninit_ops projs)) (fun r => Ret (mkNB (fst r) pops projs 0)).

(** What can be seen of a step: the messages (Pipeline_Model.record), and the
    populations and projections before the step, after the training, and after the
    step. *)
Record nrecord := mkNR {
  nr_msgs : record; nr_pops : list (uid * npop); nr_projs : list nproj;
  nr_trained : list nproj; nr_pops' : list (uid * npop); nr_projs' : list nproj }.
(** [SingleThreadedCPUBackend::_step], backend.cpp:89-141. *)
Definition nbackend_step (ext : list message) (k : nbackend) : outcome (nbackend * nrecord) :=
  obind (route_receive_own (nb_bus k)) (fun b1 =>
  obind (npops_phase (nb_step k) (nb_pops k) (nb_projs k) b1) (fun x =>
  let '(pops, projs1, b2, pin, pout) := x in
  obind (route_receive_own b2) (fun b3 =>
  obind (nprojs_phase (nb_step k) projs1 b3) (fun y =>
  let '(projs, b4, jin, jout) := y in
  obind (route_receive_own b4) (fun b5 =>
  Ret (mkNB b5 pops projs (add64 (nb_step k) 1),
       mkNR (mkRecord ext pin pout jin jout) (nb_pops k) (nb_projs k) projs1 pops projs)))))).

(** [start_learning] ([true]) and [stop_learning] ([false]), include/knp/backends/
    cpu-single-threaded/backend.h:315-332; [lock_weights] and [unlock_weights],
    projection.h:384-389. *)
Definition set_lock (b : bool) (w : nproj) : nproj := mkNP (np_uid w) (np_pre w) (np_post w) b (np_kind w) (np_queue w).
Definition learn (on : bool) (projs : list nproj) : list nproj := map (set_lock (negb on)) projs.
(** What happens before a step: calls on other endpoints of the bus, and calls of
    [start_learning] / [stop_learning]. *)
Record turn := mkTurn { tu_ops : list op; tu_learn : list bool }.
Definition learn_all (l : list bool) (projs : list nproj) : list nproj := fold_left (fun ps on => learn on ps) l projs.
(** A run. *)
Fixpoint nbackend_run (turns : list turn) (k : nbackend) : outcome (nbackend * list nrecord) :=
  match turns with
  | [] => Ret (k, [])
  | u :: t =>
      obind (run (nb_bus k) (tu_ops u)) (fun x =>
      obind (nbackend_step (pending (fst x)) (mkNB (fst x) (nb_pops k) (learn_all (tu_learn u) (nb_projs k)) (nb_step k))) (fun y =>
      obind (nbackend_run t (fst y)) (fun z =>
      Ret (fst z, snd y :: snd z))))
  end.
End Net.
