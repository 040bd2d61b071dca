(** Model of the additive STDP rule of the delta-synapse projection step.  All
    paths are relative to /repo/knp/backends/cpu/cpu-library/include/knp/backends/
    cpu-library/impl/projections unless said otherwise.  [std::exp] is a parameter
    ([expf]) of the definitions: nothing is assumed about it here. *)
From Verif Require Import Base Messaging_Model Projection_Model Delta_Model.

(** /repo/knp/synapse-traits-library/include/knp/synapse-traits/stdp_add_rule.h:
    40-67 (two time constants, [float], and two vectors of step numbers) on top of
    the delta parameters, stdp_common.h:62-78. *)
Record aparams := mkAP { a_delta : dparams; a_tau_plus : flt; a_tau_minus : flt; a_pre : list N; a_post : list N }.
Notation asyn := (synapse aparams).
Notation aproj := (proj aparams).

(** [ProcessingType] and the map [stdp_populations_] of the parameters shared by
    the synapses of a projection, /repo/knp/core-library/include/knp/core/
    projection.h:139-158; the map is only searched. *)
Inductive processing := STDPOnly | STDPAndSpike.
Definition pop_map := uid -> option processing.

Section Additive.
Variable expf : flt -> flt.

(** [STDPFormula::stdp_w], training/stdp/additive_stdp.h:50-55, with the factors
    a_plus = a_minus = 1 given at 187. *)
Definition stdp_w (tau_plus tau_minus x : flt) : flt :=
  if f_gt x (f_of_Z 0) then f_mul (f_of_Z 1) (expf (f_div (SFopp x) tau_plus))
  else f_mul (f_of_Z 1) (expf (f_div x tau_minus)).
(** [STDPFormula::stdp_delta_w], additive_stdp.h:57-76.  The difference of the
    step numbers is taken in [uint64_t] and then converted (72).  The assertion at
    63 is not evaluated (see c72_same_size for what it says). *)
Fixpoint delta_w_inner (tp tm : flt) (t_f : N) (post : list N) (w : flt) : flt :=
  match post with
  | [] => w
  | t_n :: t => delta_w_inner tp tm t_f t (f_add w (stdp_w tp tm (f_of_Z (Z.of_N (sub64 t_n t_f)))))
  end.
Fixpoint delta_w (tp tm : flt) (pre post : list N) (w : flt) : flt :=
  match pre with
  | [] => w
  | t_f :: t => delta_w tp tm t post (delta_w_inner tp tm t_f post w)
  end.

(** The history a call of [append_spike_times] writes to (the pointer to member,
    additive_stdp.h:97). *)
Inductive history := HPre | HPost.
(** additive_stdp.h:106-111: [size() < tau_minus_ + tau_plus_] compares as
    [float]. *)
Definition push_time (w : history) (time : N) (a : aparams) : aparams :=
  let room (h : list N) := f_lt (f_of_Z (Z.of_nat (length h))) (f_add (a_tau_minus a) (a_tau_plus a)) in
  match w with
  | HPre => if room (a_pre a) then mkAP (a_delta a) (a_tau_plus a) (a_tau_minus a) (a_pre a ++ [time]) (a_post a) else a
  | HPost => if room (a_post a) then mkAP (a_delta a) (a_tau_plus a) (a_tau_minus a) (a_pre a) (a_post a ++ [time]) else a
  end.
(** additive_stdp.h:104-112: the synapses found for one neuron, changed in place
    (a position outside the projection is undefined behaviour). *)
Fixpoint push_at (w : history) (time : N) (idx : list nat) (l : list asyn) : outcome (list asyn) :=
  match idx with
  | [] => Ret l
  | i :: t => match nth_error l i with
              | Some s => match set_nth i (mkSyn (push_time w time (sy_params s)) (sy_from s) (sy_to s)) l with
                          | Some l' => push_at w time t l'
                          | None => UB
                          end
              | None => UB
              end
  end.
(** [append_spike_times], additive_stdp.h:93-114, with the index getter given by
    [c].  Both calls of [init_projection] search by the postsynaptic neuron. *)
Fixpoint append_spike_times (w : history) (c : search) (time : N) (idx : list N) (p : aproj) : outcome aproj :=
  match idx with
  | [] => Ret p
  | n :: t => let (p', found) := find_synapses c n p in
              obind (push_at w time found (p_syn p')) (fun l =>
              append_spike_times w c time t (mkProj l (p_index p') (p_updated p')))
  end.
(** [init_projection], additive_stdp.h:117-170; the resulting messages are those
    the rest of the step sees. *)
Fixpoint init_projection (pops : pop_map) (ms : list message) (p : aproj) : outcome (aproj * list message) :=
  match ms with
  | [] => Ret (p, [])
  | m :: t =>
      obind (match m with
             | SpikeMsg s time idx =>
                 match pops s with
                 | None => Ret (p, m)
                 | Some k =>
                     obind (append_spike_times HPost ByPost time idx p) (fun p1 =>
                     obind (match k with
                            | STDPAndSpike => append_spike_times HPre ByPost time idx p1
                            | STDPOnly => Ret p1
                            end) (fun p2 =>
                     Ret (p2, match k with STDPOnly => SpikeMsg s time [] | STDPAndSpike => m end)))
                 end
             | _ => Ret (p, m)
             end) (fun r =>
      obind (init_projection pops t (fst r)) (fun r' => Ret (fst r', snd r :: snd r')))
  end.

(** [modify_weights], additive_stdp.h:173-196, for one synapse (181-194) and for
    the projection (178-195). *)
Definition modify_weight (a : aparams) : aparams :=
  let period := f_add (a_tau_plus a) (a_tau_minus a) in
  if f_ge (f_of_Z (Z.of_nat (length (a_pre a)))) period && f_ge (f_of_Z (Z.of_nat (length (a_post a)))) period then
    mkAP (mkDP (f_add (d_weight (a_delta a)) (delta_w (a_tau_plus a) (a_tau_minus a) (a_pre a) (a_post a) (f_of_Z 0)))
               (d_delay (a_delta a)) (d_type (a_delta a)))
         (a_tau_plus a) (a_tau_minus a) [] []
  else a.
Definition modify_weights (l : list asyn) : list asyn :=
  map (fun s => mkSyn (modify_weight (sy_params s)) (sy_from s) (sy_to s)) l.

(** What the spike loop of the step reads of a synapse (delta_impl.h:74-83): the
    base parameters and the two neurons. *)
Definition delta_view (s : asyn) : dsyn := mkSyn (a_delta (sy_params s)) (sy_from s) (sy_to s).

(** [calculate_projection], /repo/knp/backends/cpu/cpu-library/include/knp/
    backends/cpu-library/projections.h:58-84, with [calculate_projection_impl],
    delta/delta_impl.h:54-114, for AdditiveSTDPDeltaSynapse: the histories are
    filled first (63), then the impacts are scheduled (65-109, the loop of
    Delta_Model.do_spikes on the delta view; [init_synapse] does nothing,
    additive_stdp.h:36-39), then the weights are changed (111). *)
Definition additive_step (h : phead) (step : N) (pops : pop_map) (ms : list message) (p : aproj) (q : queue)
  : outcome (aproj * queue * option message) :=
  obind (init_projection pops ms p) (fun r =>
  let (p1, ms1) := r in
  obind (do_spikes h step (spikes_of ms1) (mkProj (map delta_view (p_syn p1)) (p_index p1) (p_updated p1)) q) (fun d =>
  let p2 := mkProj (modify_weights (p_syn p1)) (p_index (fst d)) (p_updated (fst d)) in
  match q_find step (snd d) with
  | Some m => Ret (p2, q_erase step (snd d), Some m)
  | None => Ret (p2, snd d, None)
  end)).

(** A run of one projection of the single-threaded backend
    (cpu-single-threaded-backend/impl/backend.cpp:116-133, 272-279): [ins] are the
    messages waiting for it at each step.  The result is the messages sent and the
    projection after the last step. *)
Fixpoint additive_run (h : phead) (step : N) (pops : pop_map) (ins : list (list message)) (p : aproj) (q : queue)
  : outcome (list (option message) * aproj) :=
  match ins with
  | [] => Ret ([], p)
  | ms :: t =>
      obind (additive_step h step pops ms p q) (fun r => let '(p', q', o) := r in
      obind (additive_run h (add64 step 1) pops t p' q') (fun r' => Ret (o :: fst r', snd r')))
  end.
End Additive.
