(** Model of the delta-synapse projection step, on one thread and in parts on
    several threads, and of the partition of work. *)
From Verif Require Import Base Messaging_Model Projection_Model.

(** /repo/knp/synapse-traits-library/include/knp/synapse-traits/delta.h:66-92:
    weight ([float]), delay ([uint32_t]) and output type. *)
Record dparams := mkDP { d_weight : flt; d_delay : N; d_type : output_type }.
Notation dsyn := (synapse dparams).
Notation dproj := (proj dparams).

(** The part of a projection a step does not change: identifier, end
    populations, and [is_forced] (true for DeltaSynapse, stdp_dispatcher.h:55;
    false for the resource STDP synapse, synaptic_resource_stdp.h:59). *)
Record phead := mkPH { ph_uid : uid; ph_pre : uid; ph_post : uid; ph_forced : bool }.

(** [MessageQueue], /repo/knp/backends/cpu/cpu-library/include/knp/backends/
    cpu-library/impl/projections/message_queue.h:34: a hash map from step to
    message, used through find / insert / erase only. *)
Definition queue := list (N * message).
Fixpoint q_find (k : N) (q : queue) : option message :=
  match q with
  | [] => None
  | (k', m) :: t => if N.eqb k k' then Some m else q_find k t
  end.
Definition q_erase (k : N) (q : queue) : queue := filter (fun e => negb (N.eqb k (fst e))) q.
(** [iter->second.impacts_.push_back(impact)]. *)
Definition push_impact (i : impact) (m : message) : message :=
  match m with
  | ImpactMsg s t pre post f l => ImpactMsg s t pre post f (l ++ [i])
  | SpikeMsg _ _ _ => m
  end.
Fixpoint q_push (k : N) (i : impact) (q : queue) : queue :=
  match q with
  | [] => []
  | (k', m) :: t => if N.eqb k k' then (k', push_impact i m) :: t else (k', m) :: q_push k i t
  end.

(** delta_impl.h:79 (and 137): [delay_ + step_n - 1] in 64-bit arithmetic. *)
Definition future_step (delay step : N) : N := sub64 (add64 delay step) 1.
(** delta_impl.h:80-83: the neuron numbers are cut to 32 bits. *)
Definition impact_of (index : nat) (s : dsyn) : impact :=
  mkImpact (N.of_nat index) (d_weight (sy_params s)) (d_type (sy_params s)) (w32 (sy_from s)) (w32 (sy_to s)).
(** delta_impl.h:85-106. *)
Definition schedule (h : phead) (step key : N) (i : impact) (q : queue) : queue :=
  match q_find key q with
  | Some _ => q_push key i q
  | None => q ++ [(key, ImpactMsg (ph_uid h) step (ph_pre h) (ph_post h) (ph_forced h) [i])]
  end.

(** delta_impl.h:72-107: the synapses found for one spike. *)
Fixpoint do_synapses (h : phead) (step : N) (l : list dsyn) (idx : list nat) (q : queue) : outcome queue :=
  match idx with
  | [] => Ret q
  | i :: t => match nth_error l i with
              | Some s => do_synapses h step l t
                            (schedule h step (future_step (d_delay (sy_params s)) step) (impact_of i s) q)
              | None => UB
              end
  end.
(** delta_impl.h:68-108: the spikes of the messages, one after the other. *)
Fixpoint do_spikes (h : phead) (step : N) (spikes : list N) (p : dproj) (q : queue) : outcome (dproj * queue) :=
  match spikes with
  | [] => Ret (p, q)
  | n :: t =>
      let (p', idx) := find_synapses ByPre n p in
      obind (do_synapses h step (p_syn p') idx q) (do_spikes h step t p')
  end.
(** All neuron indexes of the unloaded messages, in order (delta_impl.h:65-68).
    [unload_messages<SpikeMessage>] yields spike messages only. *)
Definition spikes_of (ms : list message) : list N :=
  flat_map (fun m => match m with SpikeMsg _ _ idx => idx | _ => [] end) ms.
(** [calculate_projection], projections.h:59-84, with
    [calculate_projection_impl], delta_impl.h:54-114; the result is the message
    sent, if any.  The training hooks do nothing for DeltaSynapse; for the
    resource STDP synapse they record a step number (synaptic_resource_stdp.h:
    36-55), which is not part of this model. *)
Definition calculate_projection (h : phead) (step : N) (ms : list message) (p : dproj) (q : queue)
  : outcome (dproj * queue * option message) :=
  obind (do_spikes h step (spikes_of ms) p q) (fun r =>
    match q_find step (snd r) with
    | Some m => Ret (fst r, q_erase step (snd r), Some m)
    | None => Ret (fst r, snd r, None)
    end).

(** A run of a projection over consecutive steps (backend.cpp:116-133 of the
    single-threaded backend): at every step the messages waiting for it.  Weights
    may be changed by training between steps: [in_syn] is the synapse list as it
    is at that step; the index of the projection is not touched by that. *)
Record pinput := mkIn { in_syn : list dsyn; in_msgs : list message }.
Fixpoint run_projection (h : phead) (step : N) (ins : list pinput) (p : dproj) (q : queue)
  : outcome (list (option message)) :=
  match ins with
  | [] => Ret []
  | i :: t =>
      obind (calculate_projection h step (in_msgs i) (mkProj (in_syn i) (p_index p) (p_updated p)) q)
        (fun r => let '(p', q', o) := r in
         obind (run_projection h (add64 step 1) t p' q') (fun os => Ret (o :: os)))
  end.

(** ** Several threads *)

(** [convert_spikes], /repo/knp/backends/cpu/cpu-multi-threaded-backend/impl/
    backend.cpp:235-247: how often each neuron occurs. *)
Fixpoint count_insert (n : N) (m : list (N * N)) : list (N * N) :=
  match m with
  | [] => [(n, 1%N)]
  | (k, c) :: t => if N.eqb k n then (k, add64 c 1) :: t else (k, c) :: count_insert n t
  end.
Definition convert_spikes (spikes : list N) : list (N * N) :=
  fold_left (fun m n => count_insert n m) spikes [].
Fixpoint count_find (n : N) (m : list (N * N)) : option N :=
  match m with
  | [] => None
  | (k, c) :: t => if N.eqb k n then Some c else count_find n t
  end.

(** The loop of [calculate_projection_multithreaded_impl], delta_impl.h:124-150,
    over the synapses [part_start .. part_end): the keys and impacts collected.
    The weight is multiplied by the count, converted to [float]. *)
Definition mt_impact (index : nat) (s : dsyn) (count : N) : impact :=
  mkImpact (N.of_nat index) (f_mul (d_weight (sy_params s)) (f_of_Z (Z.of_N count)))
           (d_type (sy_params s)) (w32 (sy_from s)) (w32 (sy_to s)).
Fixpoint mt_collect (step : N) (counts : list (N * N)) (l : list dsyn) (i n : nat) : list (N * impact) :=
  match n with
  | 0 => []
  | S n' =>
      match nth_error l i with
      | Some s => match count_find (sy_from s) counts with
                  | Some c => (future_step (d_delay (sy_params s)) step, mt_impact i s c)
                              :: mt_collect step counts l (S i) n'
                  | None => mt_collect step counts l (S i) n'
                  end
      | None => [] (* not reached: part_end is at most the size *)
      end
  end.
(** delta_impl.h:151-174, under the lock.  The two population identifiers of a
    new message are given in the other order (168-169). *)
Definition mt_schedule (h : phead) (step key : N) (i : impact) (q : queue) : queue :=
  match q_find key q with
  | Some _ => q_push key i q
  | None => q ++ [(key, ImpactMsg (ph_uid h) step (ph_post h) (ph_pre h) (ph_forced h) [i])]
  end.
Definition mt_merge (h : phead) (step : N) (c : list (N * impact)) (q : queue) : queue :=
  fold_left (fun q e => mt_schedule h step (fst e) (snd e) q) c q.
(** One posted task, delta_impl.h:117-175.  The collection only reads data no
    task changes (DeltaSynapse); the merge is one critical section. *)
Definition mt_part (h : phead) (step : N) (counts : list (N * N)) (l : list dsyn) (q : queue)
                   (part : nat * nat) : queue :=
  mt_merge h step (mt_collect step counts l (fst part) (snd part - fst part)) q.

(** The parts [start, end) made by the loops of the multi-threaded backend,
    backend.cpp:82-94, 132-147, 269-281 and delta_impl.h:123, in 64-bit
    arithmetic.  [fuel] bounds the number of iterations looked at; [None] if the
    loop does not end within it. *)
Fixpoint parts_from (start size part : N) (fuel : nat) : option (list (N * N)) :=
  if (start <? size)%N then
    match fuel with
    | 0 => None
    | S f => match parts_from (add64 start part) size part f with
             | Some l => Some ((start, N.min (add64 start part) size) :: l)
             | None => None
             end
    end
  else Some [].
Definition parts (size part : N) (fuel : nat) : option (list (N * N)) := parts_from 0 size part fuel.

(** [calculate_projections] of the multi-threaded backend for one projection,
    backend.cpp:256-294: the parts run in some order [order] (a permutation of
    all parts, since each merge is one critical section); only the first message
    is converted (267); without messages nothing is scheduled (261-264). *)
Definition mt_calculate (h : phead) (step : N) (ms : list message) (l : list dsyn)
                        (order : list (nat * nat)) (q : queue) : queue * option message :=
  let q' := match ms with
            | [] => q
            | m :: _ => fold_left (mt_part h step (convert_spikes (spikes_of [m])) l) order q
            end in
  match q_find step q' with
  | Some m => (q_erase step q', Some m)
  | None => (q', None)
  end.

(** A run of one projection on the multi-threaded backend; every step has its
    own order of the parts. *)
Record mt_input := mkMtIn { mi_syn : list dsyn; mi_msgs : list message; mi_order : list (nat * nat) }.
Fixpoint mt_run (h : phead) (step : N) (ins : list mt_input) (q : queue) : list (option message) :=
  match ins with
  | [] => []
  | i :: t => let (q', o) := mt_calculate h step (mi_msgs i) (mi_syn i) (mi_order i) q in
              o :: mt_run h (add64 step 1) t q'
  end.
