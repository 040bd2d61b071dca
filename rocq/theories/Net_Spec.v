(** What the properties of whole networks with training talk about. *)
From Verif Require Import Base Messaging_Model Projection_Model Projection_Spec Delta_Model Neuron_Model Pipeline_Model Pipeline_Spec
  Stdp_Model Additive_Model Additive_Spec Train_Model Net_Model.

(** A projection as it results from construction and a history of calls that does
    not damage its search index (see C16). *)
Definition sound {P} (p : proj P) : Prop :=
  exists p0 fresh ops tr,
    ((p0 = proj_empty /\ fresh = false) \/ ((exists g k, p0 = proj_generated g k) /\ fresh = true)) /\
    prun p0 ops = Ret (p, tr) /\ undamaged fresh tr.
Definition sound_kind (k : nkind) : Prop :=
  match k with NDelta p => sound p | NAdditive _ p => sound p | NResource _ p => sound p end.
Definition size (a : npop) : nat :=
  match a with
  | NPlain (PopLif l) => length l | NPlain (PopBlifat l) => length l | NPlain (PopAltai l) => length l
  | NStdpBlifat l => length l | NStdpAltai l => length l
  end.
(** A network before the start: distinct identifiers, sound projections with empty
    queues, neurons numbered in 32 bits. *)
Record sound_network (pops : list (uid * npop)) (projs : list nproj) : Prop := mkSound {
  sn_pops : NoDup (map fst pops);
  sn_projs : NoDup (map np_uid projs);
  sn_kinds : Forall (fun w => sound_kind (np_kind w)) projs;
  sn_queues : Forall (fun w => np_queue w = []) projs;
  sn_sizes : Forall (fun e => (N.of_nat (size (snd e)) <= two32)%N) pops }.

(** A spike message meant for a projection: sent by its presynaptic population, by
    one of its STDP populations, or by somebody it was subscribed to in addition. *)
Definition to_nproj (extra : list subscr) (w : nproj) (m : message) : bool :=
  match m with
  | SpikeMsg s _ _ =>
      negb (N.eqb s 0) && (N.eqb s (np_pre w) || existsb (fun e => N.eqb s (fst e)) (stdp_pops w))
      || subscribed extra 0 (np_uid w) s
  | ImpactMsg _ _ _ _ _ _ => false
  end.

(** The synapses of a projection as delta synapses: weight, delay, type and the two
    neurons. *)
Definition delta_synapses (w : nproj) : list dsyn :=
  match np_kind w with
  | NDelta p => p_syn p
  | NAdditive _ p => map delta_view (p_syn p)
  | NResource _ p => map r_delta (p_syn p)
  end.
(** The messages whose spikes go through the synapses. *)
Definition heard (w : nproj) (ms : list message) : list message :=
  match np_kind w with NAdditive l _ => effective (map_of l) ms | _ => ms end.
(** What is never to change of a projection: identifier, ends, STDP populations,
    kind, and of every synapse the two neurons, the delay and the type. *)
Definition fixed (w : nproj) :=
  (np_uid w, np_pre w, np_post w, np_forced w, stdp_pops w,
   map (fun s => (sy_from s, sy_to s, d_delay (sy_params s), d_type (sy_params s))) (delta_synapses w)).
(** The resource-STDP synapses of a projection (none for other kinds). *)
Definition resource_synapses (w : nproj) : list rsyn := match np_kind w with NResource _ p => p_syn p | _ => [] end.
Definition is_resource (w : nproj) : bool := match np_kind w with NResource _ _ => true | _ => false end.
(** A synapse without the step of its last spike. *)
Definition unstamped (s : rsyn) : rsyn := mkSyn (on_rule (with_spike 0) (sy_params s)) (sy_from s) (sy_to s).
(** The synapses that lead to neuron [n] of population [u] and can learn: those of
    the resource-STDP projections that end in [u] and are not locked, in order. *)
Definition incoming (u : uid) (n : N) (projs : list nproj) : list rparams :=
  flat_map (fun w => if is_resource w && negb (np_locked w) && N.eqb (np_post w) u
                     then map sy_params (filter (fun s => N.eqb (sy_to s) n) (resource_synapses w)) else []) projs.
Definition stdp_pop (a : npop) : bool := match a with NPlain _ => false | _ => true end.

(** The network after [t] steps of a run that started with [pops] and [projs]. *)
Definition after (tr : list nrecord) (pops : list (uid * npop)) (projs : list nproj) (t : nat) : list (uid * npop) * list nproj :=
  match t with
  | 0 => (pops, projs)
  | S t' => match nth_error tr t' with Some r => (nr_pops' r, nr_projs' r) | None => (pops, projs) end
  end.
(** A run from the start. *)
Definition net_run (pow2f expf : flt -> flt) (extra : list subscr) (pops : list (uid * npop)) (projs : list nproj)
    (turns : list turn) (k : nbackend) (tr : list nrecord) : Prop :=
  exists k0, nbackend_init extra pops projs = Ret k0 /\ nbackend_run pow2f expf turns k0 = Ret (k, tr).

(** What projection number [j] deals with in a step: its synapses as they are after
    the training of that step, and the spike messages that go through them. *)
Definition input_of (extra : list subscr) (j : nat) (r : nrecord) : pinput :=
  match nth_error (nr_trained r) j with
  | Some w => mkIn (delta_synapses w)
                   (heard w (filter (to_nproj extra w) (r_ext (nr_msgs r) ++ sent_msgs (r_pop_out (nr_msgs r)))))
  | None => mkIn [] []
  end.
(** The weight of a synapse is the value of its synaptic resource (see C38). *)
Definition consistent (s : rparams) : Prop :=
  d_weight (rp_delta s) = weight_f (rr_min (rp_rule s)) (rr_max (rp_rule s)) (rr_res (rp_rule s)).
