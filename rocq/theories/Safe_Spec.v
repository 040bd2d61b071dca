(** What the properties of networks that never fail talk about. *)
From Verif Require Import Base Messaging_Model Projection_Model Delta_Model Neuron_Model Pipeline_Model Pipeline_Spec
  Stdp_Model Additive_Model Train_Model Net_Model Net_Spec.

(** What impacts the neurons of a population can take: LIF neurons excitatory and
    inhibitory-current ones, AltAI neurons all but inhibitory-conductance ones, BLIFAT
    neurons all; the value of a blocking impact is a number of steps, hence an
    [int64_t], and for AltAI not the least one. *)
Definition takes (a : npop) (t : output_type) (v : flt) : Prop :=
  match a with
  | NPlain (PopLif _) => t = EXCITATORY \/ t = INHIBITORY_CURRENT
  | NPlain (PopBlifat _) | NStdpBlifat _ => t = BLOCKING -> exists z, to_int64 v = Ret z
  | NPlain (PopAltai _) | NStdpAltai _ =>
      t <> INHIBITORY_CONDUCTANCE /\ (t = BLOCKING -> exists z, to_int64 v = Ret z /\ z <> int64_min)
  end.
(** The impact is for a neuron of the population, and can be taken by it. *)
Definition fits (a : npop) (i : impact) : Prop :=
  (i_post i < N.of_nat (size a))%N /\ takes a (i_type i) (i_value i).
Definition message_fits (a : npop) (m : message) : Prop :=
  match m with ImpactMsg _ _ _ _ _ l => Forall (fits a) l | SpikeMsg _ _ _ => True end.
(** No AltAI neuron is blocked for [2^63] steps. *)
Definition settled (a : npop) : Prop :=
  match a with
  | NPlain (PopAltai l) => Forall (fun n => (int64_min < a_time (snd n))%Z) l
  | NStdpAltai l => Forall (fun n => (int64_min < a_time (snd (fst n)))%Z) l
  | _ => True
  end.
(** The messages of projection [w] reach population [u]. *)
Definition reaches (extra : list subscr) (w : nproj) (u : uid) : Prop :=
  (u <> 0%N /\ np_post w = u) \/ subscribed extra 1 u (np_uid w) = true.
(** Every synapse leads to an existing neuron that can take what it sends; synapses
    whose weight can change are not of the blocking type. *)
Record wired (extra : list subscr) (pops : list (uid * npop)) (projs : list nproj) : Prop := mkWired {
  wi_settled : forall u a, In (u, a) pops -> settled a;
  wi_synapses : forall u a w s, In (u, a) pops -> In w projs -> reaches extra w u -> In s (delta_synapses w) ->
    (sy_to s < N.of_nat (size a))%N /\ takes a (d_type (sy_params s)) (d_weight (sy_params s)) /\
    (d_type (sy_params s) = BLOCKING -> exists p, np_kind w = NDelta p) }.
(** A message that comes from outside does no harm. *)
Definition harmless (extra : list subscr) (pops : list (uid * npop)) (projs : list nproj) (m : message) : Prop :=
  forall u a, In (u, a) pops -> to_population (map np_head projs) extra u m = true -> message_fits a m.
(** What a population must have been given when its step returns. *)
Definition tolerated (a : npop) (i : impact) : Prop :=
  (i_post i < N.of_nat (size a))%N /\
  match a with
  | NPlain (PopLif _) => i_type i = EXCITATORY \/ i_type i = INHIBITORY_CURRENT
  | NPlain (PopBlifat _) | NStdpBlifat _ => i_type i = BLOCKING -> exists z, to_int64 (i_value i) = Ret z
  | NPlain (PopAltai _) | NStdpAltai _ => i_type i <> INHIBITORY_CONDUCTANCE
  end.
