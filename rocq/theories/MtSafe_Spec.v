(** What the property "networks never fail on the multi-threaded backend" talks about
    besides Safe_Spec. *)
From Verif Require Import Base Messaging_Model Projection_Model Delta_Model Neuron_Model Pipeline_Model
  Stdp_Model Additive_Model Train_Model Net_Model Net_Spec Mt_Spec MtNet_Spec.

(** Every weight is a [float] (the multi-threaded backend computes with it). *)
Definition weights_valid (projs : list nproj) : Prop :=
  Forall (fun w => Forall (fun s => valid_binary 24 128 (d_weight (sy_params s)) = true) (delta_synapses w)) projs.
(** No neuron is named twice in the message, or there are no blocking synapses at all. *)
Definition single (projs : list nproj) (m : message) : Prop :=
  distinct_spikes m \/ Forall (fun w => Forall (fun s => d_type (sy_params s) <> BLOCKING) (delta_synapses w)) projs.
