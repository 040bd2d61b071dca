(** What a user expects of populations and projections on the device. *)
From Verif Require Import Base Messaging_Model Projection_Model Delta_Model Delta_Spec Gpu_Model Gpu_Spec GpuBus_Model GpuBus_Spec GpuNet_Model.

(** The messages a projection reads in a step. *)
Definition messages_at (bus : list gmsg) (idx : list nat) : list gmsg :=
  flat_map (fun k => match nth_error bus k with Some m => [m] | None => [] end) idx.
Definition read_by (i : ginput) : list gmsg := messages_at (gi_bus i) (gi_idx i).
(** The same step of a projection with the synapses [l] on the host. *)
Definition as_in (l : list dsyn) (i : ginput) : pinput := mkIn l (map as_host (read_by i)).

(** After the inputs of the steps 0 .. [t] impacts are waiting for at least three
    different steps from [t] on. *)
Definition crowded (l : list dsyn) (ins : list ginput) (t : nat) : Prop :=
  exists k1 k2 k3, k1 <> k2 /\ k1 <> k3 /\ k2 <> k3 /\
    forall k, k = k1 \/ k = k2 \/ k = k3 -> t <= k /\ due (map (as_in l) (firstn (S t) ins)) k <> [].
