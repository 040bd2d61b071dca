(** Networks that are used again after a run. *)
From Verif Require Import Base Messaging_Model Projection_Model Neuron_Model Pipeline_Model Stdp_Model Additive_Model Train_Model Net_Model Net_Spec.

(** A projection without the messages that wait for it: in the backend they are kept beside
    the projection, and only the projection is copied out and loaded again
    (knp/backends/cpu/cpu-single-threaded-backend/include/knp/backends/cpu-single-threaded/backend.h:107-118). *)
Definition emptied (w : nproj) : nproj := mkNP (np_uid w) (np_pre w) (np_post w) (np_locked w) (np_kind w) [].
(** The index of a projection is up to date, as constructors leave it. *)
Definition indexed (w : nproj) : Prop :=
  match np_kind w with NDelta p => p_updated p = true | NAdditive _ p => p_updated p = true | NResource _ p => p_updated p = true end.
