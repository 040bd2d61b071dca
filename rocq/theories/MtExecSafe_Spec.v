(** What the property "models never fail under the executor on the multi-threaded backend" talks about
    besides Safe_Spec, MtSafe_Spec and MtExec_Spec. *)
From Verif Require Import Base Messaging_Model Projection_Model Delta_Model Neuron_Model Pipeline_Model Train_Model Net_Model Net_Spec Framework_Model Exec_Model Exec_Spec.

(** Synapses that block do not occur; or nothing repeats a neuron: neither what the input channels yield in
    these rounds nor what the handlers answer. *)
Definition calm (projs : list nproj) (calls : list xcall) (turns : list xturn) : Prop :=
  Forall (fun w => Forall (fun s => d_type (sy_params s) <> BLOCKING) (delta_synapses w)) projs \/
  ((forall u j, In u turns -> NoDup (xt_data u j)) /\
   forall c ss f, In (c, ss, f) (handlers calls) -> forall n ms, NoDup (f n ms)).
