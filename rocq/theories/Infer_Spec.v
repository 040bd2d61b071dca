(** What replacing groups of winners by projections should do. *)
From Verif Require Import Base Messaging_Model Projection_Model Delta_Model Neuron_Model Pipeline_Model
  Stdp_Model Additive_Model Train_Model Net_Model.

(** [k'] has the synapses of [k]. *)
Definition same_synapses (k k' : nkind) : Prop :=
  match k, k' with
  | NDelta p, NDelta q => p_syn q = p_syn p
  | NAdditive _ p, NAdditive l q => p_syn q = p_syn p /\ l = []
  | NResource _ p, NResource l q => p_syn q = p_syn p /\ l = []
  | _, _ => False
  end.
(** [w'] is a copy of [w] with another identifier and another presynaptic population. *)
Definition copied (u sender : uid) (w w' : nproj) : Prop :=
  np_uid w' = u /\ np_pre w' = sender /\ np_post w' = np_post w /\ same_synapses (np_kind w) (np_kind w') /\ np_locked w' = true /\ np_queue w' = [].

(** The pairs of a sender and a receiver, group after group. *)
Definition pairs_of (groups : list (list uid * list uid)) : list (uid * uid) := flat_map (fun g => list_prod (fst g) (snd g)) groups.
(** The projections that are no receivers; the copies of the others, a copy for every pair. *)
Definition kept (pairs : list (uid * uid)) (l : list nproj) : list nproj := filter (fun w => negb (mem (np_uid w) (map snd pairs))) l.
Definition copies_of (fresh : nat -> uid) (i : nat) (pairs : list (uid * uid)) (l : list nproj) (cs : list nproj) : Prop :=
  length cs = length pairs /\ forall j s r, nth_error pairs j = Some (s, r) -> exists w w', In w l /\ np_uid w = r /\ nth_error cs j = Some w' /\ copied (fresh (i + j)) s w w'.
