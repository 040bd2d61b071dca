(** What the properties of the multi-threaded backend's step talk about. *)
From Verif Require Import Base Messaging_Model Projection_Model Delta_Model Delta_Spec Neuron_Model Pipeline_Model Pipeline_Spec Mt_Model.

Definition apop_size (a : apop) : N :=
  match a with
  | PopLif l => N.of_nat (length l) | PopBlifat l => N.of_nat (length l) | PopAltai l => N.of_nat (length l)
  end.
(** An order of the parts made for a container of [size] elements. *)
Definition any_order (part size : N) (o : list (nat * nat)) : Prop :=
  exists ps fuel, parts size part fuel = Some ps /\ Permutation o (map to_nat_part ps).
(** A schedule of one step for a network, with the part sizes of populations and
    projections given to the backend. *)
Definition sched_ok (pp pj : N) (pops : list (uid * apop)) (projs : list wproj) (s : sched) : Prop :=
  Forall2 (fun p o => any_order pp (apop_size (snd p)) (fst o) /\ any_order pp (apop_size (snd p)) (snd o)) pops (sc_pops s) /\
  Forall2 (fun w o => any_order pj (N.of_nat (length (p_syn (wp_proj w)))) o) projs (sc_projs s).

(** What reaches the backend's endpoint in a step after its populations have taken
    their messages: what waited at the start of the step, and what the projections
    sent. *)
Definition late (tr : list record) (t : nat) : list message :=
  match t with
  | 0 => []
  | S t' => match nth_error tr t' with Some r => r_ext r ++ sent_msgs (r_proj_out r) | None => [] end
  end.

(** Spike messages that agree up to the order of the neurons. *)
Definition same_spikes (a b : option message) : Prop :=
  match a, b with
  | Some (SpikeMsg u t l), Some (SpikeMsg u' t' l') => u = u' /\ t = t' /\ Permutation l l'
  | None, None => True
  | _, _ => False
  end.
(** The neurons of a spike message are distinct. *)
Definition distinct_spikes (m : message) : Prop :=
  match m with SpikeMsg _ _ l => NoDup l | ImpactMsg _ _ _ _ _ _ => True end.
