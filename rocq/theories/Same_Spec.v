(** What the comparison of runs on the two CPU backends talks about. *)
From Verif Require Import Base Messaging_Model Projection_Model Delta_Model Delta_Spec Neuron_Model Neuron_Spec Pipeline_Model Pipeline_Spec
  Stdp_Model Additive_Model Train_Model Net_Model Net_Spec Mt_Model Mt_Spec Sched_Model MtNet_Model MtNet_Spec.

(** A projection without what cannot be seen from outside: the search index and the
    messages queued for later steps.  Identifier, ends, lock, STDP populations and all
    synapses with all their parameters remain. *)
Definition bare (w : nproj) : nproj := np_with w (np_kind (forget w)) [].

(** The same message up to the order of the impacts (or spikes) in it. *)
Definition reshuffled (a b : message) : Prop :=
  match a, b with
  | ImpactMsg u _ _ _ f l, ImpactMsg u' _ _ _ f' l' => u = u' /\ f = f' /\ Permutation l l'
  | SpikeMsg u _ l, SpikeMsg u' _ l' => u = u' /\ Permutation l l'
  | _, _ => False
  end.
(** The order of the impacts inside the messages makes no difference to what the
    population does with them. *)
Definition order_free (u : uid) (step : N) (ms : list message) (a : npop) : Prop :=
  forall ms' r, Forall2 reshuffled ms ms' -> front u step ms a = Ret r -> front u step ms' a = Ret r.
(** No neuron is the target of two impacts. *)
Definition one_each (ms : list message) : Prop := NoDup (map i_post (impacts_of ms)).

(** A run (on the single-threaded backend) in which from outside come spike messages
    only, each naming a neuron at most once, and every projection gets at most one
    spike message per step. *)
Definition plain_input (r : nrecord) : Prop :=
  Forall (fun m => exists s t l, m = SpikeMsg s t l /\ NoDup l) (r_ext (nr_msgs r)) /\
  Forall (fun ms => length ms <= 1) (r_proj_in (nr_msgs r)).
(** ... and in which the order of impacts makes no difference. *)
Definition indifferent (tr : list nrecord) : Prop :=
  forall t r i u a ms, nth_error tr t = Some r -> nth_error (nr_pops r) i = Some (u, a) ->
    nth_error (r_pop_in (nr_msgs r)) i = Some ms -> order_free u (N.of_nat t mod two64) ms a.

(** The records of a step on the two backends agree: the same neurons, the same
    synapses, before the step, after training and after it; the same spike messages and
    impact messages up to the order inside them. *)
Definition same_record (r r' : nrecord) : Prop :=
  nr_pops r' = nr_pops r /\ nr_pops' r' = nr_pops' r /\
  map bare (nr_projs r') = map bare (nr_projs r) /\ map bare (nr_trained r') = map bare (nr_trained r) /\
  map bare (nr_projs' r') = map bare (nr_projs' r) /\
  Forall2 same_spikes (r_pop_out (nr_msgs r)) (r_pop_out (nr_msgs r')) /\
  Forall2 same_output (r_proj_out (nr_msgs r)) (r_proj_out (nr_msgs r')).
