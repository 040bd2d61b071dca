(** What the properties of projection steps talk about. *)
From Verif Require Import Base Messaging_Model Projection_Model Delta_Model.

(** Synapses with their positions. *)
Definition numbered (l : list dsyn) : list (nat * dsyn) := combine (seq 0 (length l)) l.

(** The impacts one spike of neuron [n] has through the synapses that delay it
    by exactly [d] steps. *)
Definition impacts_with_delay (l : list dsyn) (n : N) (d : N) : list impact :=
  map (fun x => mkImpact (N.of_nat (fst x)) (d_weight (sy_params (snd x))) (d_type (sy_params (snd x)))
                         (sy_from (snd x)) (sy_to (snd x)))
      (filter (fun x => N.eqb (sy_from (snd x)) n && N.eqb (d_delay (sy_params (snd x))) d) (numbered l)).

(** All impacts due at the [t]-th step of a run: of every spike that came in at
    the [n]-th step, n <= t, through a synapse with delay t - n + 1. *)
Definition due (ins : list pinput) (t : nat) : list impact :=
  flat_map (fun n => match nth_error ins n with
                     | Some i => flat_map (fun neuron =>
                                   impacts_with_delay (in_syn i) neuron (N.of_nat (t - n) + 1))
                                   (spikes_of (in_msgs i))
                     | None => []
                     end) (seq 0 (S t)).

(** Delays and neuron numbers are 32-bit quantities. *)
Definition syn_ok (s : dsyn) : Prop :=
  (d_delay (sy_params s) < two32)%N /\ (sy_from s < two32)%N /\ (sy_to s < two32)%N.
Definition ends_of (l : list dsyn) : list (N * N) := map (fun s => (sy_from s, sy_to s)) l.

(** A projection as it results from construction and a history of calls that
    does not damage its search index (see C16). *)
From Verif Require Import Projection_Spec.
Definition sound_projection (p : dproj) : Prop :=
  exists p0 fresh ops tr,
    ((p0 = proj_empty /\ fresh = false) \/ ((exists g k, p0 = proj_generated g k) /\ fresh = true)) /\
    prun p0 ops = Ret (p, tr) /\ undamaged fresh tr.

(** The impact list of a queued message, [] if there is none. *)
Definition impacts_at (k : N) (q : queue) : list impact :=
  match q_find k q with Some (ImpactMsg _ _ _ _ _ l) => l | _ => [] end.

(** Two queues hold the same impacts for every step, up to order. *)
Definition same_impacts (q1 q2 : queue) : Prop :=
  forall k, Permutation (impacts_at k q1) (impacts_at k q2).

(** Half-open intervals that lie one after the other and cover 0..size-1. *)
Fixpoint tiles (from size : N) (l : list (N * N)) : Prop :=
  match l with
  | [] => from = size
  | (a, b) :: t => a = from /\ (a < b <= size)%N /\ tiles b size t
  end.

(** Messages that agree in sender, time and forcing flag and have the same
    impacts up to order; nothing is said about the two population identifiers. *)
Definition same_message (a b : message) : Prop :=
  match a, b with
  | ImpactMsg u t _ _ f l, ImpactMsg u' t' _ _ f' l' => u = u' /\ t = t' /\ f = f' /\ Permutation l l'
  | _, _ => False
  end.
Definition same_output (a b : option message) : Prop :=
  match a, b with Some x, Some y => same_message x y | None, None => True | _, _ => False end.

(** Parts as pairs of positions. *)
Definition to_nat_part (p : N * N) : nat * nat := (N.to_nat (fst p), N.to_nat (snd p)).

(** At most one message, with distinct neuron indexes. *)
Definition one_message (ms : list message) : Prop :=
  ms = [] \/ exists s t idx, ms = [SpikeMsg s t idx] /\ NoDup idx.
(** The same step on the two backends: the same synapses (with proper binary32
    weights) and messages, and on the multi-threaded side any order of the parts
    made for part size [part]. *)
Definition corresponds (part : N) (i : pinput) (j : mt_input) : Prop :=
  mi_syn j = in_syn i /\ mi_msgs j = in_msgs i /\ one_message (in_msgs i) /\
  Forall (fun s => valid_binary 24 128 (d_weight (sy_params s)) = true) (in_syn i) /\
  exists ps fuel, parts (N.of_nat (length (in_syn i))) part fuel = Some ps /\ Permutation (mi_order j) (map to_nat_part ps).
