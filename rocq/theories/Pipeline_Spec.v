(** What the property of the step pipeline talks about. *)
From Verif Require Import Base Messaging_Model Projection_Model Delta_Model Neuron_Model Pipeline_Model.

Definition sent_msgs (l : list (option message)) : list message :=
  flat_map (fun o => match o with Some m => [m] | None => [] end) l.

(** A message that one of the additional subscriptions asks for. *)
Definition subscribed (extra : list subscr) (ty : nat) (r s : uid) : bool :=
  existsb (fun x => Nat.eqb (sb_type x) ty && N.eqb (sb_receiver x) r && existsb (N.eqb s) (sb_senders x)) extra.
(** An impact message meant for population [u]: sent by a projection that ends
    in it, or by somebody the population was subscribed to in addition. *)
Definition to_population (heads : list phead) (extra : list subscr) (u : uid) (m : message) : bool :=
  match m with
  | ImpactMsg s _ _ _ _ _ =>
      negb (N.eqb u 0) && existsb (fun h => N.eqb (ph_uid h) s && N.eqb (ph_post h) u) heads || subscribed extra 1 u s
  | SpikeMsg _ _ _ => false
  end.
(** A spike message meant for a projection: sent by its presynaptic population, or
    by somebody (an input channel) the projection was subscribed to in addition. *)
Definition to_projection (extra : list subscr) (h : phead) (m : message) : bool :=
  match m with
  | SpikeMsg s _ _ => negb (N.eqb (ph_pre h) 0) && N.eqb s (ph_pre h) || subscribed extra 0 (ph_uid h) s
  | ImpactMsg _ _ _ _ _ _ => false
  end.

(** What the projections sent in the step before the [t]-th one. *)
Definition sent_before (tr : list record) (t : nat) : list message :=
  match t with
  | 0 => []
  | S t' => match nth_error tr t' with Some r => sent_msgs (r_proj_out r) | None => [] end
  end.

(** The steps of one population on its own: a message list per step in, what it
    sends in every step out. *)
Fixpoint apop_run (u : uid) (step : N) (ins : list (list message)) (a : apop)
  : outcome (apop * list (option message)) :=
  match ins with
  | [] => Ret (a, [])
  | ms :: t => obind (apop_step u step ms a) (fun x =>
               obind (apop_run u (add64 step 1) t (fst x)) (fun y => Ret (fst y, snd x :: snd y)))
  end.

(** Column [i] of a table of lists. *)
Definition column {A} (i : nat) (f : record -> list A) (tr : list record) : list (option A) :=
  map (fun r => nth_error (f r) i) tr.
