(** What the properties of additive STDP projections talk about. *)
From Verif Require Import Base Messaging_Model Projection_Model Projection_Spec Delta_Model Delta_Spec Additive_Model.

(** A projection as it results from construction and a history of calls that does
    not damage its search index (see C16). *)
Definition sound_additive (p : aproj) : Prop :=
  exists p0 fresh ops tr,
    ((p0 = proj_empty /\ fresh = false) \/ ((exists g k, p0 = proj_generated g k) /\ fresh = true)) /\
    prun p0 ops = Ret (p, tr) /\ undamaged fresh tr.

(** The messages that have effects: those from populations that are not marked
    "STDP only" for this projection. *)
Definition only_stdp (pops : pop_map) (m : message) : bool :=
  match m with SpikeMsg s _ _ => match pops s with Some STDPOnly => true | _ => false end | _ => false end.
Definition effective (pops : pop_map) (ms : list message) : list message :=
  filter (fun m => negb (only_stdp pops m)) ms.

(** The times at which neuron [n] is mentioned in messages of populations with the
    processing types [which], in order, once for each time it is mentioned. *)
Definition mentions (pops : pop_map) (which : processing -> bool) (ms : list message) (n : N) : list N :=
  flat_map (fun m => match m with
                     | SpikeMsg s time idx =>
                         match pops s with
                         | Some k => if which k then repeat time (count_occ N.eq_dec idx n) else []
                         | None => []
                         end
                     | _ => []
                     end) ms.
(** Both processing types fill the postsynaptic history, only "STDP and spike"
    fills the presynaptic one. *)
Definition any_stdp (k : processing) : bool := true.
Definition and_spike (k : processing) : bool := match k with STDPAndSpike => true | STDPOnly => false end.

(** A history takes new times at its end as long as its size is below [period]. *)
Definition fill (period : flt) (h ts : list N) : list N :=
  fold_left (fun h t => if f_lt (f_of_Z (Z.of_nat (length h))) period then h ++ [t] else h) ts h.
Definition is_full (period : flt) (h : list N) : bool := f_ge (f_of_Z (Z.of_nat (length h))) period.

(** The change of a weight: the sum, from the left and in binary32, over all pairs
    of a presynaptic and a postsynaptic time, of [curve (post - pre)]. *)
Definition pair_sum (curve : N -> flt) (pre post : list N) : flt :=
  fold_left (fun w e => f_add w (curve (sub64 (snd e) (fst e)))) (list_prod pre post) (f_of_Z 0).

(** The two histories of a synapse when the messages [ms] of a step have been
    taken in. *)
Definition pre_history (pops : pop_map) (ms : list message) (s : asyn) : list N :=
  fill (f_add (a_tau_minus (sy_params s)) (a_tau_plus (sy_params s))) (a_pre (sy_params s)) (mentions pops and_spike ms (sy_to s)).
Definition post_history (pops : pop_map) (ms : list message) (s : asyn) : list N :=
  fill (f_add (a_tau_minus (sy_params s)) (a_tau_plus (sy_params s))) (a_post (sy_params s)) (mentions pops any_stdp ms (sy_to s)).
(** The rule is applied when both are full. *)
Definition applies (pops : pop_map) (ms : list message) (s : asyn) : bool :=
  let period := f_add (a_tau_plus (sy_params s)) (a_tau_minus (sy_params s)) in
  is_full period (pre_history pops ms s) && is_full period (post_history pops ms s).
(** One synapse after a step with the messages [ms]: if the rule is applied, the
    weight changes and both histories are emptied, otherwise only the histories
    change. *)
Definition trained (expf : flt -> flt) (pops : pop_map) (ms : list message) (s : asyn) : asyn :=
  let a := sy_params s in
  let curve d := stdp_w expf (a_tau_plus a) (a_tau_minus a) (f_of_Z (Z.of_N d)) in
  let a' := if applies pops ms s
            then mkAP (mkDP (f_add (d_weight (a_delta a)) (pair_sum curve (pre_history pops ms s) (post_history pops ms s)))
                            (d_delay (a_delta a)) (d_type (a_delta a)))
                      (a_tau_plus a) (a_tau_minus a) [] []
            else mkAP (a_delta a) (a_tau_plus a) (a_tau_minus a) (pre_history pops ms s) (post_history pops ms s) in
  mkSyn a' (sy_from s) (sy_to s).
(** The synapses at the beginning of each step of a run (and after the last). *)
Fixpoint training (expf : flt -> flt) (pops : pop_map) (ins : list (list message)) (l : list asyn) : list (list asyn) :=
  l :: match ins with [] => [] | ms :: t => training expf pops t (map (trained expf pops ms) l) end.

(** A non-negative number or plus infinity (of binary32). *)
Definition non_negative (x : flt) : Prop := valid_binary 24 128 x = true /\ f_le (f_of_Z 0) x = true.
(** All that is required of the exponential function: a non-negative result for
    every argument that is a number. *)
Definition exp_like (expf : flt -> flt) : Prop :=
  forall x, valid_binary 24 128 x = true -> is_nan x = false -> non_negative (expf x).
Definition positive_float (x : flt) : Prop := valid_binary 24 128 x = true /\ is_finite x = true /\ f_lt (f_of_Z 0) x = true.

(** The impacts due at the [t]-th step of a run: of every spike of a message that
    has effects and came in at the [n]-th step, n <= t, through a synapse with
    delay t - n + 1, with the weight it has at the beginning of the [n]-th step. *)
Definition additive_due (expf : flt -> flt) (pops : pop_map) (ins : list (list message)) (l : list asyn) (t : nat) : list impact :=
  flat_map (fun n => match nth_error ins n, nth_error (training expf pops ins l) n with
                     | Some ms, Some ln =>
                         flat_map (fun neuron => impacts_with_delay (map delta_view ln) neuron (N.of_nat (t - n) + 1))
                           (spikes_of (effective pops ms))
                     | _, _ => []
                     end) (seq 0 (S t)).

(** A history that was filled from nothing: every shorter one has room. *)
Definition grown (period : flt) (h : list N) : Prop :=
  forall k, k < length h -> f_lt (f_of_Z (Z.of_nat k)) period = true.
Definition grown_synapse (s : asyn) : Prop :=
  let a := sy_params s in
  grown (f_add (a_tau_plus a) (a_tau_minus a)) (a_pre a) /\ grown (f_add (a_tau_plus a) (a_tau_minus a)) (a_post a).
