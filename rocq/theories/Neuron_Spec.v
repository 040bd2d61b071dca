(** What the neuron properties talk about. *)
From Verif Require Import Base Messaging_Model Neuron_Model.

Definition lif_step (p : lif_par) := neuron_step (lif_pre p) lif_impact (lif_post p).
Definition lif_run (p : lif_par) := neuron_run (lif_pre p) lif_impact (lif_post p).
Definition bl_step (stdp : bool) (p : bl_par) := neuron_step (bl_prestep stdp p) bl_impact (bl_post p).
Definition bl_run (stdp : bool) (p : bl_par) := neuron_run (bl_prestep stdp p) bl_impact (bl_post p).
Definition al_step (stdp : bool) (p : al_par) := neuron_step (al_prestep stdp p) al_impact (al_post p).
Definition al_run (stdp : bool) (p : al_par) := neuron_run (al_prestep stdp p) al_impact (al_post p).

(** Currents: the two kinds of impact that act on the potential directly. *)
Definition is_current (i : impact) : bool :=
  match i_type i with EXCITATORY | INHIBITORY_CURRENT => true | _ => false end.
Definition currents_only (l : list impact) : Prop := Forall (fun i => is_current i = true) l.
Definition is_blocking (i : impact) : bool := match i_type i with BLOCKING => true | _ => false end.
Definition no_blocking (l : list impact) : Prop := Forall (fun i => is_blocking i = false) l.
(** Two lists of impacts that differ in currents only. *)
Definition same_apart_from_currents (l l' : list impact) : Prop :=
  filter (fun i => negb (is_current i)) l = filter (fun i => negb (is_current i)) l'.

(** Potential with the currents of [l] added, in binary32 / binary64. *)
Definition f_drive (pot : flt) (l : list impact) : flt :=
  fold_left (fun v i => match i_type i with
                        | EXCITATORY => f_add v (i_value i)
                        | INHIBITORY_CURRENT => f_sub v (i_value i)
                        | _ => v end) l pot.
Definition d_drive (pot : flt) (l : list impact) : flt :=
  fold_left (fun v i => match i_type i with
                        | EXCITATORY => d_add v (d_of_f (i_value i))
                        | INHIBITORY_CURRENT => d_sub v (d_of_f (i_value i))
                        | _ => v end) l pot.

(** The last blocking impact of the step has value [z]. *)
Definition blocks_with (l : list impact) (z : Z) : Prop :=
  exists a b c, l = a ++ b :: c /\ is_blocking b = true /\ to_int64 (i_value b) = Ret z /\ no_blocking c /\
    Forall (fun i => is_blocking i = true -> exists z', to_int64 (i_value i) = Ret z') a.

(** What a BLIFAT neuron's potential is compared with its threshold as: [pot]
    after the inhibitory conductance [g] acted. *)
Definition inhibited (p : bl_par) (g pot : flt) : flt :=
  if f_lt g d_one then d_sub pot (d_mul (d_sub pot (bp_rev p)) g) else bp_rev p.

(** Impacts addressed to neuron [i], in order. *)
Definition addressed (i : nat) (l : list impact) : list impact :=
  filter (fun x => N.eqb (i_post x) (N.of_nat i)) l.

(** Positions that hold [true], ascending. *)
Definition positions (bs : list bool) : list nat := filter (fun i => nth i bs false) (seq 0 (length bs)).
(** Inhibitory conductance with the conductances of [l] added. *)
Definition d_conductance (g : flt) (l : list impact) : flt :=
  fold_left (fun v i => match i_type i with INHIBITORY_CONDUCTANCE => d_add v (d_of_f (i_value i)) | _ => v end) l g.
(** Impacts an AltAI neuron accepts, without blocking ones. *)
Definition al_legal (l : list impact) : Prop :=
  Forall (fun i => i_type i <> INHIBITORY_CONDUCTANCE /\ is_blocking i = false) l.
(** The same parameters with another reflexive weight. *)
Definition with_reflex (r : flt) (p : bl_par) : bl_par :=
  mkBlPar (bp_thr p) (bp_add p) (bp_thr_decay p) (bp_thr_inc p) (bp_trace_decay p) (bp_trace_inc p) (bp_inh_decay p)
    (bp_pot_decay p) (bp_burst p) r (bp_rev p) (bp_refract p) (bp_reset p) (bp_min p).

(** [val] gives the integer that each value of [l] is, and a sum of them with [base] in
    any order stays below [bound] in absolute value. *)
Definition integer_currents (val : impact -> Z) (bound base : Z) (l : list impact) : Prop :=
  currents_only l /\ Forall (fun i => i_value i = f_of_Z (val i)) l /\
  (Z.abs base + fold_right (fun i s => Z.abs (val i) + s) 0 l < bound)%Z.

(** The potential before the impacts of a step: decayed, with the reflexive
    weight in the last step of a burst; rounded, or reset, for AltAI. *)
Definition bl_rest (p : bl_par) (n : bl) : flt :=
  if N.eqb (b_phase n) 1 then d_add (d_mul (b_pot n) (bp_pot_decay p)) (bp_reflex p) else d_mul (b_pot n) (bp_pot_decay p).
Definition al_rest (p : al_par) (n : al) : flt :=
  if ap_nosave p then f_of_Z (Z.of_N (ap_resetv p)) else f_round (a_pot n).
(** Dopamine with the dopamine impacts of [l] added. *)
Definition d_dopamine (v : flt) (l : list impact) : flt :=
  fold_left (fun v i => match i_type i with DOPAMINE => d_add v (d_of_f (i_value i)) | _ => v end) l v.
(** AltAI: the potential after the leak, which pulls towards 0 from below if it
    is reversed; the threshold; the lowest potential. *)
Definition al_leaked (p : al_par) (pot : flt) : flt :=
  f_add pot (f_of_Z (if ap_rev p && f_lt pot (S754_zero false) then - ap_leak p else ap_leak p)).
Definition al_limit (p : al_par) : flt := d_add (d_of_Z (Z.of_N (ap_thr p))) (ap_add p).
Definition al_lowest (p : al_par) : flt := f_neg (f_of_Z (Z.of_N (ap_neg p))).
(** AltAI: the potential after the threshold test: [over] says that the limit was
    reached.  A reset goes before the difference; the lower end is tested unless
    there was a reset. *)
Definition al_after (p : al_par) (over : bool) (pot : flt) : flt :=
  let v := if over then
             if ap_reset p then f_of_Z (Z.of_N (ap_resetv p))
             else if ap_diff p then f_of_d (d_sub (d_of_f pot) (al_limit p)) else pot
           else pot in
  if (over && ap_reset p) || negb (f_le v (al_lowest p)) then v
  else if ap_sat p then al_lowest p
  else if ap_reset p then f_of_Z (- Z.of_N (ap_resetv p))
  else if ap_diff p then f_add v (f_of_Z (Z.of_N (ap_neg p)))
  else v.
(** The counters: below 0 it runs up, and the end of the silence means no limit;
    above 0 it runs down; at 0 a BLIFAT neuron stays blocked, an AltAI neuron
    becomes free. *)
Definition bl_count (z : Z) : Z :=
  if (z =? -1)%Z then int64_max else if (z <? 0)%Z then (z + 1)%Z else if (z =? 0)%Z then 0%Z else (z - 1)%Z.
Definition al_count (z : Z) : Z :=
  if ((-1 <=? z) && (z <=? 1))%Z then int64_max else if (z <? 0)%Z then (z + 1)%Z else (z - 1)%Z.
