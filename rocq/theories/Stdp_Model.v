(** Model of resource-based STDP training.  Paths are relative to /repo/knp/
    backends/cpu/cpu-library/include/knp/backends/cpu-library/impl/populations/.
    Real-valued quantities are rationals: the rounding of [float] is left out
    everywhere but in [weight_f].  [damp s] stands for
    [std::min((float)std::pow(2, -s), 1.F)] and is left open. *)
From Coq Require Import QArith Qabs.
From Verif Require Import Base.
Local Open Scope Q_scope.

(** neuron-traits/stdp_synaptic_resource_rule.h:38-60. *)
Inductive isi := is_forced | period_started | period_continued | not_in_period.
Definition isi_eqb (a b : isi) : bool :=
  match a, b with
  | is_forced, is_forced | period_started, period_started | period_continued, period_continued | not_in_period, not_in_period => true
  | _, _ => false
  end.

(** synapse-traits/stdp_synaptic_resource_rule.h:41-88 with the weight and the
    delay of a delta synapse and the index of its target neuron. *)
Record tsyn := mkTS {
  ts_to : nat; ts_delay : N (* uint32_t *); ts_weight : Q; ts_res : Q; ts_min : Q; ts_max : Q; ts_du : Q;
  ts_period : N (* uint32_t *); ts_last : N (* uint64_t *); ts_hebb : bool; ts_contrib : bool }.
(** neuron-traits/stdp_synaptic_resource_rule.h:104-206, with the fields of the
    base neuron that training uses. *)
Record tneu := mkTN {
  tn_coef : Q; tn_dtime : N (* uint32_t *); tn_free : Q; tn_thr : Q; tn_drain : N (* uint32_t *);
  tn_stab : Q; tn_stab_par : Q; tn_stab_isi : Q; tn_isi_max : N (* uint32_t *); tn_dh : Q;
  tn_status : isi; tn_last : N; tn_last_spike : N; tn_first : N; tn_forced : bool;
  tn_dopa : Q; tn_add_thr : Q }.
Definition set_status (st : isi) (first last : N) (n : tneu) : tneu :=
  mkTN (tn_coef n) (tn_dtime n) (tn_free n) (tn_thr n) (tn_drain n) (tn_stab n) (tn_stab_par n) (tn_stab_isi n) (tn_isi_max n) (tn_dh n)
       st last (tn_last_spike n) first (tn_forced n) (tn_dopa n) (tn_add_thr n).
Definition set_free (q : Q) (n : tneu) : tneu :=
  mkTN (tn_coef n) (tn_dtime n) q (tn_thr n) (tn_drain n) (tn_stab n) (tn_stab_par n) (tn_stab_isi n) (tn_isi_max n) (tn_dh n)
       (tn_status n) (tn_last n) (tn_last_spike n) (tn_first n) (tn_forced n) (tn_dopa n) (tn_add_thr n).
Definition set_stab (q : Q) (n : tneu) : tneu :=
  mkTN (tn_coef n) (tn_dtime n) (tn_free n) (tn_thr n) (tn_drain n) q (tn_stab_par n) (tn_stab_isi n) (tn_isi_max n) (tn_dh n)
       (tn_status n) (tn_last n) (tn_last_spike n) (tn_first n) (tn_forced n) (tn_dopa n) (tn_add_thr n).
Definition set_last_spike (s : N) (n : tneu) : tneu :=
  mkTN (tn_coef n) (tn_dtime n) (tn_free n) (tn_thr n) (tn_drain n) (tn_stab n) (tn_stab_par n) (tn_stab_isi n) (tn_isi_max n) (tn_dh n)
       (tn_status n) (tn_last n) s (tn_first n) (tn_forced n) (tn_dopa n) (tn_add_thr n).
Definition set_add_thr (q : Q) (n : tneu) : tneu :=
  mkTN (tn_coef n) (tn_dtime n) (tn_free n) (tn_thr n) (tn_drain n) (tn_stab n) (tn_stab_par n) (tn_stab_isi n) (tn_isi_max n) (tn_dh n)
       (tn_status n) (tn_last n) (tn_last_spike n) (tn_first n) (tn_forced n) (tn_dopa n) q.
Definition set_syn (w r : Q) (hebb contrib : bool) (s : tsyn) : tsyn :=
  mkTS (ts_to s) (ts_delay s) w r (ts_min s) (ts_max s) (ts_du s) (ts_period s) (ts_last s) hebb contrib.

(** [recalculate_synapse_weights], training/stdp.h:40-53, for one synapse. *)
Definition Qmax' (a b : Q) : Q := if Qle_bool a b then b else a.
Definition weight_of (wmin wmax res : Q) : Q :=
  let w := Qmax' res 0 in
  let d := wmax - wmin in
  wmin + d * w / (d + w).
Definition recalc (s : tsyn) : tsyn := set_syn (weight_of (ts_min s) (ts_max s) (ts_res s)) (ts_res s) (ts_hebb s) (ts_contrib s) s.
(** The same with IEEE-754 binary32 operations; [std::max(a, 0.F)] is [0.F] only if
    [a < 0.F]. *)
Definition weight_f (wmin wmax res : flt) : flt :=
  let w := if f_lt res (S754_zero false) then S754_zero false else res in
  let d := f_sub wmax wmin in
  f_add wmin (f_div (f_mul d w) (f_add d w)).

(** [update_isi], training/stdp.h:88-126; subtraction of 64-bit step numbers wraps.
    The [default:] branch is unreachable. *)
Definition update_isi (step : N) (n : tneu) : tneu :=
  if tn_forced n then set_status is_forced (tn_first n) (tn_last n) n
  else match tn_status n with
  | not_in_period | is_forced => set_status period_started step step n
  | period_started =>
      if (sub64 (tn_last n) step <? tn_isi_max n)%N
      then set_status period_continued (tn_first n) step n
      else set_status period_started (tn_first n) step n
  | period_continued =>
      if (tn_isi_max n <=? sub64 (tn_last n) step)%N || negb (Qeq_bool (tn_dopa n) 0)
      then set_status period_started step step n
      else set_status period_continued (tn_first n) step n
  end.

(** [is_point_in_interval], training/stdp.h:136-140. *)
Definition is_point_in_interval (a b x : N) : bool :=
  let '(a, b) := if (b <? a)%N then (b, a) else (a, b) in
  ((a <=? x) && (x <=? b))%N.
(** blifat/blifat_stdp.h:58-60 (altai/altai_stdp.h:58-60). *)
Definition had_spike (step : N) (s : tsyn) : bool :=
  is_point_in_interval (sub64 step (ts_period s)) step (sub64 (add64 (ts_last s) (ts_delay s)) 1).

(** A loop over the synapses that lead to neuron [i] ([get_all_connected_synapses],
    training/stdp.h:63-78, of all working projections; their order plays no role in
    exact arithmetic and is that of the list here): [g] changes the neuron and the
    synapse. *)
Fixpoint each (i : nat) (g : tneu -> tsyn -> tneu * tsyn) (n : tneu) (l : list tsyn) : tneu * list tsyn :=
  match l with
  | [] => (n, [])
  | s :: t =>
      if Nat.eqb (ts_to s) i then
        let (n1, s1) := g n s in
        let (n2, t2) := each i g n1 t in (n2, s1 :: t2)
      else let (n2, t2) := each i g n t in (n2, s :: t2)
  end.
Definition connected (i : nat) (l : list tsyn) : list tsyn := filter (fun s => Nat.eqb (ts_to s) i) l.

Section Train.
Variable damp : Q -> Q.

(** blifat_stdp.h:55-66. *)
Definition mark (step : N) (n : tneu) (s : tsyn) : tneu * tsyn :=
  let n' := set_add_thr (tn_add_thr n + (if Qle_bool (ts_weight s) 0 then 0 else ts_weight s)) n in
  let had := had_spike step s in
  (n', if negb (isi_eqb period_continued (tn_status n)) || had
       then set_syn (ts_weight s) (ts_res s) (ts_hebb s) had s else s).
(** blifat_stdp.h:72-75. *)
Definition unhebb (n : tneu) (s : tsyn) : tneu * tsyn := (n, set_syn (ts_weight s) (ts_res s) false (ts_contrib s) s).
(** blifat_stdp.h:81-98. *)
Definition hebb (n : tneu) (s : tsyn) : tneu * tsyn :=
  let s1 := set_syn (ts_weight s) (ts_res s - ts_du s) (ts_hebb s) (ts_contrib s) s in
  let n1 := set_free (tn_free n + ts_du s) n in
  if ts_contrib s1 && negb (ts_hebb s1) then
    let d := tn_dh n * damp (tn_stab n) in
    (set_free (tn_free n1 - d) n1, set_syn (ts_weight s1) (ts_res s1 + d) true (ts_contrib s1) s1)
  else (n1, s1).
Definition recalc_each (n : tneu) (s : tsyn) : tneu * tsyn := (n, recalc s).
(** [process_spiking_neurons_impl], blifat_stdp.h:36-103, altai_stdp.h:36-101, for one
    spiking neuron [i]. *)
Definition spiking_neuron (step : N) (i : nat) (n : tneu) (l : list tsyn) : tneu * list tsyn :=
  let n := set_last_spike step n in
  let n := update_isi step n in
  let n := if isi_eqb period_started (tn_status n) then set_stab (tn_stab n - tn_stab_isi n) n else n in
  let n := set_add_thr 0 n in
  let (n, l) := each i (mark step) n l in
  let n := set_add_thr (tn_add_thr n * tn_coef n) n in
  let (n, l) := if negb (isi_eqb (tn_status n) period_continued) then each i unhebb n l else (n, l) in
  let (n, l) := if negb (isi_eqb (tn_status n) is_forced) then each i hebb n l else (n, l) in
  each i recalc_each n l.

(** blifat_stdp.h:123-136. *)
Definition reward (step : N) (n : tneu) (s : tsyn) : tneu * tsyn :=
  if (sub64 step (tn_last_spike n) <=? tn_dtime n)%N && ts_contrib s then
    let d := tn_dopa n * damp (tn_stab n) in
    (set_free (tn_free n - d) n, set_syn (ts_weight s) (ts_res s + d) (ts_hebb s) (ts_contrib s) s)
  else (n, s).
(** blifat_stdp.h:146-151: the factor of the change of stability at a reward;
    the difference is taken in 64-bit unsigned arithmetic. *)
Definition stability_factor (step first isi_max : N) : Q :=
  Qmax' (2 - inject_Z (Z.of_N (sub64 (sub64 step first) isi_max)) / inject_Z (Z.of_N isi_max)) (-1).
Definition stability_change (step : N) (n : tneu) : tneu :=
  if tn_forced n || negb (Qle_bool 0 (tn_dopa n))
  then set_stab (Qmax' (tn_stab n - tn_dopa n * tn_stab_par n) 0) n
  else set_stab (tn_stab n + tn_stab_par n * tn_dopa n * stability_factor step (tn_first n) (tn_isi_max n)) n.
(** [do_dopamine_plasticity_impl], blifat_stdp.h:107-155, for neuron [i]. *)
Definition dopamine_acts (n : tneu) : bool :=
  negb (Qle_bool (tn_dopa n) 0) || (negb (Qle_bool 0 (tn_dopa n)) && negb (isi_eqb (tn_status n) is_forced)).
Definition dopamine_neuron (step : N) (i : nat) (n : tneu) (l : list tsyn) : tneu * list tsyn :=
  if dopamine_acts n then
    let (n, l) := each i (reward step) n l in
    each i recalc_each (stability_change step n) l
  else (n, l).

(** [renormalize_resource], training/stdp.h:152-186, for neuron [i]. *)
Definition renorm_acts (step : N) (n : tneu) : bool :=
  negb ((sub64 step (tn_last n) <=? tn_isi_max n)%N && negb (isi_eqb (tn_status n) is_forced)) &&
  Qle_bool (tn_thr n) (Qabs (tn_free n)).
Definition share (n : tneu) (k : nat) : Q := tn_free n / inject_Z (Z.of_nat k + Z.of_N (tn_drain n)).
Definition give (d : Q) (n : tneu) (s : tsyn) : tneu * tsyn :=
  (n, set_syn (ts_weight s) (ts_res s + d) (ts_hebb s) (ts_contrib s) s).
Definition renorm_neuron (step : N) (i : nat) (n : tneu) (l : list tsyn) : tneu * list tsyn :=
  if renorm_acts step n then
    let (n1, l1) := each i (give (share n (length (connected i l)))) n l in
    each i recalc_each (set_free 0 n1) l1
  else (n, l).

(** Loops over neurons: [idx] is the list of the indexes, in order.  An index out of
    range is undefined behaviour in the code; here it changes nothing. *)
Fixpoint set_nth {A} (i : nat) (x : A) (l : list A) : list A :=
  match l, i with
  | [], _ => []
  | _ :: t, 0%nat => x :: t
  | y :: t, S j => y :: set_nth j x t
  end.
Definition on_neuron (f : nat -> tneu -> list tsyn -> tneu * list tsyn) (i : nat) (s : list tneu * list tsyn) : list tneu * list tsyn :=
  match nth_error (fst s) i with
  | Some n => let (n', l') := f i n (snd s) in (set_nth i n' (fst s), l')
  | None => s
  end.
Definition for_neurons (f : nat -> tneu -> list tsyn -> tneu * list tsyn) (idx : list nat) (s : list tneu * list tsyn) : list tneu * list tsyn :=
  fold_left (fun s i => on_neuron f i s) idx s.
(** [train_population_impl], blifat_stdp.h:158-172, altai_stdp.h:156-170. *)
Definition train (step : N) (spikes : list nat) (s : list tneu * list tsyn) : list tneu * list tsyn :=
  let s := for_neurons (spiking_neuron step) spikes s in
  let s := for_neurons (dopamine_neuron step) (seq 0 (length (fst s))) s in
  for_neurons (renorm_neuron step) (seq 0 (length (fst s))) s.
End Train.
