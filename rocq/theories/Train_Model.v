(** Model of resource-STDP training with the arithmetic of the code: [float] and
    [double] operations, 32- and 64-bit counters, the projections with their cached
    indexes.  Paths are relative to /repo/knp/backends/cpu/cpu-library/include/knp/
    backends/cpu-library/impl/populations/ unless said otherwise.  [pow2f s] stands
    for [static_cast<float>(std::pow(2, -s))] and is left open.  (Stdp_Model has the
    same functions over the rationals.) *)
From Verif Require Import Base Messaging_Model Projection_Model Delta_Model Neuron_Model Stdp_Model.

(** /repo/knp/synapse-traits-library/include/knp/synapse-traits/
    stdp_synaptic_resource_rule.h:41-88, with the parameters of the delta synapse
    (stdp_common.h:62-78). *)
Record rrule := mkRR {
  rr_res : flt; rr_min : flt; rr_max : flt; rr_du : flt; rr_period : N (* uint32_t *); rr_last : N (* uint64_t *);
  rr_hebb : bool; rr_contrib : bool }.
Record rparams := mkRP { rp_delta : dparams; rp_rule : rrule }.
Notation rsyn := (synapse rparams).
Notation rproj := (proj rparams).
(** /repo/knp/neuron-traits-library/include/knp/neuron-traits/
    stdp_synaptic_resource_rule.h:92-192: the fields added to the base neuron. *)
Record tn := mkTn {
  t_coef : flt; t_dtime : N (* uint32_t *); t_free : flt; t_thr : flt; t_drain : N (* uint32_t *);
  t_stab : flt; t_stab_par : flt; t_stab_isi : flt; t_isi_max : N (* uint32_t *); t_dh : flt;
  t_status : isi; t_last : N; t_last_spike : N; t_first : N; t_forced : bool }.
(** What training sees of a neuron: these and two [double] fields of the base
    neuron, [dopamine_value_] and [additional_threshold_]. *)
Record tview := mkV { v_x : tn; v_dopa : flt; v_add : flt }.

Definition with_isi (st : isi) (last first : N) (x : tn) : tn :=
  mkTn (t_coef x) (t_dtime x) (t_free x) (t_thr x) (t_drain x) (t_stab x) (t_stab_par x) (t_stab_isi x) (t_isi_max x) (t_dh x)
       st last (t_last_spike x) first (t_forced x).
Definition with_free (q : flt) (x : tn) : tn :=
  mkTn (t_coef x) (t_dtime x) q (t_thr x) (t_drain x) (t_stab x) (t_stab_par x) (t_stab_isi x) (t_isi_max x) (t_dh x)
       (t_status x) (t_last x) (t_last_spike x) (t_first x) (t_forced x).
Definition with_stab (q : flt) (x : tn) : tn :=
  mkTn (t_coef x) (t_dtime x) (t_free x) (t_thr x) (t_drain x) q (t_stab_par x) (t_stab_isi x) (t_isi_max x) (t_dh x)
       (t_status x) (t_last x) (t_last_spike x) (t_first x) (t_forced x).
Definition with_last_spike (s : N) (x : tn) : tn :=
  mkTn (t_coef x) (t_dtime x) (t_free x) (t_thr x) (t_drain x) (t_stab x) (t_stab_par x) (t_stab_isi x) (t_isi_max x) (t_dh x)
       (t_status x) (t_last x) s (t_first x) (t_forced x).
Definition with_forced (b : bool) (x : tn) : tn :=
  mkTn (t_coef x) (t_dtime x) (t_free x) (t_thr x) (t_drain x) (t_stab x) (t_stab_par x) (t_stab_isi x) (t_isi_max x) (t_dh x)
       (t_status x) (t_last x) (t_last_spike x) (t_first x) b.
Definition on_x (f : tn -> tn) (n : tview) : tview := mkV (f (v_x n)) (v_dopa n) (v_add n).
Definition with_add (q : flt) (n : tview) : tview := mkV (v_x n) (v_dopa n) q.
Definition with_res (q : flt) (r : rrule) : rrule :=
  mkRR q (rr_min r) (rr_max r) (rr_du r) (rr_period r) (rr_last r) (rr_hebb r) (rr_contrib r).
Definition with_hebb (b : bool) (r : rrule) : rrule :=
  mkRR (rr_res r) (rr_min r) (rr_max r) (rr_du r) (rr_period r) (rr_last r) b (rr_contrib r).
Definition with_contrib (b : bool) (r : rrule) : rrule :=
  mkRR (rr_res r) (rr_min r) (rr_max r) (rr_du r) (rr_period r) (rr_last r) (rr_hebb r) b.
Definition with_spike (step : N) (r : rrule) : rrule :=
  mkRR (rr_res r) (rr_min r) (rr_max r) (rr_du r) (rr_period r) step (rr_hebb r) (rr_contrib r).
Definition on_rule (f : rrule -> rrule) (s : rparams) : rparams := mkRP (rp_delta s) (f (rp_rule s)).
Definition with_weight (w : flt) (s : rparams) : rparams :=
  mkRP (mkDP w (d_delay (rp_delta s)) (d_type (rp_delta s))) (rp_rule s).

(** ** Synapses of a neuron *)
(** [get_all_connected_synapses], training/stdp.h:63-78: references to the synapses,
    each given by the number of the projection and of the synapse in it; searching
    may rebuild the index of a projection. *)
Fixpoint connected_from (k : nat) (i : N) (ps : list rproj) : list rproj * list (nat * nat) :=
  match ps with
  | [] => ([], [])
  | p :: t => let (p', idx) := find_synapses ByPost i p in
              let (t', refs) := connected_from (S k) i t in
              (p' :: t', map (fun j => (k, j)) idx ++ refs)
  end.
Definition connected_refs (i : N) (ps : list rproj) : list rproj * list (nat * nat) := connected_from 0 i ps.
Fixpoint put {A} (k : nat) (x : A) (l : list A) : list A :=
  match l, k with
  | [], _ => []
  | _ :: t, 0 => x :: t
  | y :: t, S k' => y :: put k' x t
  end.
(** A loop over the references: [g] changes the neuron and the synapse (a reference
    to nothing is undefined behaviour). *)
Fixpoint each_ref (g : tview -> rparams -> tview * rparams) (refs : list (nat * nat)) (n : tview) (ps : list rproj)
  : outcome (tview * list rproj) :=
  match refs with
  | [] => Ret (n, ps)
  | (k, j) :: t =>
      match nth_error ps k with
      | Some p =>
          match nth_error (p_syn p) j with
          | Some s => let (n', r) := g n (sy_params s) in
                      each_ref g t n' (put k (mkProj (put j (mkSyn r (sy_from s) (sy_to s)) (p_syn p)) (p_index p) (p_updated p)) ps)
          | None => UB
          end
      | None => UB
      end
  end.

(** ** One neuron *)
(** training/stdp.h:40-53. *)
Definition recalc_f (n : tview) (s : rparams) : tview * rparams :=
  (n, with_weight (weight_f (rr_min (rp_rule s)) (rr_max (rp_rule s)) (rr_res (rp_rule s))) s).
(** training/stdp.h:88-126. *)
Definition update_isi_f (step : N) (n : tview) : tview :=
  on_x (fun x =>
    if t_forced x then with_isi is_forced (t_last x) (t_first x) x
    else match t_status x with
    | not_in_period | is_forced => with_isi period_started step step x
    | period_started =>
        if (sub64 (t_last x) step <? t_isi_max x)%N then with_isi period_continued step (t_first x) x
        else with_isi period_started step (t_first x) x
    | period_continued =>
        if (t_isi_max x <=? sub64 (t_last x) step)%N || negb (SFeqb (v_dopa n) d_zero)
        then with_isi period_started step step x
        else with_isi period_continued step (t_first x) x
    end) n.
(** blifat/blifat_stdp.h:58-60. *)
Definition had_spike_f (step : N) (s : rparams) : bool :=
  is_point_in_interval (sub64 step (rr_period (rp_rule s))) step (sub64 (add64 (rr_last (rp_rule s)) (d_delay (rp_delta s))) 1).

Section Train.
Variable pow2f : flt -> flt.

(** blifat_stdp.h:92, 131: [std::min(..., 1.F)]. *)
Definition damp_f (stab : flt) : flt := let a := pow2f stab in if f_lt (f_of_Z 1) a then f_of_Z 1 else a.
(** blifat_stdp.h:55-66: the product is taken in [float], the sum in [double]. *)
Definition mark_f (step : N) (n : tview) (s : rparams) : tview * rparams :=
  let w := d_weight (rp_delta s) in
  let n' := with_add (d_add (v_add n) (d_of_f (f_mul w (f_of_Z (if f_gt w (f_of_Z 0) then 1 else 0))))) n in
  let had := had_spike_f step s in
  (n', if negb (isi_eqb period_continued (t_status (v_x n))) || had then on_rule (with_contrib had) s else s).
(** blifat_stdp.h:72-75. *)
Definition unhebb_f (n : tview) (s : rparams) : tview * rparams := (n, on_rule (with_hebb false) s).
(** blifat_stdp.h:81-98. *)
Definition hebb_f (n : tview) (s : rparams) : tview * rparams :=
  let s1 := on_rule (fun r => with_res (f_sub (rr_res r) (rr_du r)) r) s in
  let n1 := on_x (fun x => with_free (f_add (t_free x) (rr_du (rp_rule s))) x) n in
  if rr_contrib (rp_rule s1) && negb (rr_hebb (rp_rule s1)) then
    let d := f_mul (t_dh (v_x n1)) (damp_f (t_stab (v_x n1))) in
    (on_x (fun x => with_free (f_sub (t_free x) d) x) n1,
     on_rule (fun r => with_hebb true (with_res (f_add (rr_res r) d) r)) s1)
  else (n1, s1).
(** [process_spiking_neurons_impl], blifat_stdp.h:36-103 and altai/altai_stdp.h:
    36-101, for one spiking neuron; [i] is its index. *)
Definition spiking_f (step : N) (i : N) (n : tview) (ps : list rproj) : outcome (tview * list rproj) :=
  let (ps, refs) := connected_refs i ps in
  let n := update_isi_f step (on_x (with_last_spike step) n) in
  let n := if isi_eqb period_started (t_status (v_x n))
           then on_x (fun x => with_stab (f_sub (t_stab x) (t_stab_isi x)) x) n else n in
  obind (each_ref (mark_f step) refs (with_add d_zero n) ps) (fun r =>
  let n := with_add (d_mul (v_add (fst r)) (d_of_f (t_coef (v_x (fst r))))) (fst r) in
  obind (if negb (isi_eqb (t_status (v_x n)) period_continued) then each_ref unhebb_f refs n (snd r) else Ret (n, snd r)) (fun r =>
  obind (if negb (isi_eqb (t_status (v_x (fst r))) is_forced) then each_ref hebb_f refs (fst r) (snd r) else Ret r) (fun r =>
  each_ref recalc_f refs (fst r) (snd r)))).

(** blifat_stdp.h:123-136. *)
Definition reward_f (step : N) (n : tview) (s : rparams) : tview * rparams :=
  if (sub64 step (t_last_spike (v_x n)) <=? t_dtime (v_x n))%N && rr_contrib (rp_rule s) then
    let d := f_of_d (d_mul (v_dopa n) (d_of_f (damp_f (t_stab (v_x n))))) in
    (on_x (fun x => with_free (f_sub (t_free x) d) x) n, on_rule (fun r => with_res (f_add (rr_res r) d) r) s)
  else (n, s).
(** blifat_stdp.h:146-151. *)
Definition stability_factor_f (step first isi_max : N) : flt :=
  let a := d_sub (d_of_Z 2) (d_div (d_of_Z (Z.of_N (sub64 (sub64 step first) isi_max))) (d_of_Z (Z.of_N isi_max))) in
  if f_lt a (d_of_Z (-1)) then d_of_Z (-1) else a.
(** blifat_stdp.h:137-151. *)
Definition stability_change_f (step : N) (n : tview) : tview :=
  let x := v_x n in
  if t_forced x || f_lt (v_dopa n) d_zero then
    let q := f_of_d (d_sub (d_of_f (t_stab x)) (d_mul (v_dopa n) (d_of_f (t_stab_par x)))) in
    on_x (with_stab (if f_lt q (f_of_Z 0) then f_of_Z 0 else q)) n
  else
    on_x (with_stab (f_of_d (d_add (d_of_f (t_stab x))
      (d_mul (d_mul (d_of_f (t_stab_par x)) (v_dopa n)) (stability_factor_f step (t_first x) (t_isi_max x)))))) n.
(** [do_dopamine_plasticity_impl], blifat_stdp.h:106-155 and altai_stdp.h:104-153,
    for one neuron. *)
Definition dopamine_f (step : N) (i : N) (n : tview) (ps : list rproj) : outcome (tview * list rproj) :=
  if f_gt (v_dopa n) d_zero || (f_lt (v_dopa n) d_zero && negb (isi_eqb (t_status (v_x n)) is_forced)) then
    let (ps, refs) := connected_refs i ps in
    obind (each_ref (reward_f step) refs n ps) (fun r =>
    each_ref recalc_f refs (stability_change_f step (fst r)) (snd r))
  else Ret (n, ps).

(** [renormalize_resource], training/stdp.h:152-186, for one neuron. *)
Definition give_f (d : flt) (n : tview) (s : rparams) : tview * rparams :=
  (n, on_rule (fun r => with_res (f_add (rr_res r) d) r) s).
Definition renorm_f (step : N) (i : N) (n : tview) (ps : list rproj) : outcome (tview * list rproj) :=
  let x := v_x n in
  if (sub64 step (t_last x) <=? t_isi_max x)%N && negb (isi_eqb (t_status x) is_forced) then Ret (n, ps)
  else if f_lt (SFabs (t_free x)) (t_thr x) then Ret (n, ps)
  else
    let (ps, refs) := connected_refs i ps in
    let d := f_div (t_free x) (f_of_Z (Z.of_N (add64 (N.of_nat (length refs)) (t_drain x)))) in
    obind (each_ref (give_f d) refs n ps) (fun r =>
    each_ref recalc_f refs (on_x (with_free (f_of_Z 0)) (fst r)) (snd r)).

(** ** A population *)
(** [population[i]] has no bounds check. *)
Definition on_neuron_f (f : N -> tview -> list rproj -> outcome (tview * list rproj)) (i : nat)
    (s : list tview * list rproj) : outcome (list tview * list rproj) :=
  match nth_error (fst s) i with
  | Some n => obind (f (N.of_nat i) n (snd s)) (fun r => Ret (put i (fst r) (fst s), snd r))
  | None => UB
  end.
Fixpoint for_neurons_f (f : N -> tview -> list rproj -> outcome (tview * list rproj)) (idx : list nat)
    (s : list tview * list rproj) : outcome (list tview * list rproj) :=
  match idx with
  | [] => Ret s
  | i :: t => obind (on_neuron_f f i s) (for_neurons_f f t)
  end.
(** [train_population_impl], blifat_stdp.h:158-172, altai_stdp.h:156-170: [spikes]
    are the neuron indexes of the spike message, [ps] the working projections. *)
Definition train_f (step : N) (spikes : list N) (s : list tview * list rproj) : outcome (list tview * list rproj) :=
  let all := seq 0 (length (fst s)) in
  obind (for_neurons_f (spiking_f step) (map N.to_nat spikes) s) (fun s =>
  obind (for_neurons_f (dopamine_f step) all s) (fun s =>
  for_neurons_f (renorm_f step) all s)).
End Train.
