(** C38-C40, C59-C61: resource-based STDP training. *)
From Coq Require Import QArith Qabs Lqa.
From Verif Require Import Base ListLemmas Stdp_Model Stdp_Spec Stdp_Proofs Stdp_Proofs2.
Local Open Scope Q_scope.

(** ** C38 *)
(** For w_min < w_max the weight is in [w_min, w_max), grows with the resource and is
    w_min for resources that are not positive. *)
Theorem c38_weight_range wmin wmax r : wmin < wmax -> wmin <= weight_of wmin wmax r /\ weight_of wmin wmax r < wmax.
Proof. exact (weight_range wmin wmax r). Qed.
Theorem c38_weight_monotone wmin wmax r r' : wmin < wmax -> r <= r' -> weight_of wmin wmax r <= weight_of wmin wmax r'.
Proof. exact (weight_mono wmin wmax r r'). Qed.
Theorem c38_weight_low wmin wmax r : r <= 0 -> weight_of wmin wmax r == wmin.
Proof. exact (weight_low wmin wmax r). Qed.
(** strictly above 0 *)
Theorem c38_weight_strict wmin wmax r r' : wmin < wmax -> 0 <= r -> r < r' -> weight_of wmin wmax r < weight_of wmin wmax r'.
Proof. exact (weight_strict wmin wmax r r'). Qed.
(** Every synapse of a neuron that spiked has such a weight after training. *)
Theorem c38_trained_weights damp step spikes ns l ns' l' j : NoDup spikes -> (j < length ns)%nat -> In j spikes ->
  train damp step spikes (ns, l) = (ns', l') ->
  Forall (fun s => ts_weight s = weight_of (ts_min s) (ts_max s) (ts_res s)) (own j l').
Proof. apply trained_weights. Qed.
(** In [float] both bounds can fail: finite parameters can give an infinite weight,
    and with w_min = w_max a NaN. *)
Theorem c38_float_overflow : exists wmin wmax r, is_finite wmin = true /\ is_finite wmax = true /\ is_finite r = true /\
  f_lt wmin wmax = true /\ is_finite (weight_f wmin wmax r) = false.
Proof. exists (f_of_Z (-1)), (f_of_Z 1), (f_of_Z (2 ^ 127 + 2 ^ 126)). vm_compute. auto. Qed.
Theorem c38_float_nan : exists w, is_finite w = true /\ is_nan (weight_f w w (S754_zero false)) = true.
Proof. exists (f_of_Z 1). vm_compute. auto. Qed.
Example c38_met : weight_of (-1) 1 2 == 0 /\ weight_of (-1) 1 0 == -1 /\ weight_of (-1) 1 6 == 1 # 2.
Proof. repeat split. Qed.

(** ** C39 *)
(** One training: nothing is created or lost for any neuron, or the neuron is
    renormalised: then its free resource [f] is divided in (number of its synapses +
    drain coefficient) equal parts and the parts of the drain are lost. *)
Theorem c39_training damp step spikes ns l ns' l' : NoDup spikes -> train damp step spikes (ns, l) = (ns', l') ->
  length ns' = length ns /\ map ts_to l' = map ts_to l /\
  forall j n, nth_error ns j = Some n -> exists n', nth_error ns' j = Some n' /\ tn_drain n' = tn_drain n /\
    (total n' (own j l') == total n (own j l) \/
     exists f, tn_free n' == 0 /\
       let k := Z.of_nat (length (own j l)) in let d := Z.of_N (tn_drain n) in
       total n' (own j l') == total n (own j l) - (f - inject_Z k * (f / inject_Z (k + d)))).
Proof. apply training_resources. Qed.
(** With drain coefficient 0 every neuron that has a synapse keeps all of its resource
    through every history. *)
Theorem c39_history damp s s' : history damp s s' -> forall j n, nth_error (fst s) j = Some n -> tn_drain n = 0%N -> own j (snd s) <> [] ->
  exists n', nth_error (fst s') j = Some n' /\ total n' (own j (snd s')) == total n (own j (snd s)).
Proof. apply history_resources. Qed.
(** A neuron without synapses loses all of its free resource when it is renormalised. *)
Theorem c39_no_synapses : exists n, forall damp, let '(ns', l') := train damp 100 [] ([n], []) in
  map tn_free ns' = [0] /\ tn_free n == 2.
Proof.
  exists (mkTN 0 0 2 1 0 0 0 0 1 0 not_in_period 0 0 0 false 0 0). intros damp. vm_compute. auto.
Qed.
Definition ex_syn r : tsyn := mkTS 0 1 0 r (-1) 1 (1 # 4) 10 95 false false.
Definition ex_neu : tneu := mkTN (1 # 2) 5 0 1 0 0 1 0 10 (1 # 2) not_in_period 0 0 0 false 3 0.
Example c39_met : let '(ns', l') := train (fun _ => 1) 97 [0%nat] ([ex_neu], [ex_syn 1; ex_syn 2]) in
  forallb (fun n => Qeq_bool (tn_free n) (- (13 # 2))) ns' = true /\ forallb (fun s => negb (Qeq_bool (ts_res s) 1)) l' = true /\
  Qeq_bool (resources l') (19 # 2) = true /\ map ts_contrib l' = [true; true] /\ map tn_status ns' = [period_started].
Proof. vm_compute. auto. Qed.

(** ** C40 *)
(** The rule never takes effect: however close the spikes of an unforced neuron are, at
    every one of them a new period is said to have started ([last_step_ - step] wraps
    around). *)
Theorem c40_isi_refuted n steps : tn_status n = not_in_period -> tn_forced n = false -> (tn_isi_max n < 2 ^ 32)%N -> steps <> [] ->
  increasing steps -> tn_status (spikes_at_steps n steps) = period_started.
Proof. apply isi_never_continues. Qed.
Example c40_isi_refuted_met : exists n steps, tn_status n = not_in_period /\ tn_forced n = false /\ increasing steps /\
  Forall2 (continues (tn_isi_max n)) (removelast steps) (tl steps) /\ length steps = 4%nat /\ tn_status (spikes_at_steps n steps) = period_started.
Proof. exists ex_neu, [5; 7; 8; 16]%N. repeat split; try (vm_compute; reflexivity). repeat constructor. Qed.
(** What holds: the first spike of a neuron, and the first one after a forced spike,
    start a period at their step; a forced spike interrupts the period and leaves the
    step of the last unforced one. *)
Theorem c40_first_spike_partial n step : tn_forced n = false -> tn_status n = not_in_period \/ tn_status n = is_forced ->
  let n' := update_isi step n in tn_status n' = period_started /\ tn_first n' = step /\ tn_last n' = step.
Proof. intros Hf [H|H]; unfold update_isi; rewrite Hf, H; cbn; auto. Qed.
Theorem c40_forced_spike_partial n step : tn_forced n = true ->
  let n' := update_isi step n in tn_status n' = is_forced /\ tn_first n' = tn_first n /\ tn_last n' = tn_last n.
Proof. intros Hf. unfold update_isi. rewrite Hf. cbn. auto. Qed.
Example c40_met : exists n, tn_forced n = false /\ tn_status n = not_in_period /\ tn_status (update_isi 5 n) = period_started.
Proof. exists ex_neu. vm_compute. auto. Qed.

(** ** C59: a synapse counts as having contributed to a spike iff its last spike
    arrived at most dopamine_plasticity_period_ steps before. *)
Theorem c59_window_partial s step : (ts_period s <= step)%N -> (step < two64)%N -> (1 <= ts_last s + ts_delay s)%N -> (ts_last s + ts_delay s < two64)%N ->
  had_spike step s = true <-> (arrival s <= step /\ step <= arrival s + ts_period s)%N.
Proof. apply window. Qed.
(** In the first steps the window is inverted: an arrival inside of it does not count,
    one beyond it does. *)
Theorem c59_early_refuted s step : (step < ts_period s)%N -> (ts_period s < 2 ^ 32)%N -> (1 <= ts_last s + ts_delay s)%N ->
  (ts_last s + ts_delay s < 2 ^ 63)%N ->
  had_spike step s = true <-> (step <= arrival s)%N.
Proof. apply window_early. Qed.
Example c59_met : exists s1 s2, (ts_period s1 <= 97)%N /\ had_spike 97 s1 = true /\ arrival s1 = 95%N /\
  (3 < ts_period s2)%N /\ arrival s2 = 2%N /\ had_spike 3 s2 = false.
Proof. exists (ex_syn 1), (mkTS 0 1 0 1 (-1) 1 0 10 2 false false). repeat split; vm_compute; congruence. Qed.

(** ** C60: training of a neuron depends on nothing but the neuron, its own synapses and
    whether it spiked, and changes no other neuron and no other synapse. *)
Theorem c60_independent damp step spikes spikes2 ns l ns2 l2 ns' l' ns2' l2' j : NoDup spikes -> NoDup spikes2 ->
  train damp step spikes (ns, l) = (ns', l') -> train damp step spikes2 (ns2, l2) = (ns2', l2') ->
  (j < length ns)%nat ->
  nth_error ns2 j = nth_error ns j -> own j l2 = own j l -> (In j spikes <-> In j spikes2) ->
  nth_error ns2' j = nth_error ns' j /\ own j l2' = own j l'.
Proof. apply train_independent. Qed.
(** A neuron that did not spike, has no dopamine and holds less free resource than its
    threshold is not changed, and neither are its synapses. *)
Theorem c60_idle damp step spikes ns l ns' l' j n : NoDup spikes -> train damp step spikes (ns, l) = (ns', l') ->
  nth_error ns j = Some n -> ~ In j spikes -> tn_dopa n == 0 -> Qabs (tn_free n) < tn_thr n ->
  nth_error ns' j = Some n /\ own j l' = own j l.
Proof. apply train_idle. Qed.
(** Dopamine punishment does nothing to a neuron whose last spike was forced. *)
Theorem c60_forced_punished damp step i n l : tn_status n = is_forced -> tn_dopa n < 0 -> dopamine_neuron damp step i n l = (n, l).
Proof. apply forced_punished. Qed.
(** Synapses to indexes beyond the population are never changed. *)
Theorem c60_beyond damp step spikes ns l ns' l' j : NoDup spikes -> train damp step spikes (ns, l) = (ns', l') ->
  (length ns <= j)%nat -> own j l' = own j l.
Proof. intros Hd H Hj. destruct (train_at damp step spikes ns l Hd ns' l' H) as (_ & _ & _ & X). now apply X. Qed.
Example c60_met : exists n l, tn_dopa n == 0 /\ Qabs (tn_free n) < tn_thr n /\ length (own 1 l) = 1%nat /\
  nth_error [ex_neu; n] 1 = Some n.
Proof.
  exists (mkTN (1 # 2) 5 0 1 0 0 1 0 10 (1 # 2) not_in_period 0 0 0 false 0 0), [ex_syn 1; mkTS 1 1 0 1 (-1) 1 (1 # 4) 10 95 false false].
  repeat split.
Qed.

(** ** C61: a reward changes stability by the documented factor once the period has
    lasted isi_max_ steps... *)
Theorem c61_factor_partial step first isi_max : (0 < isi_max)%N -> (isi_max < 2 ^ 32)%N -> (step < two64)%N -> (first + isi_max <= step)%N ->
  stability_factor step first isi_max == documented_factor (step - first) isi_max.
Proof. apply factor_late. Qed.
(** ...but before that it is -1, where the documented factor is positive. *)
Theorem c61_early_refuted step first isi_max : (isi_max < 2 ^ 32)%N -> (step < two64)%N -> (first <= step)%N -> (step < first + isi_max)%N ->
  stability_factor step first isi_max == -1 /\ 1 <= documented_factor (step - first) isi_max.
Proof. apply factor_early. Qed.
(** Punishment never makes stability negative. *)
Theorem c61_punished_stability step n : tn_dopa n < 0 \/ tn_forced n = true -> 0 <= tn_stab (stability_change step n).
Proof. apply punished_stability. Qed.
Example c61_met : exists step first isi_max, (0 < isi_max)%N /\ (first + isi_max <= step)%N /\
  stability_factor step first isi_max == 1 # 2 /\ stability_factor (step - 10) first isi_max == -1.
Proof. exists 125%N, 110%N, 6%N. repeat split; vm_compute; reflexivity || discriminate. Qed.

Print Assumptions c38_weight_range. Print Assumptions c38_weight_monotone. Print Assumptions c38_weight_low. Print Assumptions c38_weight_strict.
Print Assumptions c38_trained_weights. Print Assumptions c38_float_overflow. Print Assumptions c38_float_nan.
Print Assumptions c39_training. Print Assumptions c39_history. Print Assumptions c39_no_synapses.
Print Assumptions c40_isi_refuted. Print Assumptions c40_first_spike_partial. Print Assumptions c40_forced_spike_partial.
Print Assumptions c59_window_partial. Print Assumptions c59_early_refuted.
Print Assumptions c60_independent. Print Assumptions c60_idle. Print Assumptions c60_forced_punished. Print Assumptions c60_beyond.
Print Assumptions c61_factor_partial. Print Assumptions c61_early_refuted. Print Assumptions c61_punished_stability.
