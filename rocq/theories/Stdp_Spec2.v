(** What one training does to a neuron and to its synapses, in closed form. *)
From Coq Require Import QArith Qabs.
From Verif Require Import Base Stdp_Model Stdp_Spec.
Local Open Scope Q_scope.

(** What training never changes in a synapse. *)
Definition same_synapse (s s' : tsyn) : Prop :=
  ts_to s' = ts_to s /\ ts_delay s' = ts_delay s /\ ts_min s' = ts_min s /\ ts_max s' = ts_max s /\
  ts_du s' = ts_du s /\ ts_period s' = ts_period s /\ ts_last s' = ts_last s.
Definition resource_weight (s : tsyn) : Prop := ts_weight s = weight_of (ts_min s) (ts_max s) (ts_res s).
(** Sum over synapses. *)
Definition sum_over (f : tsyn -> Q) (l : list tsyn) : Q := fold_right (fun s q => f s + q) 0 l.

(** *** A spike of the neuron at [step]; [period] is its new ISI status. *)
(** Whether a synapse counts as having contributed: it had a spike in the window, or
    the period goes on and it has contributed before. *)
Definition contributes (step : N) (period : isi) (s : tsyn) : bool :=
  had_spike step s || (isi_eqb period period_continued && ts_contrib s).
(** Hebbian plasticity: once in a period, for synapses that contributed. *)
Definition strengthened (step : N) (period : isi) (s : tsyn) : bool :=
  negb (isi_eqb period is_forced) && contributes step period s && negb (isi_eqb period period_continued && ts_hebb s).
Definition spike_synapse (damp : Q -> Q) (step : N) (n n' : tneu) (s s' : tsyn) : Prop :=
  same_synapse s s' /\ resource_weight s' /\
  ts_contrib s' = contributes step (tn_status n') s /\
  ts_hebb s' = (strengthened step (tn_status n') s || (isi_eqb (tn_status n') period_continued && ts_hebb s)) /\
  ts_res s' == ts_res s - (if isi_eqb (tn_status n') is_forced then 0 else ts_du s)
                        + (if strengthened step (tn_status n') s then tn_dh n * damp (tn_stab n') else 0).
Definition spike_effect (damp : Q -> Q) (step : N) (n : tneu) (c : list tsyn) (n' : tneu) (c' : list tsyn) : Prop :=
  Forall2 (spike_synapse damp step n n') c c' /\
  tn_last_spike n' = step /\
  tn_stab n' == tn_stab n - (if isi_eqb (tn_status n') period_started then tn_stab_isi n else 0) /\
  tn_add_thr n' == tn_coef n * sum_over (fun s => if Qle_bool (ts_weight s) 0 then 0 else ts_weight s) c /\
  tn_free n' == tn_free n - (resources c' - resources c) /\
  (tn_dopa n' = tn_dopa n /\ tn_forced n' = tn_forced n /\ tn_isi_max n' = tn_isi_max n /\ tn_dtime n' = tn_dtime n /\
   tn_thr n' = tn_thr n /\ tn_drain n' = tn_drain n).

(** *** Dopamine: reward or punishment. *)
(** Punishment does nothing to a neuron whose last spike was forced. *)
Definition dopamine_felt (n : tneu) : Prop := 0 < tn_dopa n \/ tn_dopa n < 0 /\ tn_status n <> is_forced.
(** The neuron spiked at most [dopamine_plasticity_time_] steps ago. *)
Definition spiked_recently (step : N) (n : tneu) : Prop := (step <= tn_last_spike n + tn_dtime n)%N.
Definition dopamine_effect (damp : Q -> Q) (step : N) (n : tneu) (c : list tsyn) (n' : tneu) (c' : list tsyn) : Prop :=
  Forall2 (fun s s' => same_synapse s s' /\ resource_weight s' /\ ts_contrib s' = ts_contrib s /\ ts_hebb s' = ts_hebb s /\
    (spiked_recently step n -> ts_contrib s = true -> ts_res s' == ts_res s + tn_dopa n * damp (tn_stab n)) /\
    (~ spiked_recently step n \/ ts_contrib s = false -> ts_res s' = ts_res s)) c c' /\
  tn_free n' == tn_free n - (resources c' - resources c) /\
  (tn_dopa n' = tn_dopa n /\ tn_status n' = tn_status n /\ tn_last_spike n' = tn_last_spike n /\ tn_last n' = tn_last n /\
   tn_isi_max n' = tn_isi_max n /\ tn_thr n' = tn_thr n /\ tn_drain n' = tn_drain n).

(** *** Renormalisation. *)
(** The neuron is outside of its ISI period, and its free resource has reached the
    threshold. *)
Definition renormalised (step : N) (n : tneu) : Prop :=
  ((tn_last n + tn_isi_max n < step)%N \/ tn_status n = is_forced) /\ tn_thr n <= Qabs (tn_free n).
Definition renorm_effect (n : tneu) (c : list tsyn) (n' : tneu) (c' : list tsyn) : Prop :=
  Forall2 (fun s s' => same_synapse s s' /\ resource_weight s' /\ ts_contrib s' = ts_contrib s /\ ts_hebb s' = ts_hebb s /\
    ts_res s' == ts_res s + tn_free n / inject_Z (Z.of_nat (length c) + Z.of_N (tn_drain n))) c c' /\
  n' = set_free 0 n.

(** *** Sequences of trainings *)
(** The state before training number [k] of a sequence of trainings [tr] (step and
    spikes of each). *)
Definition after (damp : Q -> Q) (tr : list (N * list nat)) (k : nat) (s : list tneu * list tsyn) : list tneu * list tsyn :=
  fold_left (fun s t => train damp (fst t) (snd t) s) (firstn k tr) s.
(** At training [k] neuron [j] spikes, its ISI period becomes [p], and synapse [x] (its
    number among the neuron's own) is strengthened by Hebbian plasticity. *)
Definition spikes_in (damp : Q -> Q) (tr : list (N * list nat)) (s : list tneu * list tsyn) (k j : nat) (p : isi) : Prop :=
  exists step spikes n, nth_error tr k = Some (step, spikes) /\ In j spikes /\
    nth_error (fst (after damp tr k s)) j = Some n /\ p = tn_status (update_isi step n).
Definition strengthens (damp : Q -> Q) (tr : list (N * list nat)) (s : list tneu * list tsyn) (k j x : nat) : Prop :=
  exists step spikes n y, nth_error tr k = Some (step, spikes) /\ In j spikes /\
    nth_error (fst (after damp tr k s)) j = Some n /\ nth_error (own j (snd (after damp tr k s))) x = Some y /\
    strengthened step (tn_status (update_isi step n)) y = true.
