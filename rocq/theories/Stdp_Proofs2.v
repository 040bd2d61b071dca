From Coq Require Import QArith Qabs Lqa.
From Verif Require Import Base ListLemmas Stdp_Model Stdp_Spec Stdp_Proofs.
Local Open Scope Q_scope.

Lemma frac_strict d x y : 0 < d -> 0 <= x -> x < y -> d * x / (d + x) < d * y / (d + y).
Proof.
  intros Hd Hx Hxy. apply Qlt_shift_div_l; [lra|].
  assert (E : d * x / (d + x) * (d + y) == d * x * (d + y) / (d + x)) by (field; lra).
  rewrite E. apply Qlt_shift_div_r; [lra|].
  assert (A : 0 < d * d) by (apply Qmult_lt_0_compat; assumption). assert (B : 0 < y - x) by lra.
  pose proof (Qmult_lt_0_compat _ _ A B). assert (d * y * (d + x) - d * x * (d + y) == d * d * (y - x)) by ring. lra.
Qed.
Lemma Qmax'_pos r : 0 <= r -> Qmax' r 0 == r.
Proof. intros H. unfold Qmax'. destruct (Qle_bool r 0) eqn:E; [apply Qle_bool_iff in E; lra|reflexivity]. Qed.
Lemma weight_strict wmin wmax r r' : wmin < wmax -> 0 <= r -> r < r' -> weight_of wmin wmax r < weight_of wmin wmax r'.
Proof.
  intros H H0 Hr. unfold weight_of. cbn zeta.
  pose proof (Qmax'_pos r H0) as E1. assert (H0' : 0 <= r') by lra. pose proof (Qmax'_pos r' H0') as E2.
  assert (H1 : 0 < wmax - wmin) by lra.
  pose proof (frac_strict (wmax - wmin) (Qmax' r 0) (Qmax' r' 0) H1). lra.
Qed.

(** ** Weights after training *)
Definition right_weight (s : tsyn) : Prop := ts_weight s = weight_of (ts_min s) (ts_max s) (ts_res s).
Lemma recalc_right i : forall l n, Forall (fun s => ts_to s = i) l -> Forall right_weight (snd (each i recalc_each n l)).
Proof.
  induction l as [|s l IH]; intros n H; cbn [each]; [constructor|]. inversion H as [|? ? Hs Hl]; subst. rewrite Nat.eqb_refl. 
  change (recalc_each n s) with (n, recalc s). cbv iota. specialize (IH n Hl). destruct (each (ts_to s) recalc_each n l) as [n2 t2]. cbn [snd] in *. constructor; [reflexivity|exact IH].
Qed.
Lemma map_to_own j (c c' : list tsyn) : map ts_to c' = map ts_to c -> Forall (fun s => ts_to s = j) c -> Forall (fun s => ts_to s = j) c'.
Proof.
  revert c'. induction c as [|s c IH]; intros [|s' c'] E H; cbn in E; try discriminate; constructor; inversion H; subst; injection E as E1 E2; auto.
Qed.
Lemma own_connected j l : own j l = connected j l. Proof. reflexivity. Qed.
Lemma connected_to j l : Forall (fun s => ts_to s = j) (connected j l).
Proof. apply Forall_forall. intros s H. apply filter_In in H as [_ H]. now apply Nat.eqb_eq. Qed.
Lemma spiking_right damp step i n l : Forall (fun s => ts_to s = i) l -> Forall right_weight (snd (spiking_neuron damp step i n l)).
Proof.
  intros H. unfold spiking_neuron. cbn zeta.
  match goal with |- context [each i (mark step) ?a l] => set (n0 := a) end.
  destruct (each i (mark step) n0 l) as [n1 l1] eqn:E1. destruct (each_local i _ (keeps_mark step) _ _ _ _ E1) as (_ & _ & A3).
  set (n2 := set_add_thr (tn_add_thr n1 * tn_coef n1) n1).
  destruct (if negb (isi_eqb (tn_status n2) period_continued) then each i unhebb n2 l1 else (n2, l1)) as [n3 l3] eqn:E3.
  assert (B3 : map ts_to l3 = map ts_to l1).
  { match type of E3 with (if ?b then _ else _) = _ => destruct b end; [|injection E3 as <- <-; reflexivity]. now apply (each_local i _ keeps_unhebb) in E3. }
  destruct (if negb (isi_eqb (tn_status n3) is_forced) then each i (hebb damp) n3 l3 else (n3, l3)) as [n4 l4] eqn:E4.
  assert (B4 : map ts_to l4 = map ts_to l3).
  { match type of E4 with (if ?b then _ else _) = _ => destruct b end; [|injection E4 as <- <-; reflexivity]. now apply (each_local i _ (keeps_hebb damp)) in E4. }
  apply recalc_right. apply (map_to_own i l); [congruence|exact H].
Qed.
Lemma dopamine_right damp step i n l : Forall (fun s => ts_to s = i) l -> Forall right_weight l -> Forall right_weight (snd (dopamine_neuron damp step i n l)).
Proof.
  intros H R. unfold dopamine_neuron. destruct (dopamine_acts n); [|exact R].
  destruct (each i (reward damp step) n l) as [n1 l1] eqn:E1. destruct (each_local i _ (keeps_reward damp step) _ _ _ _ E1) as (_ & _ & A3).
  apply recalc_right. now apply (map_to_own i l).
Qed.
Lemma renorm_right step i n l : Forall (fun s => ts_to s = i) l -> Forall right_weight l -> Forall right_weight (snd (renorm_neuron step i n l)).
Proof.
  intros H R. unfold renorm_neuron. destruct (renorm_acts step n); [|exact R].
  destruct (each i (give _) n l) as [n1 l1] eqn:E1. destruct (each_local i _ (keeps_give _) _ _ _ _ E1) as (_ & _ & A3).
  apply recalc_right. now apply (map_to_own i l).
Qed.
Lemma existsb_In j l : existsb (Nat.eqb j) l = true <-> In j l.
Proof.
  rewrite existsb_exists. split; [intros (x & H & E); apply Nat.eqb_eq in E; now subst|]. intros H. exists j. split; [exact H|apply Nat.eqb_refl].
Qed.
Lemma trained_weights damp step spikes ns l ns' l' j : NoDup spikes -> (j < length ns)%nat -> In j spikes ->
  train damp step spikes (ns, l) = (ns', l') -> Forall right_weight (own j l').
Proof.
  intros Hd Hj Hs H. destruct (train_at damp step spikes ns l Hd ns' l' H) as (_ & _ & X & _).
  destruct (nth_error ns j) as [n|] eqn:En; [|apply nth_error_None in En; lia].
  destruct (X j n En) as (n' & c' & E & _ & Ec). rewrite own_connected, Ec. apply existsb_In in Hs. rewrite Hs in E.
  unfold train_neuron in E. pose proof (connected_to j l) as F.
  pose proof (spiking_right damp step j n _ F) as R1.
  destruct (spiking_neuron damp step j n (connected j l)) as [n1 c1] eqn:E1. cbn [snd] in R1.
  assert (F1 : Forall (fun s => ts_to s = j) c1) by (apply (map_to_own j (connected j l)); [now apply (spiking_local damp step) in E1|exact F]).
  pose proof (dopamine_right damp step j n1 c1 F1 R1) as R2.
  destruct (dopamine_neuron damp step j n1 c1) as [n2 c2] eqn:E2. cbn [snd] in R2.
  assert (F2 : Forall (fun s => ts_to s = j) c2) by (apply (map_to_own j c1); [now apply (dopamine_local damp step) in E2|exact F1]).
  pose proof (renorm_right step j n2 c2 F2 R2) as R3. rewrite E in R3. exact R3.
Qed.

(** ** Conservation *)
Lemma renorm_drain step i n l : tn_drain (fst (renorm_neuron step i n l)) = tn_drain n.
Proof.
  unfold renorm_neuron. destruct (renorm_acts step n); [|reflexivity].
  destruct (each i (give _) n l) as [n1 l1] eqn:E1. apply give_each in E1 as [-> _].
  now rewrite (each_keeps tn_drain i recalc_each (fun m s => eq_refl) l1 _).
Qed.
Lemma train_neuron_drain damp step b j n c : tn_drain (fst (train_neuron damp step b j n c)) = tn_drain n.
Proof.
  unfold train_neuron. destruct (if b then spiking_neuron damp step j n c else (n, c)) as [n1 c1] eqn:E1.
  assert (D1 : tn_drain n1 = tn_drain n).
  { destruct b; [|now injection E1 as <- <-]. pose proof (spiking_drain damp step j n c) as D. now rewrite E1 in D. }
  pose proof (dopamine_drain damp step j n1 c1) as D2. destruct (dopamine_neuron damp step j n1 c1) as [n2 c2]. cbn [fst] in D2.
  rewrite renorm_drain. congruence.
Qed.
Lemma training_resources damp step spikes ns l ns' l' : NoDup spikes -> train damp step spikes (ns, l) = (ns', l') ->
  length ns' = length ns /\ map ts_to l' = map ts_to l /\
  forall j n, nth_error ns j = Some n -> exists n', nth_error ns' j = Some n' /\ tn_drain n' = tn_drain n /\
    (total n' (own j l') == total n (own j l) \/
     exists f, tn_free n' == 0 /\
       let k := Z.of_nat (length (own j l)) in let d := Z.of_N (tn_drain n) in
       total n' (own j l') == total n (own j l) - (f - inject_Z k * (f / inject_Z (k + d)))).
Proof.
  intros Hd H. destruct (train_at damp step spikes ns l Hd ns' l' H) as (A & B & X & _). split; [exact A|]. split; [exact B|].
  intros j n En. destruct (X j n En) as (n' & c' & E & En' & Ec). exists n'. split; [exact En'|].
  pose proof (train_neuron_drain damp step (existsb (Nat.eqb j) spikes) j n (connected j l)) as D. rewrite E in D. split; [exact D|].
  rewrite !own_connected, Ec. cbn zeta. exact (train_neuron_total _ _ _ _ _ _ _ _ (connected_to j l) E).
Qed.
Lemma own_res j : forall l l', map ts_to l' = map ts_to l -> map ts_res l' = map ts_res l -> resources (own j l') = resources (own j l) /\ length (own j l') = length (own j l).
Proof.
  induction l as [|s l IH]; intros [|s' l'] E1 E2; cbn in E1, E2; try discriminate; [auto|].
  injection E1 as E1 E1'. injection E2 as E2 E2'. destruct (IH l' E1' E2') as [I1 I2]. unfold own. cbn [filter]. fold (own j l) (own j l').
  rewrite E1. destruct (ts_to s =? j)%nat; [|auto]. cbn [resources fold_right length]. fold (resources (own j l)) (resources (own j l')). rewrite E2, I1, I2. auto.
Qed.
Lemma map_nth {A B} (f : A -> B) (l l' : list A) j x : map f l' = map f l -> nth_error l j = Some x -> exists x', nth_error l' j = Some x' /\ f x' = f x.
Proof.
  intros E H. assert (H' : nth_error (map f l') j = Some (f x)) by (rewrite E, nth_error_map, H; reflexivity).
  rewrite nth_error_map in H'. destruct (nth_error l' j) as [x'|]; [|discriminate]. cbn in H'. exists x'. split; [reflexivity|congruence].
Qed.
Lemma history_resources damp s s' : history damp s s' -> forall j n, nth_error (fst s) j = Some n -> tn_drain n = 0%N -> own j (snd s) <> [] ->
  exists n', nth_error (fst s') j = Some n' /\ total n' (own j (snd s')) == total n (own j (snd s)).
Proof.
  intros H j n En Hd Hne.
  enough (exists n', nth_error (fst s') j = Some n' /\ tn_drain n' = 0%N /\ length (own j (snd s')) = length (own j (snd s)) /\ total n' (own j (snd s')) == total n (own j (snd s))) by
   (destruct H0 as (n' & A & _ & _ & B); eauto).
  assert (Hk : (0 < length (own j (snd s)))%nat) by (destruct (own j (snd s)); [congruence|cbn; lia]). clear Hne.
  induction H as [s|s [ns l] step spikes H IH Hnd|s s' s'' H IH (S1 & S2 & S3 & S4)].
  - exists n. repeat split; auto; reflexivity.
  - destruct (IH En Hk) as (n' & A & B & C & D). destruct (train damp step spikes (ns, l)) as [ns' l'] eqn:E.
    destruct (training_resources damp step spikes ns l ns' l' Hnd E) as (L & M & X). cbn [fst snd] in *.
    destruct (X j n' A) as (n'' & A' & B' & Y). exists n''. split; [exact A'|]. split; [congruence|].
    assert (C' : length (own j l') = length (own j l)) by (apply connected_length; exact M). split; [congruence|].
    destruct Y as [Y|(f & _ & Y)]; [lra|]. cbn zeta in Y. rewrite B in Y. cbn [Z.of_N] in Y. rewrite Z.add_0_r in Y.
    assert (Z0 : f - inject_Z (Z.of_nat (length (own j l))) * (f / inject_Z (Z.of_nat (length (own j l)))) == 0).
    { field. intros E0. unfold Qeq in E0. cbn in E0. lia. }
    lra.
  - destruct (IH En Hk) as (n' & A & B & C & D).
    destruct (map_nth tn_free _ _ j n' S1 A) as (n'' & A' & F). destruct (map_nth tn_drain _ _ j n' S2 A) as (m & A'' & F').
    rewrite A' in A''. injection A'' as <-. exists n''. destruct (own_res j _ _ S3 S4) as [R1 R2].
    split; [exact A'|]. split; [congruence|]. split; [congruence|]. unfold total in *. rewrite F, R1. exact D.
Qed.

(** ** Spike periods *)
Lemma isi_wrap last step m : (last < step)%N -> (step < 2 ^ 63)%N -> (m < 2 ^ 32)%N -> (sub64 last step <? m)%N = false.
Proof.
  intros H1 H2 H3. apply N.ltb_ge. unfold sub64, w64. change two64 with 18446744073709551616%N. change (2 ^ 63)%N with 9223372036854775808%N in H2.
  change (2 ^ 32)%N with 4294967296%N in H3.
  rewrite (N.mod_small step) by lia. rewrite N.mod_small; lia.
Qed.
Lemma isi_from_started : forall steps n, tn_status n = period_started -> tn_forced n = false -> (tn_isi_max n < 2 ^ 32)%N ->
  increasing steps -> (match steps with [] => True | x :: _ => (tn_last n < x)%N end) -> tn_status (spikes_at_steps n steps) = period_started.
Proof.
  induction steps as [|x steps IH]; intros n Hs Hf Hm Hi Hl; [exact Hs|]. unfold spikes_at_steps. cbn [fold_left]. fold (spikes_at_steps (update_isi x n) steps).
  destruct Hi as (H1 & H2 & H3).
  assert (E : update_isi x n = set_status period_started (tn_first n) x n).
  { unfold update_isi. rewrite Hf, Hs. now rewrite (isi_wrap _ _ _ Hl H1 Hm). }
  rewrite E. apply IH; auto.
Qed.
Lemma isi_never_continues n steps : tn_status n = not_in_period -> tn_forced n = false -> (tn_isi_max n < 2 ^ 32)%N -> steps <> [] ->
  increasing steps -> tn_status (spikes_at_steps n steps) = period_started.
Proof.
  intros Hs Hf Hm Hne Hi. destruct steps as [|x steps]; [congruence|]. unfold spikes_at_steps. cbn [fold_left]. fold (spikes_at_steps (update_isi x n) steps).
  destruct Hi as (H1 & H2 & H3). assert (E : update_isi x n = set_status period_started x x n) by (unfold update_isi; now rewrite Hf, Hs).
  rewrite E. apply isi_from_started; auto.
Qed.

(** ** Contribution *)
Lemma interval_spec a b x : is_point_in_interval a b x = true <-> (N.min a b <= x /\ x <= N.max a b)%N.
Proof.
  unfold is_point_in_interval. destruct (N.ltb_spec b a); rewrite Bool.andb_true_iff, !N.leb_le; lia.
Qed.
Lemma sub64_le a b : (b <= a)%N -> (a < two64)%N -> sub64 a b = (a - b)%N.
Proof.
  intros H1 H2. unfold sub64, w64. change two64 with 18446744073709551616%N in *. rewrite (N.mod_small b) by lia.
  replace (a + (18446744073709551616 - b))%N with (a - b + 1 * 18446744073709551616)%N by lia. rewrite N.mod_add by lia. apply N.mod_small. lia.
Qed.
Lemma sub64_gt a b : (a < b)%N -> (b < two64)%N -> sub64 a b = (a + two64 - b)%N.
Proof.
  intros H1 H2. unfold sub64, w64. change two64 with 18446744073709551616%N in *. rewrite (N.mod_small b) by lia. rewrite N.mod_small by lia. lia.
Qed.
Lemma add64_small a b : (a + b < two64)%N -> add64 a b = (a + b)%N.
Proof. intros H. unfold add64, w64. apply N.mod_small. exact H. Qed.
Lemma window s step : (ts_period s <= step)%N -> (step < two64)%N -> (1 <= ts_last s + ts_delay s)%N -> (ts_last s + ts_delay s < two64)%N ->
  had_spike step s = true <-> (arrival s <= step /\ step <= arrival s + ts_period s)%N.
Proof.
  intros H1 H2 H3 H4. unfold had_spike, arrival. rewrite interval_spec. rewrite sub64_le by assumption.
  rewrite add64_small by assumption. rewrite sub64_le by assumption. lia.
Qed.
Lemma window_early s step : (step < ts_period s)%N -> (ts_period s < 2 ^ 32)%N -> (1 <= ts_last s + ts_delay s)%N ->
  (ts_last s + ts_delay s < 2 ^ 63)%N -> had_spike step s = true <-> (step <= arrival s)%N.
Proof.
  intros H1 H2 H3 H4. unfold had_spike, arrival. rewrite interval_spec. change (2 ^ 32)%N with 4294967296%N in H2.
  change (2 ^ 63)%N with 9223372036854775808%N in H4.
  rewrite sub64_gt by (change two64 with 18446744073709551616%N; lia).
  rewrite add64_small by (change two64 with 18446744073709551616%N; lia). rewrite sub64_le by (change two64 with 18446744073709551616%N; lia).
  change two64 with 18446744073709551616%N. lia.
Qed.

(** ** Independence *)
Lemma train_independent damp step spikes spikes2 ns l ns2 l2 ns' l' ns2' l2' j : NoDup spikes -> NoDup spikes2 ->
  train damp step spikes (ns, l) = (ns', l') -> train damp step spikes2 (ns2, l2) = (ns2', l2') ->
  (j < length ns)%nat ->
  nth_error ns2 j = nth_error ns j -> own j l2 = own j l -> (In j spikes <-> In j spikes2) ->
  nth_error ns2' j = nth_error ns' j /\ own j l2' = own j l'.
Proof.
  intros Hd Hd2 H H2 Hj En El Hs. destruct (train_at damp step spikes ns l Hd ns' l' H) as (_ & _ & X & _).
  destruct (train_at damp step spikes2 ns2 l2 Hd2 ns2' l2' H2) as (_ & _ & X2 & _).
  destruct (nth_error ns j) as [n|] eqn:E; [|apply nth_error_None in E; lia].
  destruct (X j n E) as (n' & c' & E1 & N1 & C1). destruct (X2 j n En) as (n2' & c2' & E2 & N2 & C2).
  change (connected j l2 = connected j l) in El. rewrite El in E2. change (nth_error ns2' j = nth_error ns' j /\ connected j l2' = connected j l').
  assert (Eb : existsb (Nat.eqb j) spikes = existsb (Nat.eqb j) spikes2).
  { rewrite <- !existsb_In in Hs. destruct (existsb _ spikes), (existsb _ spikes2); auto; [symmetry|]; apply Hs; reflexivity. }
  rewrite Eb in E1. rewrite E1 in E2. injection E2 as -> ->. split; congruence.
Qed.
Lemma train_idle damp step spikes ns l ns' l' j n : NoDup spikes -> train damp step spikes (ns, l) = (ns', l') ->
  nth_error ns j = Some n -> ~ In j spikes -> tn_dopa n == 0 -> Qabs (tn_free n) < tn_thr n ->
  nth_error ns' j = Some n /\ own j l' = own j l.
Proof.
  intros Hd H En Hs Hq Hf. destruct (train_at damp step spikes ns l Hd ns' l' H) as (_ & _ & X & _).
  destruct (X j n En) as (n' & c' & E1 & N1 & C1). rewrite <- existsb_In in Hs. apply Bool.not_true_is_false in Hs. rewrite Hs in E1.
  unfold train_neuron in E1. unfold dopamine_neuron in E1.
  assert (Ed : dopamine_acts n = false).
  { unfold dopamine_acts. assert (A : Qle_bool (tn_dopa n) 0 = true) by (apply Qle_bool_iff; lra).
    assert (B : Qle_bool 0 (tn_dopa n) = true) by (apply Qle_bool_iff; lra). now rewrite A, B. }
  rewrite Ed in E1. unfold renorm_neuron in E1.
  assert (Er : renorm_acts step n = false).
  { unfold renorm_acts. assert (A : Qle_bool (tn_thr n) (Qabs (tn_free n)) = false).
    { apply Bool.not_true_is_false. rewrite Qle_bool_iff. lra. } rewrite A. apply Bool.andb_false_r. }
  rewrite Er in E1. injection E1 as <- <-. rewrite !own_connected. auto.
Qed.
Lemma forced_punished damp step i n l : tn_status n = is_forced -> tn_dopa n < 0 -> dopamine_neuron damp step i n l = (n, l).
Proof.
  intros Hs Hq. unfold dopamine_neuron.
  assert (E : dopamine_acts n = false).
  { unfold dopamine_acts. assert (A : Qle_bool (tn_dopa n) 0 = true) by (apply Qle_bool_iff; lra). rewrite A, Hs. cbn [isi_eqb negb orb]. apply Bool.andb_false_r. }
  now rewrite E.
Qed.

(** ** Stability *)
Lemma factor_late step first isi_max : (0 < isi_max)%N -> (isi_max < 2 ^ 32)%N -> (step < two64)%N -> (first + isi_max <= step)%N ->
  stability_factor step first isi_max == documented_factor (step - first) isi_max.
Proof.
  intros H0 H1 H2 H3. unfold stability_factor, documented_factor.
  rewrite (sub64_le step first) by (change two64 with 18446744073709551616%N in *; lia). rewrite sub64_le by (change two64 with 18446744073709551616%N in *; lia).
  replace (Z.abs (Z.of_N (step - first) - Z.of_N isi_max)) with (Z.of_N (step - first - isi_max)) by lia.
  cbn zeta. unfold Qmax'. reflexivity.
Qed.
Lemma factor_early step first isi_max : (isi_max < 2 ^ 32)%N -> (step < two64)%N -> (first <= step)%N -> (step < first + isi_max)%N ->
  stability_factor step first isi_max == -1 /\ 1 <= documented_factor (step - first) isi_max.
Proof.
  intros H1 H2 H3 H4. change (2 ^ 32)%N with 4294967296%N in H1. change two64 with 18446744073709551616%N in *.
  assert (Hm : 0 < inject_Z (Z.of_N isi_max)) by (rewrite <- (Zlt_Qlt 0); lia). split.
  - unfold stability_factor. rewrite (sub64_le step first) by (change two64 with 18446744073709551616%N in *; lia).
    rewrite sub64_gt by (change two64 with 18446744073709551616%N in *; lia). change two64 with 18446744073709551616%N.
    set (x := inject_Z (Z.of_N (step - first + 18446744073709551616 - isi_max))).
    assert (Hx : 3 <= x / inject_Z (Z.of_N isi_max)).
    { apply Qle_shift_div_l; [exact Hm|]. unfold x. change 3 with (inject_Z 3). rewrite <- inject_Z_mult, <- Zle_Qle. lia. }
    unfold Qmax'. assert (E : Qle_bool (2 - x / inject_Z (Z.of_N isi_max)) (-1) = true) by (apply Qle_bool_iff; lra). now rewrite E.
  - unfold documented_factor. set (x := inject_Z (Z.abs (Z.of_N (step - first) - Z.of_N isi_max))).
    assert (Hx : x / inject_Z (Z.of_N isi_max) <= 1).
    { apply Qle_shift_div_r; [exact Hm|]. unfold x. rewrite Qmult_1_l, <- Zle_Qle. lia. }
    cbn zeta. assert (E : Qle_bool (2 - x / inject_Z (Z.of_N isi_max)) (-1) = false) by (apply Bool.not_true_is_false; rewrite Qle_bool_iff; lra).
    rewrite E. lra.
Qed.
Lemma punished_stability step n : tn_dopa n < 0 \/ tn_forced n = true -> 0 <= tn_stab (stability_change step n).
Proof.
  intros H. unfold stability_change.
  assert (E : tn_forced n || negb (Qle_bool 0 (tn_dopa n)) = true).
  { destruct H as [H|H]; [|now rewrite H]. assert (A : Qle_bool 0 (tn_dopa n) = false) by (apply Bool.not_true_is_false; rewrite Qle_bool_iff; lra).
    rewrite A. apply Bool.orb_true_r. }
  rewrite E. cbn [set_stab tn_stab]. apply Qmax'_r.
Qed.
