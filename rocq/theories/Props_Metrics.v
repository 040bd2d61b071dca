(** Property theorems C67: the metrics reported for inference results. *)
From Verif Require Import Base ListLemmas FloatReal FloatInt Classify_Model Metrics_Proofs.
From Coq Require Import Reals Psatz.
From Flocq Require Import Core IEEE754.BinarySingleNaN.

(** *** C67.  [ZERO <= x <= ONE] in the comparison of [float], which a NaN fails. *)
Definition in_unit (x : flt) : Prop := f_le (S754_zero false) x = true /\ f_le x one_f = true.
(** [x] is the real [q] rounded to the nearest [float] (ties to even). *)
Definition rounded (x : flt) (q : R) : Prop := Base.is_finite x = true /\ SF2R radix2 x = round radix2 (SpecFloat.fexp 24 128) ZnearestE q.
Definition count (n : N) : R := IZR (Z.of_N n).

Lemma quotient_unit a b (z : bool) : (a <= b)%N -> (b < two64)%N -> z = N.eqb b 0 ->
  unit_range (if z then S754_zero false else f_div (f_size a) (f_size b)).
Proof.
  intros H1 H2 ->. destruct (N.eqb b 0) eqn:E; [apply zero_range|]. apply ratio_range; [exact H1|lia|exact H2].
Qed.
(** Every metric of a row is a number from 0 to 1. *)
Theorem c67_range label r : (r_tp r + r_fn r + r_fp r + r_tn r < two64)%N ->
  let w := csv_row label r in
  in_unit (w_precision w) /\ in_unit (w_recall w) /\ in_unit (w_prevalence w) /\ in_unit (w_accuracy w) /\ in_unit (w_f_score w).
Proof.
  intros H. destruct r as [tp fn fp tn]. cbn [r_tp r_fn r_fp r_tn] in H. cbn zeta. unfold csv_row. cbn [w_precision w_recall w_prevalence w_accuracy w_f_score r_tp r_fn r_fp r_tn].
  assert (Hp : unit_range (get_precision tp fp)).
  { unfold get_precision, add64, w64. rewrite N.mod_small by lia. apply quotient_unit; [lia|lia|reflexivity]. }
  assert (Hr : unit_range (get_recall tp fp)).
  { unfold get_recall, add64, w64. rewrite N.mod_small by lia. apply quotient_unit; [lia|lia|reflexivity]. }
  assert (T : total tp fn fp tn = (tp + fn + fp + tn)%N).
  { unfold total, add64, w64. rewrite (N.mod_small (tp + fn)) by lia. rewrite (N.mod_small (tp + fn + fp)) by lia. apply N.mod_small. exact H. }
  assert (Hv : unit_range (get_prevalence tp fn fp tn)).
  { unfold get_prevalence. rewrite T. unfold add64, w64. rewrite N.mod_small by lia. apply quotient_unit; [lia|lia|reflexivity]. }
  assert (Ha : unit_range (get_accuracy tp fn fp tn)).
  { unfold get_accuracy. rewrite T. unfold add64, w64. rewrite N.mod_small by lia. apply quotient_unit; [lia|lia|reflexivity]. }
  repeat split; apply unit_range_le; auto using f_score_range.
Qed.
Print Assumptions c67_range.

Lemma quotient_rounded a b : (a <= b)%N -> (0 < b)%N -> (b <= 16777216)%N -> rounded (f_div (f_size a) (f_size b)) (count a / count b).
Proof.
  intros H1 H2 H3. destruct (ratio_range a b H1 H2 ltac:(change two64 with 18446744073709551616%N; lia)) as [[[_ F] _] V].
  split; [exact F|]. rewrite V, !f_size_exact by lia. reflexivity.
Qed.
(** For up to 2^24 votes precision, prevalence and accuracy are the correctly rounded
    quotients of the counts, and zero if there is nothing to divide by. *)
Theorem c67_values label r : (r_tp r + r_fn r + r_fp r + r_tn r <= 16777216)%N ->
  let w := csv_row label r in
  ((0 < r_tp r + r_fp r)%N -> rounded (w_precision w) (count (r_tp r) / count (r_tp r + r_fp r))) /\
  ((0 < r_tp r + r_fn r + r_fp r + r_tn r)%N ->
     rounded (w_prevalence w) (count (r_tp r + r_fn r) / count (r_tp r + r_fn r + r_fp r + r_tn r)) /\
     rounded (w_accuracy w) (count (r_tp r + r_tn r) / count (r_tp r + r_fn r + r_fp r + r_tn r))) /\
  ((r_tp r + r_fp r = 0)%N -> w_precision w = S754_zero false) /\
  ((r_tp r + r_fn r + r_fp r + r_tn r = 0)%N -> w_prevalence w = S754_zero false /\ w_accuracy w = S754_zero false).
Proof.
  intros H. destruct r as [tp fn fp tn]. cbn [r_tp r_fn r_fp r_tn] in *. cbn zeta. unfold csv_row. cbn [w_precision w_recall w_prevalence w_accuracy w_f_score r_tp r_fn r_fp r_tn].
  assert (Hb : (tp + fn + fp + tn < two64)%N) by (change two64 with 18446744073709551616%N; lia).
  assert (T : total tp fn fp tn = (tp + fn + fp + tn)%N).
  { unfold total, add64, w64. rewrite (N.mod_small (tp + fn)) by lia. rewrite (N.mod_small (tp + fn + fp)) by lia. apply N.mod_small. exact Hb. }
  unfold get_precision, get_prevalence, get_accuracy. rewrite T. unfold add64, w64. rewrite (N.mod_small (tp + fp)), (N.mod_small (tp + fn)), (N.mod_small (tp + tn)) by lia.
  split; [intros K; replace (N.eqb (tp + fp) 0) with false by lia; apply quotient_rounded; lia|].
  split; [intros K; replace (N.eqb (tp + fn + fp + tn) 0) with false by lia; split; apply quotient_rounded; lia|].
  split; intros ->; [reflexivity|split; reflexivity].
Qed.
Print Assumptions c67_values.
(** The library's recall is the rounded quotient TP / (TP + FN) ... *)
Theorem c67_get_recall tp fn : (tp + fn <= 16777216)%N -> (0 < tp + fn)%N -> rounded (get_recall tp fn) (count tp / count (tp + fn)).
Proof.
  intros H K. unfold get_recall, add64, w64. rewrite N.mod_small by (change two64 with 18446744073709551616%N; lia). replace (N.eqb (tp + fn) 0) with false by lia.
  apply quotient_rounded; lia.
Qed.
Print Assumptions c67_get_recall.
(** ... but the table reports the precision again in the column of the recall, whatever
    the false negatives are. *)
Theorem c67_recall_is_precision label r : w_recall (csv_row label r) = w_precision (csv_row label r).
Proof. reflexivity. Qed.
Theorem c67_recall_refuted : exists label r, (r_tp r + r_fn r + r_fp r + r_tn r <= 16777216)%N /\
  w_recall (csv_row label r) = one_f /\ get_recall (r_tp r) (r_fn r) = f_div one_f (f_of_Z 2) /\ f_lt (f_div one_f (f_of_Z 2)) one_f = true.
Proof. exists 0%N, (mkRes 1 1 0 0). repeat split; vm_compute; congruence. Qed.
Print Assumptions c67_recall_refuted.
(** The rows: one for each class in order, with the counts of that class; the number of
    votes is the sum of its first three counts. *)
Theorem c67_rows rs i r : nth_error rs i = Some r -> (r_tp r + r_fn r + r_fp r < two64)%N ->
  exists w, nth_error (csv 0 rs) i = Some w /\ w_label w = N.of_nat i /\ w_votes w = (r_tp r + r_fn r + r_fp r)%N /\
    w_tp w = r_tp r /\ w_fn w = r_fn r /\ w_fp w = r_fp r /\ w_tn w = r_tn r.
Proof.
  intros Hi Hb. exists (csv_row (0 + N.of_nat i) r). split.
  - generalize 0%N. clear Hb. revert i Hi. induction rs as [|x rs IH]; intros [|i] Hi l; cbn [csv nth_error] in *; try discriminate.
    + injection Hi as ->. now rewrite N.add_0_r.
    + rewrite (IH i Hi (l + 1)%N). do 2 f_equal. lia.
  - cbn [csv_row w_label w_votes w_tp w_fn w_fp w_tn]. unfold total_votes, w64. rewrite N.mod_small by lia. repeat split.
Qed.
Print Assumptions c67_rows.
Theorem c67_rows_count rs : length (csv 0 rs) = length rs.
Proof. generalize 0%N. induction rs as [|r rs IH]; intros l; [reflexivity|]. cbn [csv length]. now rewrite IH. Qed.
Print Assumptions c67_rows_count.
Example c67_case : let r := mkRes 3 1 1 5 in
  (r_tp r + r_fn r + r_fp r + r_tn r <= 16777216)%N /\
  w_precision (csv_row 0 r) = f_div (f_of_Z 3) (f_of_Z 4) /\ w_accuracy (csv_row 0 r) = f_div (f_of_Z 8) (f_of_Z 10) /\
  map w_label (csv 0 [r; r]) = [0; 1]%N /\ map w_votes (csv 0 [r; r]) = [5; 5]%N.
Proof. split; [vm_compute; congruence|ex_compute]. Qed.
