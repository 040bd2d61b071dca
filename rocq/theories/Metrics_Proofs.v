(** Proofs about the metrics of inference results, through real numbers. *)
From Verif Require Import Base FloatReal FloatInt Classify_Model.
From Coq Require Import Reals Psatz.
From Flocq Require Import Core IEEE754.BinarySingleNaN.

Notation fx := (SpecFloat.fexp 24 128).
Notation rn := (round radix2 fx (round_mode mode_NE)).
Notation val := (SF2R radix2).
Local Instance P24 : Prec_gt_0 24 := eq_refl.
Local Instance E128 : Prec_lt_emax 24 128 := eq_refl.
Notation fin32 := (fin 24 128).

Lemma fmt_Z z : (Z.abs z <= 2 ^ 24)%Z -> generic_format radix2 fx (IZR z).
Proof.
  intros H. change fx with (FLT_exp (-149) 24). destruct (Z.eq_dec (Z.abs z) (2 ^ 24)) as [E|E].
  - apply generic_format_abs_inv. rewrite <- abs_IZR, E. change (IZR (2 ^ 24)) with (IZR (Zpower radix2 24)). rewrite IZR_Zpower by lia.
    apply generic_format_bpow. unfold FLT_exp. lia.
  - apply generic_format_FLT. exists (Float radix2 z 0); cbn [Fnum Fexp]; [unfold F2R; simpl; ring|change (Zpower radix2 24) with (2 ^ 24)%Z; lia|lia].
Qed.
Lemma fmt_bpow e : (-149 <= e)%Z -> generic_format radix2 fx (bpow radix2 e).
Proof. intros H. change fx with (FLT_exp (-149) 24). apply generic_format_bpow. unfold FLT_exp. lia. Qed.
Lemma small_bounded r : (Rabs r <= bpow radix2 64)%R -> bounded_R 128 r.
Proof. intros H. unfold bounded_R. eapply Rle_lt_trans; [exact H|]. apply bpow_lt. lia. Qed.
Lemma rn_abs r e : (-149 <= e)%Z -> (Rabs r <= bpow radix2 e)%R -> (Rabs (rn r) <= bpow radix2 e)%R.
Proof.
  intros He H. apply Rabs_le. apply Rabs_def2b in H || idtac.
  assert (H' : (- bpow radix2 e <= r <= bpow radix2 e)%R) by (apply Rabs_le_inv in H || idtac; split; [|]; destruct (Rcase_abs r); unfold Rabs in H; destruct (Rcase_abs r); lra).
  split; [apply (rnd_ge_format 24 128 P24); [apply generic_format_opp, fmt_bpow, He|lra]|apply (rnd_le_format 24 128 P24); [apply fmt_bpow, He|lra]].
Qed.
(** A size converted to [float]. *)
Lemma f_size_real n : (n < two64)%N -> fin32 (f_size n) /\ val (f_size n) = rn (IZR (Z.of_N n)).
Proof.
  intros H. change two64 with 18446744073709551616%N in H.
  assert (B : bounded_R 128 (rn (IZR (Z.of_N n)))).
  { apply small_bounded, rn_abs; [lia|]. rewrite <- abs_IZR, <- IZR_Zpower by lia. apply IZR_le. change (Zpower radix2 64) with 18446744073709551616%Z. lia. }
  pose proof (of_Z_real 24 128 P24 E128 (Z.of_N n) B) as C. cbn zeta in C. unfold f_size, f_of_Z. destruct (Z.of_N n); exact C.
Qed.
(** Exact quotients for counts that fit in 24 bits. *)
Lemma f_size_exact n : (n <= 16777216)%N -> val (f_size n) = IZR (Z.of_N n).
Proof.
  intros H. rewrite (proj2 (f_size_real n ltac:(change two64 with 18446744073709551616%N; lia))).
  apply round_generic; [apply (valid_rnd_round_mode mode_NE)|]. apply fmt_Z. change (2 ^ 24)%Z with 16777216%Z. lia.
Qed.
Lemma f_size_pos n : (0 < n)%N -> (n < two64)%N -> (1 <= val (f_size n))%R.
Proof.
  intros H1 H2. rewrite (proj2 (f_size_real n H2)). apply (rnd_ge_format 24 128 P24); [exact (fmt_Z 1 ltac:(lia))|]. apply IZR_le. lia.
Qed.
Lemma f_size_nonneg n : (n < two64)%N -> (0 <= val (f_size n))%R.
Proof.
  intros H2. rewrite (proj2 (f_size_real n H2)). apply (rnd_ge_format 24 128 P24); [apply generic_format_0|]. apply IZR_le. lia.
Qed.
Lemma f_size_le a b : (a <= b)%N -> (b < two64)%N -> (val (f_size a) <= val (f_size b))%R.
Proof.
  intros H1 H2. rewrite (proj2 (f_size_real b H2)), (proj2 (f_size_real a ltac:(lia))). apply (rnd_le 24 128 P24). apply IZR_le. lia.
Qed.
(** Quotient of sizes. *)
Definition unit_range (x : flt) : Prop := fin32 x /\ (0 <= val x <= 1)%R.
Lemma ratio_range a b : (a <= b)%N -> (0 < b)%N -> (b < two64)%N ->
  unit_range (f_div (f_size a) (f_size b)) /\ val (f_div (f_size a) (f_size b)) = rn (val (f_size a) / val (f_size b)).
Proof.
  intros H1 H2 H3. pose proof (f_size_pos b H2 H3) as Hb. pose proof (f_size_nonneg a ltac:(lia)) as Ha. pose proof (f_size_le a b H1 H3) as Hab.
  assert (R0 : (0 <= val (f_size a) / val (f_size b) <= 1)%R).
  { split; [apply Rmult_le_pos; [lra|apply Rlt_le, Rinv_0_lt_compat; lra]|]. apply Rmult_le_reg_r with (val (f_size b)); [lra|]. unfold Rdiv. rewrite Rmult_assoc, Rinv_l by lra. lra. }
  assert (Bd : (0 <= rn (val (f_size a) / val (f_size b)) <= 1)%R).
  { split; [apply (rnd_ge_format 24 128 P24); [apply generic_format_0|lra]|apply (rnd_le_format 24 128 P24); [exact (fmt_Z 1 ltac:(lia))|lra]]. }
  assert (B : bounded_R 128 (rn (val (f_size a) / val (f_size b)))).
  { apply small_bounded. rewrite Rabs_pos_eq by lra. apply Rle_trans with 1%R; [lra|]. change 1%R with (bpow radix2 0). apply bpow_le. lia. }
  destruct (div_real 24 128 P24 E128 (f_size a) (f_size b) (proj1 (f_size_real a ltac:(lia))) (proj1 (f_size_real b H3)) ltac:(lra) B) as [F V].
  split; [|exact V]. split; [exact F|]. unfold f_div. rewrite V. exact Bd.
Qed.
Lemma zero_range : unit_range (S754_zero false).
Proof. split; [now split|]. cbn. lra. Qed.
Lemma unit_range_le x : unit_range x -> f_le (S754_zero false) x = true /\ f_le x one_f = true.
Proof.
  intros [F [H1 H2]]. unfold f_le. split.
  - rewrite (le_real 24 128 _ _ (proj1 zero_range) F). apply Rle_bool_true. cbn. exact H1.
  - rewrite (le_real 24 128 _ one_f F ltac:(now split)). apply Rle_bool_true.
    replace (SF2R radix2 one_f) with 1%R; [exact H2|]. symmetry. exact (f_size_exact 1 ltac:(lia)).
Qed.
Lemma fmt_double x : generic_format radix2 fx x -> generic_format radix2 fx (2 * x).
Proof.
  change fx with (FLT_exp (-149) 24). intros H. apply FLT_format_generic in H; [|exact P24]. destruct H as [[m e] H1 H2 H3]. cbn [Fnum Fexp] in *.
  apply generic_format_FLT. exists (Float radix2 m (e + 1)); cbn [Fnum Fexp]; [|exact H2|lia].
  rewrite H1. unfold F2R. cbn [Fnum Fexp]. rewrite bpow_plus. change (bpow radix2 1) with 2%R. ring.
Qed.
Lemma val_nonzero x : fin32 x -> is_zero x = false -> val x <> 0%R.
Proof.
  intros [V F] H. destruct x as [s|s| |s m e]; try discriminate. cbn. unfold F2R. cbn [Fnum Fexp]. intros K.
  apply Rmult_integral in K as [K|K]; [|pose proof (bpow_gt_0 radix2 e); lra]. apply eq_IZR in K. destruct s; discriminate.
Qed.
Lemma f_score_range p r : unit_range p -> unit_range r -> unit_range (get_f_score p r).
Proof.
  intros [Fp [p0 p1]] [Fr [r0 r1]]. unfold get_f_score. destruct (is_zero (f_mul p r)) eqn:Ez; [apply zero_range|].
  assert (F2 : fin32 two_f /\ val two_f = 2%R) by (split; [now split|exact (f_size_exact 2 ltac:(lia))]).
  destruct F2 as [F2 V2].
  assert (Bone : forall x, (0 <= x <= 2)%R -> (0 <= rn x <= 2)%R).
  { intros x Hx. split; [apply (rnd_ge_format 24 128 P24); [apply generic_format_0|lra]|apply (rnd_le_format 24 128 P24); [exact (fmt_Z 2 ltac:(lia))|lra]]. }
  assert (Bd : forall x, (0 <= x <= 2)%R -> bounded_R 128 (rn x)).
  { intros x Hx. specialize (Bone x Hx). apply small_bounded. rewrite Rabs_pos_eq by lra. apply Rle_trans with 2%R; [lra|]. change 2%R with (bpow radix2 1). apply bpow_le. lia. }
  assert (Hpr : (0 <= val p * val r <= 1)%R) by (split; [nra|nra]).
  destruct (mul_real 24 128 P24 E128 p r Fp Fr (Bd (val p * val r)%R ltac:(lra))) as [F3 V3].
  assert (Hnz : (val p <> 0 /\ val r <> 0)%R).
  { apply (val_nonzero _ F3) in Ez. rewrite V3 in Ez.
    split; intros K; apply Ez; rewrite K, ?Rmult_0_l, ?Rmult_0_r; apply round_0; apply (valid_rnd_round_mode mode_NE). }
  destruct (mul_real 24 128 P24 E128 two_f p F2 Fp ltac:(rewrite V2; apply Bd; lra)) as [F4 V4]. fold (f_mul two_f p) in F4, V4.
  rewrite V2, round_generic in V4 by (try apply (valid_rnd_round_mode mode_NE); apply fmt_double, (fin_format 24 128), Fp).
  assert (H2pr : (0 <= 2 * val p * val r <= 2)%R) by nra.
  destruct (mul_real 24 128 P24 E128 (f_mul two_f p) r F4 Fr ltac:(rewrite V4; apply Bd; lra)) as [F5 V5]. fold (f_mul (f_mul two_f p) r) in F5, V5. rewrite V4 in V5.
  destruct (add_real 24 128 P24 E128 p r Fp Fr (Bd (val p + val r)%R ltac:(lra))) as [F6 V6]. fold (f_add p r) in F6, V6.
  assert (Hsum : (val p <= val (f_add p r))%R).
  { rewrite V6. apply (rnd_ge_format 24 128 P24); [apply (fin_format 24 128), Fp|lra]. }
  assert (Hnum : (0 <= val (f_mul (f_mul two_f p) r) <= val (f_add p r))%R).
  { split; [rewrite V5; apply Bone; exact H2pr|]. rewrite V5, V6. apply (rnd_le 24 128 P24). nra. }
  assert (Hq : (0 <= val (f_mul (f_mul two_f p) r) / val (f_add p r) <= 1)%R).
  { split; [apply Rmult_le_pos; [lra|apply Rlt_le, Rinv_0_lt_compat; lra]|]. apply Rmult_le_reg_r with (val (f_add p r)); [lra|]. unfold Rdiv. rewrite Rmult_assoc, Rinv_l by lra. lra. }
  assert (Bq : (0 <= rn (val (f_mul (f_mul two_f p) r) / val (f_add p r)) <= 1)%R).
  { split; [apply (rnd_ge_format 24 128 P24); [apply generic_format_0|lra]|apply (rnd_le_format 24 128 P24); [exact (fmt_Z 1 ltac:(lia))|lra]]. }
  destruct (div_real 24 128 P24 E128 (f_mul (f_mul two_f p) r) (f_add p r) F5 F6 ltac:(lra) (Bd (val (f_mul (f_mul two_f p) r) / val (f_add p r))%R ltac:(lra))) as [F7 V7].
  split; [exact F7|]. unfold f_div. rewrite V7. exact Bq.
Qed.
