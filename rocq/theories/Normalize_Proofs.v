(** Proofs about the rescaler, through the real numbers. *)
From Verif Require Import Base FloatReal Normalize_Model.
From Coq Require Import Reals Psatz.
From Flocq Require Import Core IEEE754.BinarySingleNaN Relative Plus_error.

Section R.
Variable prec emax : Z.
Context (Hprec : Prec_gt_0 prec) (Hmax : Prec_lt_emax prec emax).
Notation fexp := (SpecFloat.fexp prec emax).
Notation bf := (binary_float prec emax).
Notation rnd := (round radix2 fexp (round_mode mode_NE)).
Notation v := (SF2R radix2).
Notation fin := (fin prec emax).

(** Results that are finite are the rounded exact ones. *)
Lemma Rlt_bool_cases x y : Rlt_bool x y = true \/ Rlt_bool x y = false.
Proof. destruct (Rlt_bool x y); auto. Qed.
Lemma overflow_not_finite (b : bf) s : B2SF b = binary_overflow prec emax mode_NE s -> Base.is_finite (B2SF b) = false.
Proof. intros ->. reflexivity. Qed.
Lemma add_fin x y : fin x -> fin y -> Base.is_finite (SFadd prec emax x y) = true -> fin (SFadd prec emax x y) /\ v (SFadd prec emax x y) = rnd (v x + v y).
Proof.
  intros Hx Hy Hf. destruct (fin_B _ _ x Hx) as (a & <- & Fa & Ra), (fin_B _ _ y Hy) as (b & <- & Fb & Rb).
  rewrite (add_equiv _ _ Hprec Hmax) in *. pose proof (Bplus_correct prec emax Hprec Hmax mode_NE a b Fa Fb) as C. rewrite <- Ra, <- Rb.
  destruct (Rlt_bool_cases (Rabs (rnd (B2R a + B2R b))) (bpow radix2 emax)) as [E|E]; rewrite E in C.
  - destruct C as (C1 & C2 & _). destruct (B_fin _ _ _ C2) as [D1 D2]. split; [exact D1|]. now rewrite D2.
  - destruct C as [C _]. apply overflow_not_finite in C. congruence.
Qed.
Lemma sub_fin x y : fin x -> fin y -> Base.is_finite (SFsub prec emax x y) = true -> fin (SFsub prec emax x y) /\ v (SFsub prec emax x y) = rnd (v x - v y).
Proof.
  intros Hx Hy Hf. destruct (fin_B _ _ x Hx) as (a & <- & Fa & Ra), (fin_B _ _ y Hy) as (b & <- & Fb & Rb).
  rewrite (sub_equiv _ _ Hprec Hmax) in *. pose proof (Bminus_correct prec emax Hprec Hmax mode_NE a b Fa Fb) as C. rewrite <- Ra, <- Rb.
  destruct (Rlt_bool_cases (Rabs (rnd (B2R a - B2R b))) (bpow radix2 emax)) as [E|E]; rewrite E in C.
  - destruct C as (C1 & C2 & _). destruct (B_fin _ _ _ C2) as [D1 D2]. split; [exact D1|]. now rewrite D2.
  - destruct C as [C _]. apply overflow_not_finite in C. congruence.
Qed.
Lemma mul_fin x y : fin x -> fin y -> Base.is_finite (SFmul prec emax x y) = true -> fin (SFmul prec emax x y) /\ v (SFmul prec emax x y) = rnd (v x * v y).
Proof.
  intros Hx Hy Hf. destruct (fin_B _ _ x Hx) as (a & <- & Fa & Ra), (fin_B _ _ y Hy) as (b & <- & Fb & Rb).
  rewrite (mul_equiv _ _ Hprec Hmax) in *. pose proof (Bmult_correct prec emax Hprec Hmax mode_NE a b) as C. rewrite <- Ra, <- Rb.
  destruct (Rlt_bool_cases (Rabs (rnd (B2R a * B2R b))) (bpow radix2 emax)) as [E|E]; rewrite E in C.
  - destruct C as (C1 & C2 & _). rewrite Fa, Fb in C2. destruct (B_fin _ _ _ C2) as [D1 D2]. split; [exact D1|]. now rewrite D2.
  - apply overflow_not_finite in C. congruence.
Qed.
Lemma div_fin x y : fin x -> fin y -> v y <> 0%R -> Base.is_finite (SFdiv prec emax x y) = true -> fin (SFdiv prec emax x y) /\ v (SFdiv prec emax x y) = rnd (v x / v y).
Proof.
  intros Hx Hy Hn Hf. destruct (fin_B _ _ x Hx) as (a & <- & Fa & Ra), (fin_B _ _ y Hy) as (b & <- & Fb & Rb).
  rewrite (div_equiv _ _ Hprec Hmax) in *. rewrite <- Rb in Hn. pose proof (Bdiv_correct prec emax Hprec Hmax mode_NE a b Hn) as C. rewrite <- Ra, <- Rb.
  destruct (Rlt_bool_cases (Rabs (rnd (B2R a / B2R b))) (bpow radix2 emax)) as [E|E]; rewrite E in C.
  - destruct C as (C1 & C2 & _). rewrite Fa in C2. destruct (B_fin _ _ _ C2) as [D1 D2]. split; [exact D1|]. now rewrite D2.
  - apply overflow_not_finite in C. congruence.
Qed.
(** A finite result has finite operands. *)
Lemma add_fin_r x y : Base.is_finite x = true -> Base.is_finite (SFadd prec emax x y) = true -> Base.is_finite y = true.
Proof. destruct x, y; cbn; try congruence; auto. Qed.
Lemma mul_fin_l x y : Base.is_finite (SFmul prec emax x y) = true -> Base.is_finite x = true /\ Base.is_finite y = true.
Proof. destruct x, y; cbn; try congruence; auto. Qed.
Lemma div_fin_l x y : Base.is_finite (SFdiv prec emax x y) = true -> Base.is_finite x = true.
Proof. destruct x, y; cbn; try congruence; auto. Qed.

(** ** The rescaler *)
Variables a b c d : flt.
Hypothesis (Fa : fin a) (Fb : fin b) (Fc : fin c) (Fd : fin d).
Hypothesis (Hab : (v a < v b)%R) (Hcd : (v c <= v d)%R).
Hypothesis HI : Base.is_finite (SFsub prec emax b a) = true.
Notation r := (rescaler_new prec emax a b c d).
Notation rs := (rescale prec emax r).
Let I' := SFsub prec emax b a.
Let D' := SFsub prec emax d c.
Let q := SFdiv prec emax D' I'.

Lemma rnd_0 : rnd 0 = 0%R.
Proof. apply round_0, (valid_rnd_round_mode mode_NE). Qed.
Lemma rnd_nonneg x : (0 <= x)%R -> (0 <= rnd x)%R.
Proof. intros. apply (rnd_ge_format prec emax Hprec); [apply generic_format_0|assumption]. Qed.
Lemma sub_pos : (0 < rnd (v b - v a))%R.
Proof.
  assert (N : rnd (v b - v a) <> 0%R).
  { unfold Rminus. apply round_plus_neq_0; try (now apply fin_format); try (apply generic_format_opp; now apply fin_format); try lra; try (apply (valid_rnd_round_mode mode_NE)); try (apply (fexp_correct prec emax Hprec)).
    all: try (apply (fexp_monotone prec emax)); apply monotone_exp_not_FTZ; [apply (fexp_correct prec emax Hprec)|apply (fexp_monotone prec emax)]. }
  pose proof (rnd_nonneg (v b - v a) ltac:(lra)). lra.
Qed.
(** All intermediate results, when the result is finite. *)
Lemma rescale_parts x : fin x -> Base.is_finite (rs x) = true ->
  (0 < v I')%R /\ v I' = rnd (v b - v a) /\ v D' = rnd (v d - v c) /\ (0 <= v D')%R /\ v q = rnd (v D' / v I') /\ (0 <= v q)%R /\
  v (rs x) = rnd (v c + rnd (rnd (v x - v a) * v q)) /\ fin (rs x).
Proof.
  intros Fx F. unfold rescale, rescaler_new in F |- *. cbn [rs_out_start rs_in_start rs_ratio] in *. fold I' D' q in F |- *.
  pose proof (add_fin_r _ _ (proj2 Fc) F) as F1. destruct (mul_fin_l _ _ F1) as [F2 F3]. pose proof (div_fin_l _ _ F3) as F4.
  destruct (sub_fin b a Fb Fa HI) as [G1 V1]. destruct (sub_fin d c Fd Fc F4) as [G2 V2]. destruct (sub_fin x a Fx Fa F2) as [G3 V3].
  fold I' in G1, V1. fold D' in G2, V2. pose proof sub_pos as P. rewrite <- V1 in P.
  destruct (div_fin D' I' G2 G1 ltac:(lra) F3) as [G4 V4]. fold q in G4, V4. destruct (mul_fin _ _ G3 G4 F1) as [G5 V5]. destruct (add_fin _ _ Fc G5 F) as [G6 V6].
  assert (Z2 : (0 <= v D')%R) by (rewrite V2; apply rnd_nonneg; lra).
  repeat split; auto; try apply G6.
  - rewrite V4. apply rnd_nonneg. apply Rmult_le_pos; [exact Z2|]. left. now apply Rinv_0_lt_compat.
  - now rewrite V6, V5, V3.
Qed.
Lemma rescale_mono x y : fin x -> fin y -> Base.is_finite (rs x) = true -> Base.is_finite (rs y) = true -> (v x <= v y)%R -> (v (rs x) <= v (rs y))%R.
Proof.
  intros Fx Fy Hx Hy L. destruct (rescale_parts x Fx Hx) as (_ & _ & _ & _ & _ & Q & Ex & _). destruct (rescale_parts y Fy Hy) as (_ & _ & _ & _ & _ & _ & Ey & _).
  rewrite Ex, Ey. apply (rnd_le prec emax Hprec). apply Rplus_le_compat_l. apply (rnd_le prec emax Hprec). apply Rmult_le_compat_r; [exact Q|]. apply (rnd_le prec emax Hprec). lra.
Qed.
Lemma rescale_start : Base.is_finite (rs a) = true -> v (rs a) = v c.
Proof.
  intros H. destruct (rescale_parts a Fa H) as (_ & _ & _ & _ & _ & _ & E & _). rewrite E, Rminus_diag_eq, rnd_0, Rmult_0_l, rnd_0, Rplus_0_r by reflexivity.
  apply round_generic; [apply (valid_rnd_round_mode mode_NE)|]. now apply fin_format.
Qed.
Lemma rescale_low x : fin x -> Base.is_finite (rs x) = true -> (v a <= v x)%R -> (v c <= v (rs x))%R.
Proof.
  intros Fx H L. destruct (rescale_parts x Fx H) as (_ & _ & _ & _ & _ & Q & E & _). rewrite E. apply (rnd_ge_format prec emax Hprec); [now apply fin_format|].
  assert (0 <= rnd (rnd (v x - v a) * v q))%R; [|lra]. apply rnd_nonneg, Rmult_le_pos; [apply rnd_nonneg; lra|exact Q].
Qed.

(** ** Accuracy *)
Notation u := (/ 2 * bpow radix2 (- prec + 1))%R.
Notation eta := (/ 2 * bpow radix2 (3 - emax - prec))%R.
Lemma plus_err x y : generic_format radix2 fexp x -> generic_format radix2 fexp y -> exists e, (Rabs e <= u)%R /\ rnd (x + y) = ((x + y) * (1 + e))%R.
Proof.
  intros X Y. destruct (FLT_plus_error_N_ex radix2 (3 - emax - prec) prec (fun x => negb (Z.even x)) x y X Y) as (e & B & E).
  exists e. split; [|exact E]. pose proof (u_rod1pu_ro_le_u_ro radix2 prec) as U. unfold u_ro in *. eapply Rle_trans; [exact B|exact U].
Qed.
Lemma any_err x : exists e n, (Rabs e <= u)%R /\ (Rabs n <= eta)%R /\ rnd x = (x * (1 + e) + n)%R.
Proof.
  destruct (error_N_FLT radix2 (3 - emax - prec) prec Hprec (fun x => negb (Z.even x)) x) as (e & n & B1 & B2 & _ & E).
  exists e, n. auto.
Qed.

Hypothesis Hp4 : (4 <= prec)%Z.
Lemma u_small : (0 < u <= / 16)%R.
Proof.
  split; [pose proof (bpow_gt_0 radix2 (- prec + 1)); lra|]. assert (bpow radix2 (- prec + 1) <= bpow radix2 (-3))%R by (apply bpow_le; lia).
  change (bpow radix2 (-3)) with (/ 8)%R in H. lra.
Qed.
Lemma eta_pos : (0 < eta)%R.
Proof. pose proof (bpow_gt_0 radix2 (3 - emax - prec)). lra. Qed.
Lemma K_bound t e1 e2 e3 e4 e5 : (0 < t <= / 16)%R -> (Rabs e1 <= t)%R -> (Rabs e2 <= t)%R -> (Rabs e3 <= t)%R -> (Rabs e4 <= t)%R -> (Rabs e5 <= t)%R ->
  (Rabs ((1 + e1) * (1 + e2) * (1 + e4) * (1 + e5) / (1 + e3) - 1) <= 6 * t)%R.
Proof.
  intros [U0 U1] B1 B2 B3 B4 B5.
  assert (St : forall A e al, (0 <= al)%R -> (Rabs (A - 1) <= al)%R -> (Rabs e <= t)%R -> (Rabs (A * (1 + e) - 1) <= al + t + al * / 16)%R).
  { intros A e al P HA He. replace (A * (1 + e) - 1)%R with ((A - 1) + e + (A - 1) * e)%R by ring.
    eapply Rle_trans; [apply Rabs_triang|]. eapply Rle_trans; [apply Rplus_le_compat_r, Rabs_triang|]. rewrite Rabs_mult.
    assert (Rabs (A - 1) * Rabs e <= al * / 16)%R by (apply Rmult_le_compat; auto using Rabs_pos; lra). lra. }
  assert (A1 : (Rabs (1 + e1 - 1) <= t)%R) by (replace (1 + e1 - 1)%R with e1 by ring; exact B1).
  pose proof (St _ e2 _ (Rlt_le _ _ U0) A1 B2) as A2.
  assert (H2 : (0 <= t + t + t * / 16)%R) by lra. pose proof (St _ e4 _ H2 A2 B4) as A3.
  assert (H3 : (0 <= t + t + t * / 16 + t + (t + t + t * / 16) * / 16)%R) by lra. pose proof (St _ e5 _ H3 A3 B5) as A4.
  apply Rabs_le_inv in B3. set (P := ((1 + e1) * (1 + e2) * (1 + e4) * (1 + e5))%R) in *.
  replace (P / (1 + e3) - 1)%R with ((P - 1 - e3) * / (1 + e3))%R by (field; lra).
  rewrite Rabs_mult, (Rabs_right (/ (1 + e3))) by (left; apply Rinv_0_lt_compat; lra).
  apply Rmult_le_reg_r with (1 + e3)%R; [lra|]. rewrite Rmult_assoc, Rinv_l, Rmult_1_r by lra.
  assert (Rabs (P - 1 - e3) <= Rabs (P - 1) + t)%R by (unfold Rabs in *; destruct (Rcase_abs (P - 1 - e3)), (Rcase_abs (P - 1)); lra).
  nra.
Qed.
Lemma rescale_accuracy x : fin x -> Base.is_finite (rs x) = true -> (v a <= v x <= v b)%R ->
  (Rabs (v (rs x) - (v c + (v x - v a) * ((v d - v c) / (v b - v a)))) <= 8 * u * (Rabs (v c) + Rabs (v d)) + 4 * eta * (1 + (v b - v a)))%R.
Proof.
  intros Fx H L. destruct (rescale_parts x Fx H) as (PI & VI & VD & PD & VQ & PQ & E & _). rewrite E.
  pose proof u_small as U. pose proof eta_pos as N.
  assert (FO : forall y, fin y -> generic_format radix2 fexp (- v y)) by (intros; apply generic_format_opp; now apply fin_format).
  destruct (plus_err (v d) (- v c) (fin_format _ _ d Fd) (FO c Fc)) as (e1 & B1 & E1).
  destruct (plus_err (v x) (- v a) (fin_format _ _ x Fx) (FO a Fa)) as (e2 & B2 & E2).
  destruct (plus_err (v b) (- v a) (fin_format _ _ b Fb) (FO a Fa)) as (e3 & B3 & E3).
  destruct (any_err (v D' / v I')) as (e4 & n4 & B4 & M4 & E4).
  destruct (any_err (rnd (v x - v a) * v q)) as (e5 & n5 & B5 & M5 & E5).
  destruct (plus_err (v c) (rnd (rnd (v x - v a) * v q)) (fin_format _ _ c Fc)) as (e6 & B6 & E6); [apply generic_format_round; [apply (fexp_correct prec emax Hprec)|apply (valid_rnd_round_mode mode_NE)]|].
  rewrite E6. rewrite E5. rewrite VQ, E4, VI, VD. unfold Rminus in *. rewrite E1, E2, E3. clear E E1 E2 E3 E4 E5 E6 VI VD VQ H.
  pose proof (K_bound _ _ _ _ _ _ U B1 B2 B3 B4 B5) as KB.
  remember u as t eqn:Et. remember eta as n eqn:En. remember (v x + - v a)%R as X. remember (v b + - v a)%R as I. remember (v d + - v c)%R as D.
  assert (HX : (0 <= X <= I)%R) by (subst; lra). assert (PI' : (0 < I)%R) by (subst; lra). assert (PD' : (0 <= D)%R) by (subst; lra).
  assert (Q3 : (1 + e3 <> 0)%R) by (apply Rabs_le_inv in B3; lra).
  remember ((1 + e1) * (1 + e2) * (1 + e4) * (1 + e5) / (1 + e3))%R as K.
  remember (X * (D / I))%R as T.
  assert (HT : (0 <= T <= D)%R).
  { subst T. assert (0 <= X / I <= 1)%R. { split; [apply Rmult_le_pos; [lra|left; now apply Rinv_0_lt_compat]|]. apply Rmult_le_reg_r with I; [lra|]. unfold Rdiv. rewrite Rmult_assoc, Rinv_l; lra. }
    replace (X * (D / I))%R with ((X / I) * D)%R by (field; lra). split; [apply Rmult_le_pos; lra|]. rewrite <- (Rmult_1_l D) at 2. apply Rmult_le_compat_r; lra. }
  remember (X * (1 + e2) * (1 + e5) * n4 + n5)%R as W.
  replace (X * (1 + e2) * (D * (1 + e1) / (I * (1 + e3)) * (1 + e4) + n4) * (1 + e5) + n5)%R with (T * K + W)%R by (subst K T W; field; split; lra).
  assert (HW : (Rabs W <= 2 * n * (1 + I))%R).
  { subst W. eapply Rle_trans; [apply Rabs_triang|]. rewrite !Rabs_mult.
    assert (Y : forall e, (Rabs e <= t)%R -> (Rabs (1 + e) <= 17 / 16)%R) by (intros e He; apply Rabs_le_inv in He; apply Rabs_le; lra).
    assert (Rabs X * Rabs (1 + e2) * Rabs (1 + e5) * Rabs n4 <= I * (17 / 16) * (17 / 16) * n)%R.
    { apply Rmult_le_compat; auto using Rabs_pos; [repeat apply Rmult_le_pos; apply Rabs_pos|]. apply Rmult_le_compat; auto using Rabs_pos; [repeat apply Rmult_le_pos; apply Rabs_pos|]. apply Rmult_le_compat; auto using Rabs_pos. rewrite Rabs_right; lra. }
    assert (0 <= I * n)%R by (apply Rmult_le_pos; lra). lra. }
  assert (HS : (D <= Rabs (v c) + Rabs (v d))%R /\ (Rabs (v c + T) <= Rabs (v c) + Rabs (v d))%R).
  { assert (v c + T <= v d)%R by (subst D; lra). subst D. unfold Rabs in *. destruct (Rcase_abs (v c)), (Rcase_abs (v d)), (Rcase_abs (v c + T)); lra. }
  replace ((v c + (T * K + W)) * (1 + e6) + - (v c + T))%R with ((T * (K - 1) + W) * (1 + e6) + e6 * (v c + T))%R by ring.
  eapply Rle_trans; [apply Rabs_triang|]. rewrite !Rabs_mult.
  assert (Z1 : (Rabs (T * (K - 1) + W) <= D * (6 * t) + 2 * n * (1 + I))%R).
  { eapply Rle_trans; [apply Rabs_triang|]. rewrite Rabs_mult. apply Rplus_le_compat; [|exact HW]. apply Rmult_le_compat; auto using Rabs_pos. rewrite Rabs_right; lra. }
  assert (Z2 : (Rabs (1 + e6) <= 17 / 16)%R) by (apply Rabs_le_inv in B6; apply Rabs_le; lra).
  assert (Z3 : (Rabs (T * (K - 1) + W) * Rabs (1 + e6) <= (D * (6 * t) + 2 * n * (1 + I)) * (17 / 16))%R) by (apply Rmult_le_compat; auto using Rabs_pos).
  assert (Z4 : (Rabs e6 * Rabs (v c + T) <= t * (Rabs (v c) + Rabs (v d)))%R) by (apply Rmult_le_compat; auto using Rabs_pos; apply HS).
  assert (Z5 : (D * t <= (Rabs (v c) + Rabs (v d)) * t)%R) by (apply Rmult_le_compat_r; [lra|apply HS]).
  assert (Z6 : (0 <= n * (1 + I))%R) by (apply Rmult_le_pos; lra). 
  assert (Z7 : (0 <= (Rabs (v c) + Rabs (v d)) * t)%R) by (apply Rmult_le_pos; [pose proof (Rabs_pos (v c)); pose proof (Rabs_pos (v d)); lra|lra]).
  nra.
Qed.
End R.
