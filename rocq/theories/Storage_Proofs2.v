(** Floating-point facts about stored times; these rest on the axioms of the
    standard library's real numbers. *)
From Verif Require Import Base ListLemmas Messaging_Model Storage_Model FloatReal Metrics_Proofs.
From Coq Require Import Reals Psatz.
From Flocq Require Import Core BinarySingleNaN Relative.

Lemma Z_trunc_real x : Base.is_finite x = true -> Z_trunc x = Some (Ztrunc (val x)).
Proof.
  destruct x as [s| | |s m e]; try discriminate; intros _.
  - cbn. now rewrite Ztrunc_IZR.
  - cbn [Z_trunc SF2R]. f_equal.
    assert (G : Ztrunc (F2R (Float radix2 (Zpos m) e)) = match e with Z0 => Zpos m | Zpos p => (Zpos m * 2 ^ Zpos p)%Z | Zneg p => (Zpos m / 2 ^ Zpos p)%Z end).
    { destruct e as [|p|p]; unfold F2R; cbn [Fnum Fexp].
      - change (bpow radix2 0) with 1%R. rewrite Rmult_1_r. apply Ztrunc_IZR.
      - rewrite <- IZR_Zpower by lia. rewrite <- mult_IZR. apply Ztrunc_IZR.
      - change (Zneg p) with (- Zpos p)%Z. rewrite bpow_opp, <- IZR_Zpower by lia.
        assert (Hp : (0 < 2 ^ Zpos p)%Z) by (apply Z.pow_pos_nonneg; lia).
        change (Zpower radix2 (Zpos p)) with (2 ^ Zpos p)%Z.
        rewrite Ztrunc_floor; [change (IZR (Zpos m) * / IZR (2 ^ Zpos p))%R with (IZR (Zpos m) / IZR (2 ^ Zpos p))%R; apply Zfloor_div; lia|].
        apply Rmult_le_pos; [apply IZR_le; lia|]. left. apply Rinv_0_lt_compat, IZR_lt, Hp. }
    destruct s; cbn [cond_Zopp]; [|now rewrite <- G].
    change (Zneg m) with (- Zpos m)%Z. rewrite F2R_Zopp, Ztrunc_opp, G. reflexivity.
Qed.

Lemma one_fin : fin32 (f_of_Z 1) /\ val (f_of_Z 1) = 1%R.
Proof.
  split; [split; reflexivity|]. change (val (f_of_Z 1)) with (F2R (Float radix2 8388608 (-23))). unfold F2R. cbn [Fnum Fexp].
  change (IZR 8388608) with (IZR (2 ^ 23)). rewrite (IZR_Zpower radix2) by lia. rewrite <- bpow_plus. reflexivity.
Qed.
Lemma of_N_exact t : (t <= 2 ^ 24)%N -> fin32 (f_of_Z (Z.of_N t)) /\ val (f_of_Z (Z.of_N t)) = IZR (Z.of_N t).
Proof.
  intros H. change (2 ^ 24)%N with 16777216%N in H. change (f_of_Z (Z.of_N t)) with (Classify_Model.f_size t).
  destruct (f_size_real t) as [F _]; [change two64 with 18446744073709551616%N; lia|]. split; [exact F|]. now apply f_size_exact.
Qed.
Lemma rn_Z z : (Z.abs z <= 2 ^ 24)%Z -> rn (IZR z) = IZR z.
Proof. intros H. apply round_generic; [apply valid_rnd_round_mode|now apply fmt_Z]. Qed.
Lemma Z_bounded z : (Z.abs z <= 2 ^ 24)%Z -> bounded_R 128 (IZR z).
Proof.
  intros H. apply small_bounded. rewrite <- abs_IZR, <- IZR_Zpower by lia. apply IZR_le. change (Zpower radix2 64) with 18446744073709551616%Z. lia.
Qed.
(** Dividing by 1. *)
Lemma to_step_one x t : (t <= 2 ^ 24)%N -> fin32 x -> val x = IZR (Z.of_N t) -> to_step x (f_of_Z 1) = Ret t.
Proof.
  intros Ht Fx Vx. destruct one_fin as [F1 V1]. unfold to_step, f_div.
  assert (Hz : (Z.abs (Z.of_N t) <= 2 ^ 24)%Z) by (change (2 ^ 24)%N with 16777216%N in Ht; lia).
  destruct (div_real 24 128 P24 E128 x (f_of_Z 1) Fx F1) as [F V].
  - rewrite V1. lra.
  - rewrite Vx, V1. unfold Rdiv. rewrite Rinv_1, Rmult_1_r, rn_Z by exact Hz. now apply Z_bounded.
  - rewrite Z_trunc_real by apply F. rewrite V, Vx, V1. unfold Rdiv. rewrite Rinv_1, Rmult_1_r, rn_Z, Ztrunc_IZR by exact Hz.
    change (2 ^ 24)%N with 16777216%N in Ht. rewrite (proj2 (andb_true_iff _ _)); [now rewrite N2Z.id|]. change two64 with 18446744073709551616%N. split; lia.
Qed.
Lemma h5_step_one t : (t <= 2 ^ 24)%N -> to_step (f_mul (f_of_Z (Z.of_N t)) (f_of_Z 1)) (f_of_Z 1) = Ret t.
Proof.
  intros Ht. destruct (of_N_exact t Ht) as [Ft Vt]. destruct one_fin as [F1 V1].
  assert (Hz : (Z.abs (Z.of_N t) <= 2 ^ 24)%Z) by (change (2 ^ 24)%N with 16777216%N in Ht; lia).
  destruct (mul_real 24 128 P24 E128 (f_of_Z (Z.of_N t)) (f_of_Z 1) Ft F1) as [F V].
  - rewrite Vt, V1, Rmult_1_r, rn_Z by exact Hz. now apply Z_bounded.
  - apply to_step_one; [exact Ht|exact F|]. unfold f_mul. now rewrite V, Vt, V1, Rmult_1_r, rn_Z.
Qed.
Local Instance P53 : Prec_gt_0 53 := eq_refl.
Local Instance E1024 : Prec_lt_emax 53 1024 := eq_refl.
Lemma fmt_Z53 z : (Z.abs z <= 2 ^ 24)%Z -> generic_format radix2 (SpecFloat.fexp 53 1024) (IZR z).
Proof.
  intros H. change (SpecFloat.fexp 53 1024) with (FLT_exp (-1074) 53).
  apply generic_format_FLT. exists (Float radix2 z 0); cbn [Fnum Fexp]; [unfold F2R; simpl; ring|change (Zpower radix2 53) with (2 ^ 53)%Z; lia|lia].
Qed.
Lemma json_step t : (t <= 2 ^ 24)%N -> to_step (f_of_d (d_of_Z (Z.of_N t))) (f_of_Z 1) = Ret t.
Proof.
  intros Ht. assert (Hz : (Z.abs (Z.of_N t) <= 2 ^ 24)%Z) by (change (2 ^ 24)%N with 16777216%N in Ht; lia).
  assert (D : fin 53 1024 (d_of_Z (Z.of_N t)) /\ val (d_of_Z (Z.of_N t)) = IZR (Z.of_N t)).
  { pose proof (of_Z_real 53 1024 P53 E1024 (Z.of_N t)) as C. cbn zeta in C.
    assert (R : round radix2 (SpecFloat.fexp 53 1024) (round_mode mode_NE) (IZR (Z.of_N t)) = IZR (Z.of_N t)) by (apply round_generic; [apply valid_rnd_round_mode|now apply fmt_Z53]).
    rewrite R in C. destruct C as [C1 C2]; [|destruct (Z.of_N t); split; assumption].
    unfold bounded_R. rewrite <- abs_IZR. eapply Rle_lt_trans; [apply IZR_le, Hz|]. change (2 ^ 24)%Z with (Zpower radix2 24). rewrite IZR_Zpower by lia. apply bpow_lt. lia. }
  destruct D as [[Dv Df] DV]. apply to_step_one; [exact Ht| |].
  - destruct (d_of_Z (Z.of_N t)) as [s|s| |s m e] eqn:E; try discriminate; [split; reflexivity|]. unfold f_of_d.
    change (if s then Z.neg m else Z.pos m) with (cond_Zopp s (Zpos m)) in *.
    replace (if s then Z.neg m else Z.pos m) with (cond_Zopp s (Zpos m)) by (destruct s; reflexivity).
    apply (normalize_real 24 128 P24 E128). cbn [SF2R] in DV. rewrite DV, rn_Z by exact Hz. now apply Z_bounded.
  - destruct (d_of_Z (Z.of_N t)) as [s|s| |s m e] eqn:E; try discriminate; [exact DV|]. unfold f_of_d.
    replace (if s then Z.neg m else Z.pos m) with (cond_Zopp s (Zpos m)) by (destruct s; reflexivity).
    cbn [SF2R] in DV.
    destruct (normalize_real 24 128 P24 E128 (cond_Zopp s (Zpos m)) e s) as [_ V].
    + rewrite DV, rn_Z by exact Hz. now apply Z_bounded.
    + rewrite V, DV. now apply rn_Z.
Qed.

(** Other units of time: at most one step is lost. *)
Lemma rel_err r : (bpow radix2 (-126) <= Rabs r)%R -> exists eps, (Rabs eps <= bpow radix2 (-24))%R /\ rn r = (r * (1 + eps))%R.
Proof.
  intros H. change fx with (FLT_exp (-149) 24). destruct (relative_error_N_FLT_ex radix2 (-149) 24 ltac:(lia) (fun x => negb (Z.even x)) r) as (eps & E1 & E2); [exact H|].
  exists eps. split; [|exact E2]. eapply Rle_trans; [exact E1|]. change (-24 + 1)%Z with (-23)%Z.
  change (/ 2)%R with (bpow radix2 (-1)). rewrite <- bpow_plus. right. reflexivity.
Qed.
Lemma h5_step_near t p : (t < 2 ^ 22)%N -> fin32 p -> (bpow radix2 (-60) <= val p <= bpow radix2 60)%R ->
  to_step (f_mul (f_of_Z (Z.of_N t)) p) p = Ret t \/ (0 < t)%N /\ to_step (f_mul (f_of_Z (Z.of_N t)) p) p = Ret (t - 1)%N.
Proof.
  intros Ht Fp [Hlo Hhi]. change (2 ^ 22)%N with 4194304%N in Ht.
  destruct (of_N_exact t) as [Ft Vt]; [change (2 ^ 24)%N with 16777216%N; lia|].
  assert (P0 : (0 < val p)%R) by (eapply Rlt_le_trans; [|exact Hlo]; apply bpow_gt_0).
  destruct (N.eq_dec t 0) as [->|Hn].
  { left. change (f_of_Z (Z.of_N 0)) with (S754_zero false). unfold to_step.
    assert (E : f_div (f_mul (S754_zero false) p) p = S754_zero false \/ f_div (f_mul (S754_zero false) p) p = S754_zero true).
    { unfold f_div, f_mul. destruct Fp as [_ Hf]. destruct p as [s| | |s m e]; try discriminate.
      - cbn in P0. lra.
      - destruct s; cbn; auto. }
    destruct E as [-> | ->]; reflexivity. }
  set (T := IZR (Z.of_N t)) in *. assert (T1 : (1 <= T)%R) by (apply IZR_le; lia). assert (T2 : (T <= 4194303)%R) by (apply IZR_le; lia).
  assert (TB : (T <= bpow radix2 22)%R) by (unfold T; change (bpow radix2 22) with (IZR 4194304); apply IZR_le; lia).
  assert (Lo : (bpow radix2 (-126) <= Rabs (T * val p))%R).
  { rewrite Rabs_pos_eq by (apply Rmult_le_pos; lra). apply Rle_trans with (bpow radix2 (-60)); [apply bpow_le; lia|]. nra. }
  destruct (rel_err (T * val p) Lo) as (e1 & He1 & E1).
  assert (B24 : bpow radix2 (-24) = (/ 16777216)%R) by (change (/ IZR (Z.pow_pos 2 24) = / 16777216)%R; reflexivity).
  rewrite B24 in He1. apply Rabs_le_inv in He1.
  assert (Hx : (Rabs (rn (T * val p)) <= bpow radix2 83)%R).
  { apply rn_abs; [lia|]. rewrite Rabs_pos_eq by (apply Rmult_le_pos; lra). apply Rle_trans with (bpow radix2 22 * bpow radix2 60)%R.
    - apply Rmult_le_compat; lra.
    - rewrite <- bpow_plus. apply bpow_le. lia. }
  destruct (mul_real 24 128 P24 E128 (f_of_Z (Z.of_N t)) p Ft Fp) as [F V].
  { rewrite Vt. fold T. unfold bounded_R. eapply Rle_lt_trans; [exact Hx|]. apply bpow_lt. lia. }
  rewrite Vt in V. fold T in V. fold (f_mul (f_of_Z (Z.of_N t)) p) in F, V.
  assert (Q : (val (f_mul (f_of_Z (Z.of_N t)) p) / val p)%R = (T * (1 + e1))%R).
  { rewrite V, E1. field. lra. }
  assert (Lo2 : (bpow radix2 (-126) <= Rabs (T * (1 + e1)))%R).
  { assert (H0 : (1 / 2 <= T * (1 + e1))%R) by nra. rewrite Rabs_pos_eq by lra. apply Rle_trans with (bpow radix2 (-1)); [apply bpow_le; lia|]. change (bpow radix2 (-1)) with (/ 2)%R. lra. }
  destruct (rel_err (T * (1 + e1)) Lo2) as (e2 & He2 & E2). rewrite B24 in He2. apply Rabs_le_inv in He2.
  assert (U : (T * (1 + e1) <= 4194304)%R) by nra.
  assert (L : (0 <= T * (1 + e1))%R) by nra.
  destruct (div_real 24 128 P24 E128 (f_mul (f_of_Z (Z.of_N t)) p) p F Fp) as [F' V'].
  { lra. }
  { rewrite Q. apply small_bounded. apply rn_abs; [lia|]. rewrite Rabs_pos_eq by exact L. apply Rle_trans with (bpow radix2 22); [change (bpow radix2 22) with 4194304%R; exact U|apply bpow_le; lia]. }
  rewrite Q, E2 in V'. unfold to_step. fold (f_div (f_mul (f_of_Z (Z.of_N t)) p) p) in F', V'. rewrite Z_trunc_real by apply F'. rewrite V'.
  set (Y := (T * (1 + e1) * (1 + e2))%R).
  assert (Y1 : (T - 1 < Y)%R) by (unfold Y; nra). assert (Y2 : (Y < T + 1)%R) by (unfold Y; nra).
  assert (Hf : Ztrunc Y = (Z.of_N t)%Z \/ Ztrunc Y = (Z.of_N t - 1)%Z).
  { rewrite Ztrunc_floor by lra. destruct (Rle_lt_dec T Y) as [H|H].
    - left. apply Zfloor_imp. rewrite plus_IZR. fold T. lra.
    - right. apply Zfloor_imp. rewrite plus_IZR, minus_IZR. fold T. lra. }
  change two64 with 18446744073709551616%N.
  destruct Hf as [-> | ->].
  - left. rewrite (proj2 (andb_true_iff _ _)); [now rewrite N2Z.id|]. split; lia.
  - right. split; [lia|]. rewrite (proj2 (andb_true_iff _ _)); [f_equal; lia|]. split; lia.
Qed.
