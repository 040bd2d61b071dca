(** Floating-point facts about the additive rule; these rest on the axioms of the
    standard library's real numbers. *)
From Verif Require Import Base ListLemmas Messaging_Model Projection_Model Projection_Spec Projection_Proofs Delta_Model Delta_Spec Delta_Proofs Additive_Model Additive_Spec Additive_Proofs FloatReal.
From Coq Require Import Reals Psatz.
From Flocq Require Import Core IEEE754.BinarySingleNaN.

Local Instance Q24 : Prec_gt_0 24 := eq_refl.
Local Instance R128 : Prec_lt_emax 24 128 := eq_refl.
Notation v := (SF2R radix2).
Notation fin32 := (fin 24 128).
Notation bf := (binary_float 24 128).

Lemma nonneg_cases x : non_negative x -> (fin32 x /\ (0 <= v x)%R) \/ x = S754_infinity false.
Proof.
  intros [Hv Hle]. destruct x as [s|[]| |s m e]; try discriminate Hle; [left|right|left]; try reflexivity.
  - split; [now split|]. cbn. lra.
  - assert (F : fin32 (S754_finite s m e)) by now split. split; [exact F|].
    assert (Z0 : fin32 (f_of_Z 0)) by now split.
    unfold f_le in Hle. rewrite (le_real 24 128) in Hle by assumption. revert Hle. case Rle_bool_spec; [|discriminate]. intros H _. exact H.
Qed.
Lemma nonneg_fin x : fin32 x -> (0 <= v x)%R -> non_negative x.
Proof.
  intros F H. split; [apply F|]. unfold f_le. rewrite (le_real 24 128); [|now split|exact F]. apply Rle_bool_true. exact H.
Qed.
Lemma nonneg_inf : non_negative (S754_infinity false).
Proof. split; reflexivity. Qed.

Lemma fin_sign_pos (b : bf) : is_finite b = true -> Bsign b = true -> (B2R b <= 0)%R.
Proof.
  destruct b as [s| | |s m e Hb]; cbn; try discriminate; intros _ ->; [lra|].
  apply F2R_le_0. cbn. lia.
Qed.
Lemma fin_sign_neg (b : bf) : is_finite b = true -> Bsign b = false -> (0 <= B2R b)%R.
Proof.
  destruct b as [s| | |s m e Hb]; cbn; try discriminate; intros _ ->; [lra|].
  apply F2R_ge_0. cbn. lia.
Qed.

(** Adding a non-negative number never makes a number smaller, whatever is lost by
    rounding or overflow. *)
Lemma add_nonneg_ge w d : fin32 w -> non_negative d -> f_le w (f_add w d) = true.
Proof.
  intros Hw Hd. destruct (nonneg_cases d Hd) as [[Fd Pd]| ->].
  - unfold f_add, f_le. destruct (fin_B 24 128 w Hw) as (a & <- & Fa & Ra), (fin_B 24 128 d Fd) as (b & <- & Fb & Rb).
    rewrite (add_equiv 24 128 Q24 R128). rewrite <- Rb in Pd.
    pose proof (Bplus_correct 24 128 Q24 R128 mode_NE a b Fa Fb) as C. revert C. case Rlt_bool_spec; intros Hb C.
    + destruct C as (C1 & C2 & _). fold (Bleb a (Bplus mode_NE a b)). rewrite Bleb_correct by assumption. rewrite C1. apply Rle_bool_true.
      apply round_ge_generic; [apply fexp_correct; exact Q24|apply valid_rnd_round_mode|apply generic_format_B2R|lra].
    + destruct C as (C1 & C2). rewrite C1. destruct (Bsign a) eqn:Sa.
      * exfalso. symmetry in C2. pose proof (fin_sign_pos b Fb C2). pose proof (fin_sign_pos a Fa Sa).
        assert (E0 : B2R b = 0%R) by lra. rewrite E0, Rplus_0_r in Hb. rewrite round_generic in Hb; [|apply valid_rnd_round_mode|apply generic_format_B2R].
        pose proof (abs_B2R_lt_emax 24 128 a). lra.
      * cbn. destruct a as [|[]| |[] m e Hbd]; try discriminate; reflexivity.
  - unfold f_add, f_le. destruct w as [s|[]| |[] m e]; try reflexivity; destruct Hw as [_ Hf]; discriminate.
Qed.
Lemma add_valid a b : valid_binary 24 128 a = true -> valid_binary 24 128 b = true -> valid_binary 24 128 (f_add a b) = true.
Proof.
  intros Ha Hb. unfold f_add. rewrite <- (B2SF_SF2B 24 128 a Ha), <- (B2SF_SF2B 24 128 b Hb), (add_equiv 24 128 Q24 R128). apply valid_binary_B2SF.
Qed.
Lemma f_le_trans0 a b : f_le (f_of_Z 0) a = true -> f_le a b = true -> f_le (f_of_Z 0) b = true.
Proof. destruct a as [|[]| |[] m e], b as [|[]| |[] m' e']; try discriminate; reflexivity. Qed.
Lemma add_nonneg a b : non_negative a -> non_negative b -> non_negative (f_add a b).
Proof.
  intros Ha Hb. split; [apply add_valid; [apply Ha|apply Hb]|].
  destruct (nonneg_cases a Ha) as [[Fa Pa]| ->].
  - eapply f_le_trans0; [apply Ha|]. now apply add_nonneg_ge.
  - destruct Hb as [_ Hb]. destruct b as [|[]| |[] m e]; try discriminate; reflexivity.
Qed.
Lemma mul_one_nonneg y : non_negative y -> non_negative (f_mul (f_of_Z 1) y).
Proof.
  intros Hy. destruct (nonneg_cases y Hy) as [[Fy Py]| ->]; [|split; reflexivity].
  assert (F1 : fin32 (f_of_Z 1)) by (split; reflexivity).
  assert (V1 : v (f_of_Z 1) = 1%R).
  { change (v (f_of_Z 1)) with (F2R (Float radix2 8388608 (-23))). unfold F2R. cbn [Fnum Fexp].
    change (IZR 8388608) with (IZR (2 ^ 23)). rewrite (IZR_Zpower radix2) by lia. rewrite <- bpow_plus. reflexivity. }
  destruct (mul_real 24 128 Q24 R128 (f_of_Z 1) y F1 Fy) as [F E].
  - rewrite V1, Rmult_1_l. rewrite round_generic; [|apply valid_rnd_round_mode|apply (fin_format 24 128 y Fy)]. apply (fin_bound 24 128 y Fy).
  - apply nonneg_fin; [exact F|]. unfold f_mul. rewrite E, V1, Rmult_1_l. rewrite round_generic; [exact Py|apply valid_rnd_round_mode|apply (fin_format 24 128 y Fy)].
Qed.
Lemma div_no_nan x y : fin32 x -> fin32 y -> v y <> 0%R -> valid_binary 24 128 (f_div x y) = true /\ Base.is_nan (f_div x y) = false.
Proof.
  intros Hx Hy Hn. unfold f_div. destruct (fin_B 24 128 x Hx) as (a & <- & Fa & Ra), (fin_B 24 128 y Hy) as (b & <- & Fb & Rb).
  rewrite (div_equiv 24 128 Q24 R128). split; [apply valid_binary_B2SF|].
  pose proof (Bdiv_correct 24 128 Q24 R128 mode_NE a b) as C. rewrite Rb in C. specialize (C Hn). revert C. case Rlt_bool_spec; intros _ C.
  - destruct C as (_ & C2 & _). rewrite Fa in C2. destruct (Bdiv mode_NE a b); try discriminate; reflexivity.
  - rewrite C. reflexivity.
Qed.

(** The difference of two step numbers, as a number. *)
Lemma of_N_fin d : (d < two64)%N -> fin32 (f_of_Z (Z.of_N d)).
Proof.
  intros Hd. destruct (of_Z_real 24 128 Q24 R128 (Z.of_N d)) as [F _]; [|destruct d; exact F].
  assert (H : (Rabs (round radix2 (SpecFloat.fexp 24 128) (round_mode mode_NE) (IZR (Z.of_N d))) <= bpow radix2 64)%R).
  { apply abs_round_le_generic; [apply fexp_correct; exact Q24|apply valid_rnd_round_mode| |].
    - apply generic_format_bpow. vm_compute. discriminate.
    - rewrite Rabs_pos_eq by (apply IZR_le; lia). rewrite <- (IZR_Zpower radix2) by lia. apply IZR_le. change two64 with 18446744073709551616%N in Hd. cbn. lia. }
  unfold bounded_R. eapply Rle_lt_trans; [exact H|]. apply bpow_lt. reflexivity.
Qed.
Lemma sub64_lt a b : (sub64 a b < two64)%N.
Proof. unfold sub64, w64. apply N.mod_lt. discriminate. Qed.

Lemma positive_fin x : positive_float x -> fin32 x /\ (0 < v x)%R.
Proof.
  intros (Hv & Hf & Hl). assert (F : fin32 x) by now split. split; [exact F|].
  unfold f_lt in Hl. rewrite (lt_real 24 128) in Hl; [|now split|exact F]. revert Hl. case Rlt_bool_spec; [|discriminate]. intros H _. exact H.
Qed.
Lemma opp_fin x : fin32 x -> fin32 (SFopp x).
Proof. intros [Hv Hf]. destruct x; try discriminate; split; auto. Qed.
Lemma curve_nonneg expf tp tm d : exp_like expf -> positive_float tp -> positive_float tm -> (d < two64)%N ->
  non_negative (stdp_w expf tp tm (f_of_Z (Z.of_N d))).
Proof.
  intros He Hp Hm Hd. apply positive_fin in Hp as [Fp Pp]. apply positive_fin in Hm as [Fm Pm].
  pose proof (of_N_fin d Hd) as Fd. unfold stdp_w. destruct (f_gt _ _).
  - apply mul_one_nonneg. destruct (div_no_nan (SFopp (f_of_Z (Z.of_N d))) tp) as [H1 H2]; [now apply opp_fin|exact Fp|lra|]. now apply He.
  - apply mul_one_nonneg. destruct (div_no_nan (f_of_Z (Z.of_N d)) tm) as [H1 H2]; [exact Fd|exact Fm|lra|]. now apply He.
Qed.
Lemma pair_sum_nonneg curve pre post : (forall d, (d < two64)%N -> non_negative (curve d)) -> non_negative (pair_sum curve pre post).
Proof.
  intros H. unfold pair_sum. assert (H0 : non_negative (f_of_Z 0)) by (split; reflexivity). revert H0. generalize (f_of_Z 0).
  induction (list_prod pre post) as [|e l IH]; intros w Hw; cbn [fold_left]; [exact Hw|]. apply IH.
  apply add_nonneg; [exact Hw|]. apply H. apply sub64_lt.
Qed.
Lemma f_le_refl w : fin32 w -> f_le w w = true.
Proof. intros F. unfold f_le. rewrite (le_real 24 128) by assumption. apply Rle_bool_true. lra. Qed.
