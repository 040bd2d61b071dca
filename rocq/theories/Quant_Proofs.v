(** Real numbers behind the quantization of the MNIST example. *)
From Verif Require Import Base FloatReal Normalize_Proofs Classify_Model Metrics_Proofs Storage_Proofs2 Additive_Proofs2 Neuron_Model Quant_Model.
From Coq Require Import Reals Psatz.
From Flocq Require Import Core IEEE754.BinarySingleNaN Relative.

Local Instance P24 : Prec_gt_0 24 := eq_refl.
Local Instance E128 : Prec_lt_emax 24 128 := eq_refl.
Local Instance P53 : Prec_gt_0 53 := eq_refl.
Local Instance E1024 : Prec_lt_emax 53 1024 := eq_refl.
Notation fin64 := (fin 53 1024).
Notation rd := (round radix2 (SpecFloat.fexp 53 1024) (round_mode mode_NE)).
(** Nearest whole number, halves away from zero. *)
Notation near := (Znearest (Zle_bool 0)).

Lemma near_nonneg r : (0 <= r)%R -> near r = Zfloor (r + / 2).
Proof.
  intros H. unfold Znearest. pose proof (Zfloor_lb r) as L. pose proof (Zfloor_ub r) as U.
  destruct (Rcompare_spec (r - IZR (Zfloor r)) (/ 2)) as [C|C|C].
  - symmetry. apply Zfloor_imp. rewrite plus_IZR. lra.
  - assert (0 <= Zfloor r)%Z by (apply Zfloor_lub; exact H). rewrite Zle_bool_true by assumption.
    rewrite Zceil_floor_neq by lra. symmetry. apply Zfloor_imp. rewrite !plus_IZR. lra.
  - rewrite Zceil_floor_neq by lra. symmetry. apply Zfloor_imp. rewrite !plus_IZR. lra.
Qed.
Lemma near_opp r : near (- r) = (- near r)%Z.
Proof.
  rewrite Znearest_opp. f_equal.
  unfold Znearest. destruct (Rcompare_spec (r - IZR (Zfloor r)) (/ 2)) as [C|C|C]; try reflexivity.
  replace (negb (0 <=? - (Zfloor r + 1))%Z) with (Zle_bool 0 (Zfloor r)); [reflexivity|].
  unfold Zle_bool. destruct (Zfloor r) as [|p|p] eqn:E; try reflexivity.
  destruct (- (Zneg p + 1))%Z eqn:F; try reflexivity; lia.
Qed.
Lemma near_le a b : (a <= b)%R -> (near a <= near b)%Z.
Proof. apply (Zrnd_le near). Qed.
Lemma near_Z z : near (IZR z) = z.
Proof. apply (Zrnd_IZR near). Qed.

Lemma div_floor a p : (0 <= a)%Z -> ((2 * a + 2 ^ Zpos p) / (2 * 2 ^ Zpos p))%Z = Zfloor (IZR a * bpow radix2 (Zneg p) + / 2).
Proof.
  intros H. set (q := (2 ^ Zpos p)%Z). assert (Q : (0 < q)%Z) by (apply Z.pow_pos_nonneg; lia).
  rewrite <- (Zfloor_div (2 * a + q) (2 * q)) by lia. f_equal.
  replace (bpow radix2 (Z.neg p)) with (/ IZR q)%R by (unfold q; rewrite Z.pow_pos_fold || idtac; reflexivity).
  rewrite !plus_IZR, !mult_IZR. assert (0 < IZR q)%R by (apply IZR_lt; exact Q). field. lra.
Qed.
Lemma f_round_real x : fin32 x -> (Rabs (val x) <= IZR (2 ^ 23))%R -> fin32 (f_round x) /\ val (f_round x) = IZR (near (val x)).
Proof.
  intros Fx B. destruct x as [s|s| |s m e]; try (destruct Fx; discriminate).
  - split; [exact Fx|]. cbn. change 0%R with (IZR 0). now rewrite near_Z.
  - assert (V : val (S754_finite s m e) = F2R (Float radix2 (cond_Zopp s (Zpos m)) e)) by reflexivity.
    destruct e as [|p|p].
    + split; [exact Fx|]. cbn [f_round]. rewrite V. unfold F2R. cbn [Fnum Fexp]. change (bpow radix2 0) with 1%R. rewrite Rmult_1_r. now rewrite near_Z.
    + split; [exact Fx|]. cbn [f_round]. rewrite V. unfold F2R. cbn [Fnum Fexp]. rewrite <- IZR_Zpower by lia. rewrite <- mult_IZR. now rewrite near_Z.
    + cbn [f_round]. rewrite div_floor by lia. set (a := (IZR (Zpos m) * bpow radix2 (Zneg p))%R).
      assert (A : (0 <= a)%R) by (apply Rmult_le_pos; [apply IZR_le; lia|apply bpow_ge_0]).
      assert (Va : val (S754_finite s m (Zneg p)) = if s then (- a)%R else a).
      { rewrite V. unfold F2R, a. cbn [Fnum Fexp]. destruct s; cbn [cond_Zopp]; [rewrite opp_IZR; ring|reflexivity]. }
      rewrite <- near_nonneg by exact A.
      assert (Ba : (a <= IZR (2 ^ 23))%R).
      { rewrite Va in B. destruct s; [rewrite Rabs_Ropp in B|]; rewrite Rabs_pos_eq in B; assumption. }
      assert (N0 : (0 <= near a)%Z) by (pose proof (near_le (IZR 0) a A) as N0; rewrite near_Z in N0; exact N0).
      assert (N1 : (near a <= 2 ^ 23)%Z) by (pose proof (near_le a (IZR (2 ^ 23)) Ba) as N1; rewrite near_Z in N1; exact N1).
      rewrite Va. replace (near (if s then - a else a)) with (cond_Zopp s (near a)) by (destruct s; [rewrite near_opp|]; reflexivity).
      destruct (near a) as [|n|n]; [|clear V Va|lia].
      * split; [split; reflexivity|]. destruct s; reflexivity.
      * assert (Hz : (Z.abs (cond_Zopp s (Zpos n)) <= 2 ^ 24)%Z) by (destruct s; cbn [cond_Zopp]; lia).
        replace (if s then Z.neg n else Z.pos n) with (cond_Zopp s (Zpos n)) by (destruct s; reflexivity).
        assert (F : F2R (Float radix2 (cond_Zopp s (Zpos n)) 0) = IZR (cond_Zopp s (Zpos n))) by (unfold F2R; cbn [Fnum Fexp]; change (bpow radix2 0) with 1%R; ring).
        destruct (normalize_real 24 128 P24 E128 (cond_Zopp s (Zpos n)) 0 s) as [G1 G2].
        -- rewrite F, rn_Z by exact Hz. now apply Z_bounded.
        -- split; [exact G1|]. rewrite G2, F. now apply rn_Z.
Qed.

(** Magnitudes, conversions. *)
Lemma abs_fin x : fin32 x -> fin32 (f_abs x) /\ val (f_abs x) = Rabs (val x).
Proof.
  intros [V F]. destruct x as [s|s| |s m e]; try discriminate; (split; [split; [exact V|reflexivity]|]); cbn; [now rewrite Rabs_R0|].
  rewrite <- F2R_Zabs. now destruct s.
Qed.
Lemma to_u16_inv x n : to_u16 x = Ret n -> Base.is_finite x = true /\ Z.of_N n = Ztrunc (val x) /\ (0 <= Ztrunc (val x) < 65536)%Z.
Proof.
  unfold to_u16. intros H. assert (F : Base.is_finite x = true) by (destruct x; try discriminate; reflexivity). split; [exact F|].
  rewrite Z_trunc_real in H by exact F. destruct (Z.leb_spec 0 (Ztrunc (val x))), (Z.ltb_spec (Ztrunc (val x)) 65536); try discriminate H.
  assert (E : Z.to_N (Ztrunc (val x)) = n) by (injection H; auto). subst n. rewrite Z2N.id by assumption. auto.
Qed.
Lemma to_u16_ok x : Base.is_finite x = true -> (0 <= val x)%R -> (val x < 65536)%R -> to_u16 x = Ret (Z.to_N (Ztrunc (val x))).
Proof.
  intros F L U. unfold to_u16. rewrite Z_trunc_real by exact F.
  rewrite Ztrunc_floor by exact L. assert (0 <= Zfloor (val x))%Z by (apply Zfloor_lub; exact L).
  assert (Zfloor (val x) < 65536)%Z by (apply lt_IZR; pose proof (Zfloor_lb (val x)); lra).
  destruct (Z.leb_spec 0 (Zfloor (val x))), (Z.ltb_spec (Zfloor (val x)) 65536); try lia. reflexivity.
Qed.
Lemma d_of_f_real x : fin32 x -> fin64 (d_of_f x) /\ val (d_of_f x) = val x.
Proof.
  intros Fx. destruct x as [s|s| |s m e]; try (destruct Fx; discriminate); [split; [split; reflexivity|reflexivity]|].
  assert (V : val (S754_finite s m e) = F2R (Float radix2 (cond_Zopp s (Zpos m)) e)) by reflexivity.
  cbn [d_of_f]. replace (if s then Z.neg m else Z.pos m) with (cond_Zopp s (Zpos m)) by (destruct s; reflexivity).
  assert (G : generic_format radix2 (SpecFloat.fexp 53 1024) (F2R (Float radix2 (cond_Zopp s (Zpos m)) e))).
  { rewrite <- V. pose proof (fin_format 24 128 _ Fx) as G. change (SpecFloat.fexp 53 1024) with (FLT_exp (-1074) 53).
    change (SpecFloat.fexp 24 128) with (FLT_exp (-149) 24) in G.
    apply (generic_inclusion_mag radix2 (FLT_exp (-149) 24)); [|exact G]. intros _. unfold FLT_exp. lia. }
  assert (R : rd (F2R (Float radix2 (cond_Zopp s (Zpos m)) e)) = F2R (Float radix2 (cond_Zopp s (Zpos m)) e)) by (apply round_generic; [apply valid_rnd_round_mode|exact G]).
  destruct (normalize_real 53 1024 P53 E1024 (cond_Zopp s (Zpos m)) e s) as [G1 G2].
  - rewrite R, <- V. pose proof (fin_bound 24 128 _ Fx) as B. unfold bounded_R in *. eapply Rlt_trans; [exact B|]. apply bpow_lt. lia.
  - split; [exact G1|]. now rewrite G2, R.
Qed.
Lemma d_of_N_real n : (n <= 2 ^ 24)%N -> fin64 (d_of_Z (Z.of_N n)) /\ val (d_of_Z (Z.of_N n)) = IZR (Z.of_N n).
Proof.
  intros Ht. assert (Hz : (Z.abs (Z.of_N n) <= 2 ^ 24)%Z) by (change (2 ^ 24)%N with 16777216%N in Ht; lia).
  pose proof (of_Z_real 53 1024 P53 E1024 (Z.of_N n)) as C. cbn zeta in C.
  assert (R : rd (IZR (Z.of_N n)) = IZR (Z.of_N n)) by (apply round_generic; [apply valid_rnd_round_mode|now apply fmt_Z53]).
  rewrite R in C. destruct C as [C1 C2]; [|destruct (Z.of_N n); split; assumption].
  unfold bounded_R. rewrite <- abs_IZR. eapply Rle_lt_trans; [apply IZR_le, Hz|]. change (2 ^ 24)%Z with (Zpower radix2 24). rewrite IZR_Zpower by lia. apply bpow_lt. lia.
Qed.
