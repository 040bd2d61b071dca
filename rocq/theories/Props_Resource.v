(** C119: the synaptic resource that gives a wanted weight. *)
From Verif Require Import Base Neuron_Model Stdp_Model FloatReal Normalize_Proofs Classify_Model Metrics_Proofs Storage_Proofs2 Quant_Model Quant_Proofs Quant_Proofs2 Resource_Proofs.
From Coq Require Import Reals Psatz.
From Flocq Require Import Core IEEE754.BinarySingleNaN.
Local Instance P24 : Prec_gt_0 24 := eq_refl.
Local Instance E128 : Prec_lt_emax 24 128 := eq_refl.
Local Instance P53 : Prec_gt_0 53 := eq_refl.
Local Instance E1024 : Prec_lt_emax 53 1024 := eq_refl.
Open Scope R_scope.

(** The nearest [float] to 1e-6. *)
Definition eps : R := 8796093 / 8796093022208.
Lemma ordered a b : fin32 a -> fin32 b -> (val a <= val b /\ f_gt a b = false) \/ (val b < val a /\ f_gt a b = true).
Proof. intros Fa Fb. change (f_gt a b) with (f_lt b a). destruct (lt_val b a Fb Fa) as [[-> H]|[-> H]]; auto. Qed.
Lemma hi_real hi : fin32 hi -> Rabs (val hi) <= bpow radix2 60 -> fin32 (f_sub hi rfw_eps) /\ val (f_sub hi rfw_eps) = rn (val hi - eps).
Proof.
  intros F B. destruct eps_val as [Fe Ve]. replace eps with (val rfw_eps) by (rewrite Ve; reflexivity). unfold f_sub. apply (sub_real 24 128 P24 E128); [exact F|exact Fe|].
  apply small_bounded. apply Rle_trans with (bpow radix2 61); [|apply bpow_le; lia]. apply rn_abs; [lia|]. rewrite Ve.
  assert (E : bpow radix2 61 = 2 * bpow radix2 60) by (change 2 with (bpow radix2 1); now rewrite <- bpow_plus). assert (1 <= bpow radix2 60) by (change 1 with (bpow radix2 0); apply bpow_le; lia).
  apply Rabs_le_inv in B. apply Rabs_le. lra.
Qed.
Lemma ge_val x y : fin32 x -> fin32 y -> (f_ge x y = true /\ val y <= val x) \/ (f_ge x y = false /\ val x < val y).
Proof. intros Fx Fy. change (f_ge x y) with (SFleb y x). rewrite (le_real 24 128 y x Fy Fx). destruct (Rle_bool_spec (val y) (val x)); auto. Qed.
(** The body of the function, for bounds in order. *)
Lemma rfw_ordered w a b : fin32 w -> fin32 a -> fin32 b -> Rabs (val b) <= bpow radix2 60 -> val a <= val b ->
  (resource_from_weight w a b = Throw /\ (val w < val a \/ rn (val b - eps) <= val w)) \/
  (resource_from_weight w a b = Ret (resource w a b) /\ val a <= val w < rn (val b - eps)).
Proof.
  intros Fw Fa Fb B L. destruct (hi_real b Fb B) as [Fh Vh]. unfold resource_from_weight.
  destruct (ordered a b Fa Fb) as [[_ ->]|[? _]]; [|lra]. cbn zeta.
  destruct (lt_val w a Fw Fa) as [[-> H]|[-> H]]; [left; split; [reflexivity|auto]|].
  destruct (ge_val w _ Fw Fh) as [[-> K]|[-> K]]; rewrite Vh in K; [left; split; [reflexivity|auto]|].
  right. split; [reflexivity|lra].
Qed.
(** The order of the bounds does not matter. *)
Theorem c119_symmetric w a b : fin32 w -> fin32 a -> fin32 b -> Rabs (val a) <= bpow radix2 60 -> Rabs (val b) <= bpow radix2 60 ->
  resource_from_weight w a b = resource_from_weight w b a.
Proof.
  intros Fw Fa Fb Ba Bb. destruct (ordered a b Fa Fb) as [[H E]|[H E]], (ordered b a Fb Fa) as [[H' E']|[H' E']]; try (unfold resource_from_weight; rewrite E, E'; reflexivity); [|lra].
  assert (EE : val a = val b) by lra.
  assert (R : rn (val b - eps) <= val b). { apply (rnd_le_format 24 128 P24); [now apply fin_format|]. unfold eps. lra. }
  destruct (rfw_ordered w a b Fw Fa Fb Bb H) as [[-> _]|[_ ?]]; [|lra].
  destruct (rfw_ordered w b a Fw Fb Fa Ba H') as [[-> _]|[_ ?]]; [reflexivity|rewrite <- EE in *; lra].
Qed.
(** A weight is accepted exactly when it lies in the range, the upper end reduced by 1e-6. *)
Theorem c119_range w a b : fin32 w -> fin32 a -> fin32 b -> Rabs (val a) <= bpow radix2 60 -> Rabs (val b) <= bpow radix2 60 ->
  ((exists r, resource_from_weight w a b = Ret r) <-> Rmin (val a) (val b) <= val w < rn (Rmax (val a) (val b) - eps)) /\
  (resource_from_weight w a b = Throw <-> val w < Rmin (val a) (val b) \/ rn (Rmax (val a) (val b) - eps) <= val w).
Proof.
  intros Fw Fa Fb Ba Bb. destruct (Rle_dec (val a) (val b)) as [L|L].
  - rewrite Rmin_left, Rmax_right by exact L. destruct (rfw_ordered w a b Fw Fa Fb Bb L) as [[-> H]|[-> H]].
    + split; split; intros K; auto; [destruct K; discriminate|lra].
    + split; split; intros K; eauto; [discriminate|lra].
  - assert (L' : val b <= val a) by lra. rewrite Rmin_right, Rmax_left by exact L'. rewrite c119_symmetric by assumption. destruct (rfw_ordered w b a Fw Fb Fa Ba L') as [[-> H]|[-> H]].
    + split; split; intros K; auto; [destruct K; discriminate|lra].
    + split; split; intros K; eauto; [discriminate|lra].
Qed.
Lemma two60 : 2 <= bpow radix2 60. Proof. change 2 with (bpow radix2 1). apply bpow_le. lia. Qed.
Lemma inside w a b r : fin32 w -> fin32 a -> fin32 b -> Rabs (val b) <= 2 -> val a <= val b -> resource_from_weight w a b = Ret r ->
  r = resource w a b /\ val a <= val w /\ val w < val (f_sub b rfw_eps).
Proof.
  intros Fw Fa Fb B L H. pose proof two60. assert (B' : Rabs (val b) <= bpow radix2 60) by lra. destruct (rfw_ordered w a b Fw Fa Fb B' L) as [[E _]|[E K]]; rewrite E in H; [discriminate|].
  split; [exact (f_equal (fun o => match o with Ret y => y | _ => r end) (eq_sym H))|]. rewrite (proj2 (hi_real b Fb B')). lra.
Qed.
(** For bounds of at most 2 in magnitude the resource is a finite number that is not negative, and
    the weight training computes from it is the wanted one, up to 2^-19. *)
Theorem c119_back w lo hi r : fin32 w -> fin32 lo -> fin32 hi -> Rabs (val lo) <= 2 -> Rabs (val hi) <= 2 -> val lo <= val hi ->
  resource_from_weight w lo hi = Ret r ->
  fin32 r /\ 0 <= val r /\ fin32 (weight_f lo hi r) /\ Rabs (val (weight_f lo hi r) - val w) <= bpow radix2 (-19).
Proof.
  intros Fw Fl Fh Bl Bh L H. destruct (inside w lo hi r Fw Fl Fh Bh L H) as (-> & G & K).
  destruct (resource_real w lo hi Fw Fl Fh Bl Bh G K) as (A & _ & B). destruct (back w lo hi Fw Fl Fh Bl Bh G K) as (C & D).
  split; [exact A|]. split; [lra|]. split; [exact C|exact D].
Qed.
(** Larger weights need larger resources, and the lower end needs none. *)
Theorem c119_monotone w1 w2 lo hi r1 r2 : fin32 w1 -> fin32 w2 -> fin32 lo -> fin32 hi -> Rabs (val lo) <= 2 -> Rabs (val hi) <= 2 -> val lo <= val hi ->
  resource_from_weight w1 lo hi = Ret r1 -> resource_from_weight w2 lo hi = Ret r2 -> val w1 <= val w2 -> val r1 <= val r2.
Proof.
  intros F1 F2 Fl Fh Bl Bh L H1 H2 Le. destruct (inside _ _ _ _ F1 Fl Fh Bh L H1) as (-> & G1 & K1), (inside _ _ _ _ F2 Fl Fh Bh L H2) as (-> & G2 & K2).
  destruct (resource_real w1 lo hi F1 Fl Fh Bl Bh G1 K1) as (_ & -> & _). destruct (resource_real w2 lo hi F2 Fl Fh Bl Bh G2 K2) as (_ & -> & _).
  destruct (num_real w1 lo hi F1 Fl Fh Bl Bh G1 K1) as (_ & _ & N1). destruct (den_real w2 lo hi F2 Fl Fh Bl Bh G2 K2) as (_ & _ & D2).
  destruct (gap w1 lo hi F1 Fl Fh Bl Bh G1 K1) as (X1 & X2 & X3).
  destruct (over_real w1 lo hi F1 Fl Fh Bl Bh G1 K1) as (_ & _ & _ & O1). destruct (over_real w2 lo hi F2 Fl Fh Bl Bh G2 K2) as (_ & _ & _ & O2).
  assert (O : val (f_sub w1 lo) <= val (f_sub w2 lo)) by (rewrite O1, O2; apply (rnd_le 24 128 P24); lra).
  apply (rnd_le 24 128 P24), (rnd_le 53 1024 P53). unfold Rdiv. apply Rmult_le_compat; [apply N1| | |].
  - apply Rlt_le, Rinv_0_lt_compat. destruct (den_real w1 lo hi F1 Fl Fh Bl Bh G1 K1) as (_ & _ & D1). lra.
  - apply (rnd_le 53 1024 P53). apply Rmult_le_compat_r; lra.
  - apply Rinv_le; [lra|]. apply (rnd_le 53 1024 P53). lra.
Qed.
Theorem c119_lowest lo hi r : fin32 lo -> fin32 hi -> Rabs (val lo) <= 2 -> Rabs (val hi) <= 2 -> val lo <= val hi ->
  resource_from_weight lo lo hi = Ret r -> val r = 0.
Proof.
  intros Fl Fh Bl Bh L H. destruct (inside _ _ _ _ Fl Fl Fh Bh L H) as (-> & G & K). destruct (resource_real lo lo hi Fl Fl Fh Bl Bh G K) as (_ & -> & _).
  destruct (over_real lo lo hi Fl Fl Fh Bl Bh G K) as (_ & _ & _ & O). rewrite Rminus_diag_eq, round_0 in O by (reflexivity || apply valid_rnd_round_mode).
  rewrite O, Rmult_0_l, round_0 by apply valid_rnd_round_mode. unfold Rdiv. rewrite Rmult_0_l, round_0 by apply valid_rnd_round_mode. apply round_0, valid_rnd_round_mode.
Qed.
(** The hypotheses hold for the bounds -1 and 1 and the weights -1/2 and 1/4. *)
Definition half (s : bool) : flt := S754_finite s 8388608 (-24).
Definition quarter : flt := S754_finite false 8388608 (-25).
Example c119_case : fin32 (half true) /\ fin32 quarter /\ val (half true) = - / 2 /\ val quarter = / 4 /\ fin32 (f_of_Z (-1)) /\ fin32 (f_of_Z 1) /\ val (f_of_Z (-1)) = -1 /\ val (f_of_Z 1) = 1 /\
  (exists r, resource_from_weight (half true) (f_of_Z (-1)) (f_of_Z 1) = Ret r) /\
  (exists r, resource_from_weight quarter (f_of_Z (-1)) (f_of_Z 1) = Ret r) /\
  resource_from_weight (f_of_Z 1) (f_of_Z (-1)) (f_of_Z 1) = Throw.
Proof.
  split; [split; reflexivity|]. split; [split; reflexivity|].
  split; [unfold half; cbn [SF2R cond_Zopp Z.opp]; unfold F2R; cbn [Fnum Fexp]; change (bpow radix2 (-24)) with (/ 16777216); lra|].
  split; [unfold quarter; cbn [SF2R cond_Zopp Z.opp]; unfold F2R; cbn [Fnum Fexp]; change (bpow radix2 (-25)) with (/ 33554432); lra|].
  split; [split; reflexivity|]. split; [split; reflexivity|].
  split; [change (f_of_Z (-1)) with (S754_finite true 8388608 (-23)); cbn [SF2R cond_Zopp Z.opp]; unfold F2R; cbn [Fnum Fexp]; change (bpow radix2 (-23)) with (/ 8388608); lra|].
  split; [apply one_fin|]. split; [eexists; reflexivity|]. split; [eexists; reflexivity|reflexivity].
Qed.
(** With larger bounds 1e-6 is lost in rounding: the weight is accepted, the resource is
    infinite and the weight computed from it is not a number. *)
Theorem c119_infinite_refuted : exists w lo hi, f_lt lo w = true /\ f_lt w hi = true /\
  resource_from_weight w lo hi = Ret (S754_infinity false) /\ Base.is_nan (weight_f lo hi (S754_infinity false)) = true.
Proof. exists (f_of_Z (-1)), (f_of_Z (-33554432)), (f_of_Z 0). repeat split; vm_compute; reflexivity. Qed.

Print Assumptions c119_symmetric.
Print Assumptions c119_range.
Print Assumptions c119_back.
Print Assumptions c119_monotone.
Print Assumptions c119_lowest.
Print Assumptions c119_infinite_refuted.
