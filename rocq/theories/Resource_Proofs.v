(** Real numbers behind [resource_from_weight]. *)
From Verif Require Import Base Neuron_Model Stdp_Model FloatReal Normalize_Proofs Classify_Model Metrics_Proofs Storage_Proofs2 Quant_Model Quant_Proofs Quant_Proofs2.
From Coq Require Import Reals Psatz.
From Flocq Require Import Core IEEE754.BinarySingleNaN Relative.
Local Instance P24 : Prec_gt_0 24 := eq_refl.
Local Instance E128 : Prec_lt_emax 24 128 := eq_refl.
Local Instance P53 : Prec_gt_0 53 := eq_refl.
Local Instance E1024 : Prec_lt_emax 53 1024 := eq_refl.
Open Scope R_scope.

Lemma prod_bound a b A B : - A <= a <= A -> - B <= b <= B -> - (A * B) <= a * b <= A * B.
Proof. intros H K. apply Rabs_le_inv. rewrite Rabs_mult. apply Rmult_le_compat; try apply Rabs_pos; apply Rabs_le; lra. Qed.
Lemma err32 r : exists e n, Rabs e <= / 16777216 /\ Rabs n <= bpow radix2 (-150) /\ rn r = r * (1 + e) + n.
Proof.
  destruct (any_err 24 128 P24 r) as (e & n & A & B & C). exists e, n. split; [|split; [|exact C]].
  - eapply Rle_trans; [exact A|]. change (- (24) + 1)%Z with (-23)%Z. change (bpow radix2 (-23)) with (/ 8388608). lra.
  - eapply Rle_trans; [exact B|]. change (3 - 128 - 24)%Z with (-149)%Z. replace (bpow radix2 (-149)) with (2 * bpow radix2 (-150)); [lra|]. change 2 with (bpow radix2 1). now rewrite <- bpow_plus.
Qed.
Lemma err64 r : exists e n, Rabs e <= bpow radix2 (-53) /\ Rabs n <= bpow radix2 (-1000) /\ rd r = r * (1 + e) + n.
Proof.
  destruct (any_err 53 1024 P53 r) as (e & n & A & B & C). exists e, n. split; [|split; [|exact C]].
  - eapply Rle_trans; [exact A|]. change (- (53) + 1)%Z with (-52)%Z. replace (bpow radix2 (-52)) with (2 * bpow radix2 (-53)); [lra|]. change 2 with (bpow radix2 1). now rewrite <- bpow_plus.
  - eapply Rle_trans; [exact B|]. change (3 - 1024 - 53)%Z with (-1074)%Z. assert (bpow radix2 (-1074) <= bpow radix2 (-1000)) by (apply bpow_le; lia). pose proof (bpow_gt_0 radix2 (-1074)). lra.
Qed.
Lemma tiny150 : 0 < bpow radix2 (-150) <= / 1073741824 * / 1073741824.
Proof.
  split; [apply bpow_gt_0|]. change (/ 1073741824) with (bpow radix2 (-30)). rewrite <- bpow_plus. apply bpow_le. lia.
Qed.
Lemma eps_val : fin32 rfw_eps /\ val rfw_eps = 8796093 * / 8796093022208.
Proof. split; [split; reflexivity|]. unfold rfw_eps. cbn [SF2R cond_Zopp]. unfold F2R. cbn [Fnum Fexp]. reflexivity. Qed.
(** The error of rounding a number of at most 4. *)
Lemma round_err r : Rabs r <= 4 -> Rabs (rn r - r) <= / 4194304 + / 1000000000000.
Proof.
  intros H. destruct (err32 r) as (e & n & A & B & ->). pose proof tiny150 as T. apply Rabs_le_inv in H. apply Rabs_le_inv in A. apply Rabs_le_inv in B.
  replace (r * (1 + e) + n - r) with (r * e + n) by ring. apply Rabs_le. nra.
Qed.
Lemma round_err2 r : Rabs r <= 5/2 -> Rabs (rn r - r) <= 5 / 2 * / 16777216 + / 1000000000000.
Proof.
  intros H. destruct (err32 r) as (e & n & A & B & ->). pose proof tiny150 as T. apply Rabs_le_inv in H. apply Rabs_le_inv in A. apply Rabs_le_inv in B.
  replace (r * (1 + e) + n - r) with (r * e + n) by ring. apply Rabs_le. nra.
Qed.
Lemma bounded8 r : Rabs r <= 1000000000 -> bounded_R 128 (rn r).
Proof.
  intros H. apply small_bounded, rn_abs; [lia|]. eapply Rle_trans; [exact H|]. apply Rle_trans with (bpow radix2 30); [change (bpow radix2 30) with 1073741824; lra|apply bpow_le; lia].
Qed.
Lemma bounded8d r : Rabs r <= 1000000000 -> bounded_R 1024 (rd r).
Proof.
  intros H. unfold bounded_R. apply Rle_lt_trans with (bpow radix2 30); [|apply bpow_lt; lia].
  assert (G : generic_format radix2 (SpecFloat.fexp 53 1024) (bpow radix2 30)) by (change (SpecFloat.fexp 53 1024) with (FLT_exp (-1074) 53); apply generic_format_bpow; unfold FLT_exp; lia).
  change (bpow radix2 30) with 1073741824 in *. apply Rabs_le_inv in H. apply Rabs_le.
  split; [apply (rnd_ge_format 53 1024 P53); [now apply generic_format_opp|lra]|apply (rnd_le_format 53 1024 P53); [exact G|lra]].
Qed.
Lemma f_of_d_real x : fin64 x -> bounded_R 128 (rn (val x)) -> fin32 (f_of_d x) /\ val (f_of_d x) = rn (val x).
Proof.
  intros Fx B. destruct x as [s|s| |s m e]; try (destruct Fx; discriminate).
  - split; [split; reflexivity|]. cbn. symmetry. apply round_0. exact (valid_rnd_round_mode mode_NE).
  - cbn [f_of_d]. replace (if s then Z.neg m else Z.pos m) with (cond_Zopp s (Zpos m)) by (destruct s; reflexivity).
    apply (normalize_real 24 128 P24 E128). exact B.
Qed.

(** The parts of the computation for bounds of at most 2. *)
Section Parts.
Variables w lo hi : flt.
Hypothesis (Fw : fin32 w) (Fl : fin32 lo) (Fh : fin32 hi).
Hypothesis (Bl : Rabs (val lo) <= 2) (Bh : Rabs (val hi) <= 2) (Ge : val lo <= val w).
Hypothesis (Lt : val w < val (f_sub hi rfw_eps)).
Let d := val (f_sub hi lo).
Let o := val (f_sub w lo).
Let num := rd (o * d).
Let den := rd (d - o).
Definition resource := f_of_d (d_div (d_mul (d_of_f (f_sub w lo)) (d_of_f (f_sub hi lo))) (d_sub (d_of_f (f_sub hi lo)) (d_of_f (f_sub w lo)))).

Lemma hi_eps : fin32 (f_sub hi rfw_eps) /\ val (f_sub hi rfw_eps) <= val hi - / 2000000.
Proof.
  destruct eps_val as [Fe Ve]. apply Rabs_le_inv in Bh. destruct (sub_real 24 128 P24 E128 hi rfw_eps Fh Fe) as [A B].
  { apply bounded8. rewrite Ve. apply Rabs_le. lra. }
  unfold f_sub. split; [exact A|]. rewrite B. pose proof (round_err2 (val hi - val rfw_eps)) as R. rewrite Ve in *.
  assert (H : Rabs (val hi - 8796093 * / 8796093022208) <= 5/2) by (apply Rabs_le; lra). specialize (R H). apply Rabs_le_inv in R. lra.
Qed.
Lemma diff_real : fin32 (f_sub hi lo) /\ Rabs (d - (val hi - val lo)) <= / 4194304 + / 1000000000000.
Proof.
  apply Rabs_le_inv in Bh. apply Rabs_le_inv in Bl. destruct (sub_real 24 128 P24 E128 hi lo Fh Fl) as [A B]; [apply bounded8, Rabs_le; lra|].
  unfold d, f_sub. split; [exact A|]. rewrite B. apply round_err, Rabs_le. lra.
Qed.
Lemma w_lt : val w <= val hi - / 2000000. Proof. pose proof hi_eps. lra. Qed.
Lemma over_real : fin32 (f_sub w lo) /\ Rabs (o - (val w - val lo)) <= / 4194304 + / 1000000000000 /\ 0 <= o /\ o = rn (val w - val lo).
Proof.
  pose proof w_lt. apply Rabs_le_inv in Bh. apply Rabs_le_inv in Bl. destruct (sub_real 24 128 P24 E128 w lo Fw Fl) as [A B]; [apply bounded8, Rabs_le; lra|].
  unfold o, f_sub. split; [exact A|]. rewrite B. split; [apply round_err, Rabs_le; lra|]. split; [|reflexivity]. apply (rnd_ge_format 24 128 P24); [apply generic_format_0|lra].
Qed.
(** The sharper distance: 1e-6 less three rounding errors. *)
Lemma gap : / 4194304 <= d - o /\ 0 <= o /\ d <= 4 + / 4000000.
Proof.
  destruct eps_val as [Fe Ve]. destruct diff_real as [_ D], over_real as (_ & O & P & _). apply Rabs_le_inv in D. apply Rabs_le_inv in O.
  assert (Q : val w <= val hi - 8796093 * / 8796093022208 + (5 / 2 * / 16777216 + / 1000000000000)).
  { destruct (sub_real 24 128 P24 E128 hi rfw_eps Fh Fe) as [A B]; [apply bounded8; rewrite Ve; apply Rabs_le_inv in Bh; apply Rabs_le; lra|].
    unfold f_sub in Lt. rewrite B in Lt. pose proof (round_err2 (val hi - val rfw_eps)) as R. rewrite Ve in *.
    assert (H : Rabs (val hi - 8796093 * / 8796093022208) <= 5/2) by (apply Rabs_le_inv in Bh; apply Rabs_le; lra). specialize (R H). apply Rabs_le_inv in R. lra. }
  apply Rabs_le_inv in Bh. apply Rabs_le_inv in Bl. split; [lra|]. split; [exact P|lra].
Qed.
Lemma den_real : fin64 (d_sub (d_of_f (f_sub hi lo)) (d_of_f (f_sub w lo))) /\ val (d_sub (d_of_f (f_sub hi lo)) (d_of_f (f_sub w lo))) = den /\ / 4194304 <= den.
Proof.
  destruct gap as (G1 & G2 & G3). destruct diff_real as [D _], over_real as (O & _). destruct (d_of_f_real _ D) as [D1 D2], (d_of_f_real _ O) as [O1 O2].
  fold d in D2. fold o in O2. destruct (sub_real 53 1024 P53 E1024 _ _ D1 O1) as [A B]; [rewrite D2, O2; apply bounded8d, Rabs_le; lra|].
  unfold d_sub. split; [exact A|]. rewrite B, D2, O2. split; [reflexivity|]. apply (rnd_ge_format 53 1024 P53); [|exact G1].
  change (/ 4194304) with (bpow radix2 (-22)). change (SpecFloat.fexp 53 1024) with (FLT_exp (-1074) 53). apply generic_format_bpow. unfold FLT_exp. lia.
Qed.
Lemma num_real : fin64 (d_mul (d_of_f (f_sub w lo)) (d_of_f (f_sub hi lo))) /\ val (d_mul (d_of_f (f_sub w lo)) (d_of_f (f_sub hi lo))) = num /\ 0 <= num <= 17.
Proof.
  destruct gap as (G1 & G2 & G3). destruct diff_real as [D _], over_real as (O & _). destruct (d_of_f_real _ D) as [D1 D2], (d_of_f_real _ O) as [O1 O2].
  fold d in D2. fold o in O2. assert (P : 0 <= o * d <= 17) by nra.
  destruct (mul_real 53 1024 P53 E1024 _ _ O1 D1) as [A B]; [rewrite D2, O2; apply bounded8d, Rabs_le; lra|].
  unfold d_mul. split; [exact A|]. rewrite B, D2, O2. split; [reflexivity|]. split.
  - apply (rnd_ge_format 53 1024 P53); [apply generic_format_0|lra].
  - apply (rnd_le_format 53 1024 P53); [exact (fmt_Z53 17 ltac:(lia))|lra].
Qed.
Lemma resource_real : fin32 resource /\ val resource = rn (rd (num / den)) /\ 0 <= val resource <= 134217728.
Proof.
  destruct den_real as (A1 & A2 & A3), num_real as (B1 & B2 & B3).
  assert (I : 0 < / den <= 4194304). { split; [apply Rinv_0_lt_compat; lra|]. replace 4194304 with (/ / 4194304) by lra. apply Rinv_le; lra. }
  assert (Q : 0 <= num / den <= 134217728) by (unfold Rdiv; nra).
  destruct (div_real 53 1024 P53 E1024 _ _ B1 A1) as [C D]; [rewrite A2; lra|rewrite B2, A2; apply bounded8d, Rabs_le; lra|].
  rewrite B2, A2 in D.
  assert (R : 0 <= rd (num / den) <= 134217728).
  { split; [apply (rnd_ge_format 53 1024 P53); [apply generic_format_0|lra]|apply (rnd_le_format 53 1024 P53); [|lra]].
    change 134217728 with (bpow radix2 27). change (SpecFloat.fexp 53 1024) with (FLT_exp (-1074) 53). apply generic_format_bpow. unfold FLT_exp. lia. }
  assert (S : 0 <= rn (rd (num / den)) <= 134217728).
  { split; [apply (rnd_ge_format 24 128 P24); [apply generic_format_0|lra]|apply (rnd_le_format 24 128 P24); [|lra]].
    change 134217728 with (bpow radix2 27). apply fmt_bpow. lia. }
  destruct (f_of_d_real _ C) as [E F]; [rewrite D; apply small_bounded, Rabs_le; assert (134217728 <= bpow radix2 64) by (change 134217728 with (bpow radix2 27); apply bpow_le; lia); lra|].
  unfold resource, d_div. split; [exact E|]. rewrite F, D. split; [reflexivity|exact S].
Qed.
(** The resource is the exact one up to rounding. *)
Lemma resource_near : Rabs (val resource - o * d / (d - o)) <= 5 / 4 * / 16777216 * (o * d / (d - o)) + / 1000000000000.
Proof.
  destruct resource_real as (_ & -> & _). destruct gap as (G1 & G2 & G3). unfold num, den.
  destruct (err64 (o * d)) as (e1 & n1 & E1 & N1 & ->). destruct (err64 (d - o)) as (e2 & n2 & E2 & N2 & ->).
  set (D := d - o) in *. assert (ID : 0 < / D <= 4194304). { split; [apply Rinv_0_lt_compat; lra|]. replace 4194304 with (/ / 4194304) by lra. apply Rinv_le; lra. }
  assert (T53 : 0 < bpow radix2 (-53) <= / 1073741824 * / 8388608) by (split; [apply bpow_gt_0|change (/ 1073741824 * / 8388608) with (bpow radix2 (-30) * bpow radix2 (-23)); rewrite <- bpow_plus; apply bpow_le; lia]).
  assert (T1000 : 0 < bpow radix2 (-1000) <= / 1073741824 * / 1073741824 * / 1073741824 * / 1073741824).
  { split; [apply bpow_gt_0|]. change (/ 1073741824) with (bpow radix2 (-30)). rewrite <- !bpow_plus. apply bpow_le. lia. }
  pose proof tiny150 as T150.
  set (t := / 1073741824) in *. assert (Ht : 0 < t /\ t = / 1073741824) by (unfold t; lra). destruct Ht as [Ht Et].
  apply Rabs_le_inv in E1. apply Rabs_le_inv in E2. apply Rabs_le_inv in N1. apply Rabs_le_inv in N2.
  assert (t4 : t * t * t * t <= t * t * / 1000000000000) by (assert (t * t <= / 1000000000000) by (rewrite Et; lra); assert (0 <= t * t) by nra; nra).
  (* denominator: relative error *)
  assert (X2 : exists f, Rabs f <= 2 * t /\ D * (1 + e2) + n2 = D * (1 + f)).
  { exists (e2 + n2 * / D). split; [|field; lra]. apply Rabs_le. assert (- t * / 2 <= n2 * / D <= t * / 2).
    { assert (t * t * t * t * 4194304 <= t * / 2) by (rewrite Et; lra). split; nra. }
    assert (bpow radix2 (-53) <= t) by (rewrite Et; lra). lra. }
  destruct X2 as (f & Hf & ->). apply Rabs_le_inv in Hf.
  assert (Hd : 0 <= d) by (unfold D in *; lra). set (q := o * d / D). assert (Hq : 0 <= q) by (unfold q, Rdiv; apply Rmult_le_pos; [apply Rmult_le_pos; lra|lra]).
  assert (IF : exists g, Rabs g <= 3 * t /\ / (1 + f) = 1 + g).
  { exists (/ (1 + f) - 1). split; [|ring]. assert (0 < / (1 + f) <= 2). { split; [apply Rinv_0_lt_compat; lra|]. replace 2 with (/ / 2) by lra. apply Rinv_le; lra. }
    replace (/ (1 + f) - 1) with (- f * / (1 + f)) by (field; lra). apply Rabs_le.
    assert (/ (1 + f) <= 3 / 2) by (replace (3 / 2) with (/ (2 / 3)) by lra; apply Rinv_le; lra). nra. }
  destruct IF as (g & Hg & IF). apply Rabs_le_inv in Hg.
  assert (EQ : (o * d * (1 + e1) + n1) / (D * (1 + f)) = q * (1 + e1) * (1 + g) + n1 * / D * (1 + g)).
  { rewrite <- IF. unfold q. field. lra. }
  rewrite EQ. destruct (err64 (q * (1 + e1) * (1 + g) + n1 * / D * (1 + g))) as (e3 & n3 & E3 & N3 & ->).
  set (a := (q * (1 + e1) * (1 + g) + n1 * / D * (1 + g)) * (1 + e3) + n3).
  destruct (err32 a) as (e4 & n4 & E4 & N4 & ->). apply Rabs_le_inv in E3. apply Rabs_le_inv in N3. apply Rabs_le_inv in E4. apply Rabs_le_inv in N4.
  assert (b53 : bpow radix2 (-53) <= t) by (rewrite Et; lra).
  assert (NN : - t * t <= n1 * / D <= t * t).
  { assert (t * t * t * t * 4194304 <= t * t) by (assert (t * t * 4194304 <= 1) by (rewrite Et; lra); assert (0 <= t * t) by nra; nra). split; nra. }
  (* the products of small errors *)
  assert (K : exists h, Rabs h <= 6 * t /\ (1 + e1) * (1 + g) * (1 + e3) = 1 + h).
  { exists ((1 + e1) * (1 + g) * (1 + e3) - 1). split; [|ring]. apply Rabs_le.
    assert (A1 : - 5 * t <= (1 + e1) * (1 + g) - 1 <= 5 * t) by nra. set (z := (1 + e1) * (1 + g) - 1) in *.
    replace ((1 + e1) * (1 + g) * (1 + e3) - 1) with (z + e3 + z * e3) by (unfold z; ring).
    assert (e3 <= t / 2 /\ - t / 2 <= e3) by (split; rewrite Et; lra). nra. }
  destruct K as (h & Hh & K). apply Rabs_le_inv in Hh.
  assert (Ea : a = q * (1 + h) + (n1 * / D * (1 + g) * (1 + e3) + n3)) by (unfold a; rewrite <- K; ring).
  set (m := n1 * / D * (1 + g) * (1 + e3) + n3) in *.
  assert (Hm : - 5 * (t * t) <= m <= 5 * (t * t)).
  { assert (- 2 * (t * t) <= n1 * / D * (1 + g) <= 2 * (t * t)) by (assert (0 <= t * t) by nra; assert (3 * t <= / 2) by (rewrite Et; lra); nra).
    set (y := n1 * / D * (1 + g)) in *. unfold m.
    assert (- t * t <= n3 <= t * t). { assert (t * t * t * t <= t * t) by (assert (t * t <= 1) by (rewrite Et; lra); assert (0 <= t * t) by nra; nra). lra. }
    assert (- 1 <= e3 <= 1) by (rewrite Et in *; lra). assert (0 <= t * t) by nra. nra. }
  rewrite Ea. replace ((q * (1 + h) + m) * (1 + e4) + n4 - q) with (q * (h + e4 + h * e4) + (m * (1 + e4) + n4)) by ring.
  assert (H1 : - (5 / 4 * / 16777216) <= h + e4 + h * e4 <= 5 / 4 * / 16777216).
  { assert (6 * t <= / 100000000) by (rewrite Et; lra). nra. }
  assert (H2 : - / 1000000000000 <= m * (1 + e4) + n4 <= / 1000000000000).
  { assert (t * t <= / 100000000000000000) by (rewrite Et; lra). assert (0 <= t * t) by nra. nra. }
  apply Rabs_le. split; nra.
Qed.
(** The weight of the resource. *)
Lemma back : fin32 (weight_f lo hi resource) /\ Rabs (val (weight_f lo hi resource) - val w) <= / 524288.
Proof.
  destruct resource_real as (Fr & _ & Rr). pose proof resource_near as Rn. destruct gap as (G1 & G2 & G3). destruct diff_real as [FD _], over_real as (_ & O & _).
  unfold weight_f. assert (Z : f_lt resource (S754_zero false) = false).
  { destruct (lt_val resource (S754_zero false) Fr zero_fin) as [[_ H]|[H _]]; [cbn in H; lra|exact H]. }
  rewrite Z. cbn zeta. set (r := val resource) in *. fold d.
  assert (Hd : 0 < d) by lra.
  destruct (mul_real 24 128 P24 E128 _ _ FD Fr) as [M1 M2]. { fold d. fold r. apply bounded8. apply Rabs_le. nra. }
  destruct (add_real 24 128 P24 E128 _ _ FD Fr) as [A1 A2]. { fold d. fold r. apply bounded8. apply Rabs_le. lra. }
  fold d in M2, A2. fold r in M2, A2. unfold f_mul, f_add, f_div.
  assert (Hu : / 4194304 <= rn (d + r)). { apply (rnd_ge_format 24 128 P24); [|lra]. change (/ 4194304) with (bpow radix2 (-22)). apply fmt_bpow. lia. }
  destruct (err32 (d * r)) as (e1 & n1 & E1 & N1 & X1). destruct (err32 (d + r)) as (e2 & n2 & E2 & N2 & X2).
  pose proof tiny150 as T150. set (t := / 1073741824) in *. assert (Et : t = / 1073741824) by reflexivity. clearbody t.
  apply Rabs_le_inv in E1. apply Rabs_le_inv in E2. apply Rabs_le_inv in N1. apply Rabs_le_inv in N2.
  assert (IU : 0 < / (d + r) <= 4194304). { split; [apply Rinv_0_lt_compat; lra|]. replace 4194304 with (/ / 4194304) by lra. apply Rinv_le; lra. }
  assert (Y2 : exists f, Rabs f <= 9 / 8 * / 16777216 /\ rn (d + r) = (d + r) * (1 + f)).
  { exists (e2 + n2 * / (d + r)). split; [|rewrite X2; field; lra]. apply Rabs_le.
    assert (- t <= n2 * / (d + r) <= t). { assert (t * t * 4194304 <= t) by (rewrite Et; lra). split; nra. } lra. }
  destruct Y2 as (f & Hf & Y2). apply Rabs_le_inv in Hf.
  assert (IF : exists g, Rabs g <= 10 / 8 * / 16777216 /\ / (1 + f) = 1 + g).
  { exists (/ (1 + f) - 1). split; [|ring].
    replace (/ (1 + f) - 1) with (- f * / (1 + f)) by (field; lra). apply Rabs_le. assert (0 < / (1 + f)) by (apply Rinv_0_lt_compat; lra).
    assert (/ (1 + f) <= 10 / 9) by (replace (10 / 9) with (/ (9 / 10)) by lra; apply Rinv_le; lra). nra. }
  destruct IF as (g & Hg & IF). apply Rabs_le_inv in Hg.
  set (G := d * r / (d + r)).
  assert (HG : 0 <= G <= d). { unfold G. split; [unfold Rdiv; apply Rmult_le_pos; [apply Rmult_le_pos; lra|lra]|]. apply (Rmult_le_reg_r (d + r)); [lra|]. unfold Rdiv. rewrite Rmult_assoc, Rinv_l, Rmult_1_r by lra. nra. }
  assert (EQ : rn (d * r) / rn (d + r) = G * (1 + e1) * (1 + g) + n1 * / (d + r) * (1 + g)).
  { rewrite X1, Y2, <- IF. unfold G. field. lra. }
  assert (NN : - t <= n1 * / (d + r) <= t). { assert (t * t * 4194304 <= t) by (rewrite Et; lra). split; nra. }
  assert (HH : exists h m, Rabs h <= 3 * / 16777216 /\ Rabs m <= 2 * t /\ rn (d * r) / rn (d + r) = G * (1 + h) + m).
  { exists ((1 + e1) * (1 + g) - 1), (n1 * / (d + r) * (1 + g)). split; [apply Rabs_le; nra|]. split; [apply Rabs_le; assert (0 < t) by (rewrite Et; lra); nra|]. rewrite EQ. ring. }
  destruct HH as (h & m & Hh & Hm & HH). apply Rabs_le_inv in Hh. apply Rabs_le_inv in Hm.
  assert (Gh : -5 <= G * h <= 5) by nra. assert (Tt : 0 < t <= 1) by (rewrite Et; lra).
  destruct (div_real 24 128 P24 E128 _ _ M1 A1) as [D1 D2]; [rewrite A2; lra|rewrite M2, A2, HH; apply bounded8, Rabs_le; rewrite Rmult_plus_distr_l; lra|].
  rewrite M2, A2 in D2. rewrite HH in D2.
  assert (S : Rabs (rn (G * (1 + h) + m) - G) <= 4 * (4 * / 16777216) + / 100000000).
  { destruct (err32 (G * (1 + h) + m)) as (e3 & n3 & E3 & N3 & ->). apply Rabs_le_inv in E3. apply Rabs_le_inv in N3.
    replace ((G * (1 + h) + m) * (1 + e3) + n3 - G) with (G * (h + e3 + h * e3) + (m * (1 + e3) + n3)) by ring.
    assert (H1 : - (4 * / 16777216 + / 100000000000) <= h + e3 + h * e3 <= 4 * / 16777216 + / 100000000000).
    { pose proof (prod_bound h e3 (3 * / 16777216) (/ 16777216) ltac:(lra) ltac:(lra)). lra. }
    assert (H2 : - (4 * t) <= m * (1 + e3) + n3 <= 4 * t).
    { assert (t * t <= t) by (rewrite Et; lra). pose proof (prod_bound m e3 (2 * t) (/ 16777216) ltac:(lra) ltac:(lra)). rewrite Rmult_plus_distr_l. lra. }
    apply Rabs_le. assert (4 * t <= / 200000000) by (rewrite Et; lra).
    pose proof (prod_bound G (h + e3 + h * e3) (4 + / 4000000) (4 * / 16777216 + / 100000000000) ltac:(lra) ltac:(lra)). lra. }
  set (q := rn (G * (1 + h) + m)) in *. 
  (* G is o up to the error of the resource *)
  assert (GO : Rabs (G - o) <= 5 / 4 * / 16777216 * o + / 1000000000000).
  { set (r0 := o * d / (d - o)) in *. assert (R0 : 0 <= r0) by (unfold r0, Rdiv; apply Rmult_le_pos; [apply Rmult_le_pos; lra|apply Rlt_le, Rinv_0_lt_compat; lra]).
    assert (Id : r0 * (d - o) = o * d) by (unfold r0; field; lra).
    assert (E : G - o = (r - r0) * ((d - o) / (d + r))).
    { unfold G. apply (Rmult_eq_reg_r (d + r)); [|lra]. replace ((d * r / (d + r) - o) * (d + r)) with (d * r - o * (d + r)) by (field; lra).
      replace ((r - r0) * ((d - o) / (d + r)) * (d + r)) with ((r - r0) * (d - o)) by (field; lra). rewrite Rmult_minus_distr_r, Id. ring. }
    rewrite E, Rabs_mult. assert (F1 : 0 <= (d - o) / (d + r)) by (unfold Rdiv; apply Rmult_le_pos; lra). rewrite (Rabs_pos_eq _ F1).
    assert (F2 : (d - o) / (d + r) <= (d - o) / d). { unfold Rdiv. apply Rmult_le_compat_l; [lra|]. apply Rinv_le; lra. }
    assert (F3 : (d - o) / d <= 1). { apply (Rmult_le_reg_r d); [lra|]. unfold Rdiv. rewrite Rmult_assoc, Rinv_l by lra. lra. }
    apply Rle_trans with ((5 / 4 * / 16777216 * r0 + / 1000000000000) * ((d - o) / d)).
    - apply Rmult_le_compat; [apply Rabs_pos|exact F1|exact Rn|exact F2].
    - assert (F4 : r0 * ((d - o) / d) = o). { replace (r0 * ((d - o) / d)) with (r0 * (d - o) / d) by (field; lra). rewrite Id. field. lra. }
      assert (0 <= (d - o) / d) by lra. rewrite Rmult_plus_distr_r. rewrite Rmult_assoc, F4. apply Rplus_le_compat_l. nra. }
  apply Rabs_le_inv in S. apply Rabs_le_inv in GO. apply Rabs_le_inv in O.
  assert (Qw : Rabs (val lo + q - val w) <= / 600000).
  { apply Rabs_le. lra. }
  assert (WW : val w <= 2). { pose proof w_lt. apply Rabs_le_inv in Bh. lra. }
  apply Rabs_le_inv in Bl. apply Rabs_le_inv in Qw.
  destruct (add_real 24 128 P24 E128 lo _ Fl D1) as [R1 R2]. { rewrite D2. fold q. apply bounded8, Rabs_le. lra. }
  split; [exact R1|]. rewrite R2, D2. fold q. pose proof (round_err2 (val lo + q)) as R. assert (HR : Rabs (val lo + q) <= 5 / 2) by (apply Rabs_le; lra).
  specialize (R HR). apply Rabs_le_inv in R. apply Rabs_le. lra.
Qed.
End Parts.
