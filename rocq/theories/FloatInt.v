(** Sums of small integers are exact in IEEE-754 arithmetic.  No code of /repo. *)
From Verif Require Import Base.
Local Open Scope Z_scope.

Definition sh (k : nat) (c : positive) : positive := Nat.iter k xO c.
Lemma sh_Z k c : Zpos (sh k c) = Zpos c * 2 ^ Z.of_nat k.
Proof.
  induction k as [|k IH]; [cbn; lia|]. change (sh (S k) c) with (xO (sh k c)).
  rewrite Pos2Z.inj_xO, IH, Nat2Z.inj_succ, Z.pow_succ_r by lia. lia.
Qed.
Lemma sh_add j k c : sh j (sh k c) = sh (j + k) c.
Proof.
  induction j as [|j IH]; [reflexivity|]. change (sh (S j) ?x) with (xO (sh j x)). change (S j + k)%nat with (S (j + k)).
  change (sh (S (j + k)) c) with (xO (sh (j + k) c)). now rewrite IH.
Qed.
Lemma digits_sh k c : Zpos (digits2_pos (sh k c)) = Zpos (digits2_pos c) + Z.of_nat k.
Proof.
  induction k as [|k IH]; [cbn; lia|]. change (sh (S k) c) with (xO (sh k c)).
  cbn [digits2_pos]. rewrite Pos2Z.inj_succ, IH. lia.
Qed.
Lemma digits_low c : 2 ^ (Zpos (digits2_pos c) - 1) <= Zpos c.
Proof.
  induction c as [c IH|c IH|].
  - cbn [digits2_pos]. rewrite Pos2Z.inj_succ, Pos2Z.inj_xI.
    replace (Z.succ (Zpos (digits2_pos c)) - 1) with (Z.succ (Zpos (digits2_pos c) - 1)) by lia.
    rewrite Z.pow_succ_r by lia. revert IH. generalize (2 ^ (Zpos (digits2_pos c) - 1)). intros; lia.
  - cbn [digits2_pos]. rewrite Pos2Z.inj_succ. change (Zpos (xO c)) with (2 * Zpos c).
    replace (Z.succ (Zpos (digits2_pos c)) - 1) with (Z.succ (Zpos (digits2_pos c) - 1)) by lia.
    rewrite Z.pow_succ_r by lia. revert IH. generalize (2 ^ (Zpos (digits2_pos c) - 1)). intros; lia.
  - reflexivity || (cbn; discriminate).
Qed.
Lemma digits_le c n : 0 < n -> Zpos c < 2 ^ n -> Zpos (digits2_pos c) <= n.
Proof.
  intros Hn H. pose proof (digits_low c) as L. destruct (Z.le_gt_cases (Zpos (digits2_pos c)) n); [assumption|].
  assert (2 ^ n <= 2 ^ (Zpos (digits2_pos c) - 1)) by (apply Z.pow_le_mono_r; lia). lia.
Qed.
Lemma iter_pos_nat {A} (f : A -> A) : forall p x, iter_pos f p x = Nat.iter (Pos.to_nat p) f x.
Proof.
  assert (G : forall n m (x : A), Nat.iter n f (Nat.iter m f x) = Nat.iter (n + m) f x).
  { induction n as [|n IH]; intros m x; [reflexivity|].
    change (f (Nat.iter n f (Nat.iter m f x)) = f (Nat.iter (n + m) f x)). now rewrite IH. }
  assert (S1 : forall n (x : A), Nat.iter n f (f x) = Nat.iter (S n) f x).
  { intros n x. change (f x) with (Nat.iter 1 f x). rewrite G. f_equal. lia. }
  induction p as [p IH|p IH|]; intros x; cbn [iter_pos]; rewrite ?IH, ?G.
  - rewrite S1. f_equal. lia.
  - f_equal. lia.
  - reflexivity.
Qed.
Lemma shift_pos_sh p c : Zpower.shift_pos p c = sh (Pos.to_nat p) c.
Proof. unfold Zpower.shift_pos, sh. now rewrite Pos2Nat.inj_iter. Qed.
Lemma shr_sh : forall n k c, Nat.iter n shr_1 {| shr_m := Zpos (sh (n + k) c); shr_r := false; shr_s := false |}
  = {| shr_m := Zpos (sh k c); shr_r := false; shr_s := false |}.
Proof.
  induction n as [|n IH]; intros k c; [reflexivity|].
  change (Nat.iter (S n) shr_1 ?x) with (shr_1 (Nat.iter n shr_1 x)). replace (S n + k)%nat with (n + S k)%nat by lia.
  rewrite IH. reflexivity.
Qed.

Section Fmt.
Variables prec emax : Z.
Hypothesis (Hp : 0 < prec) (He : prec < emax) (He2 : 2 < emax).
Definition canon (s : bool) (c : positive) : spec_float :=
  S754_finite s (sh (Z.to_nat (prec - Zpos (digits2_pos c))) c) (Zpos (digits2_pos c) - prec).
Lemma fexp_small d : 1 <= d -> fexp prec emax d = d - prec.
Proof. unfold fexp, emin. lia. Qed.
Lemma aux_exact s c j : Zpos (digits2_pos c) <= prec -> prec - Zpos (digits2_pos c) <= Z.of_nat j ->
  binary_round_aux prec emax s (Zpos (sh j c)) (- Z.of_nat j) loc_Exact = canon s c.
Proof.
  intros Hd Hj. set (D := Zpos (digits2_pos c)) in *.
  assert (HD : 1 <= D) by (unfold D; lia). set (k := Z.to_nat (prec - D)).
  assert (S1 : shr_fexp prec emax (Zpos (sh j c)) (- Z.of_nat j) loc_Exact
               = ({| shr_m := Zpos (sh k c); shr_r := false; shr_s := false |}, D - prec)).
  { unfold shr_fexp, Zdigits2, shr_record_of_loc. rewrite digits_sh. fold D.
    replace (D + Z.of_nat j + - Z.of_nat j) with D by lia. rewrite fexp_small by exact HD.
    destruct (D - prec - - Z.of_nat j) as [|p|p] eqn:E; unfold shr.
    - replace j with k by (unfold k; lia). f_equal. unfold k. lia.
    - rewrite iter_pos_nat. replace j with (Pos.to_nat p + k)%nat at 1 by (unfold k; lia). rewrite shr_sh. f_equal. lia.
    - lia. }
  assert (S2 : shr_fexp prec emax (Zpos (sh k c)) (D - prec) loc_Exact
               = ({| shr_m := Zpos (sh k c); shr_r := false; shr_s := false |}, D - prec)).
  { unfold shr_fexp, Zdigits2, shr_record_of_loc. rewrite digits_sh. fold D.
    replace (D + Z.of_nat k + (D - prec)) with D by (unfold k; lia). rewrite fexp_small by exact HD.
    rewrite Z.sub_diag. reflexivity. }
  unfold binary_round_aux. rewrite S1. cbn [shr_m loc_of_shr_record round_nearest_even]. rewrite S2. cbn [shr_m].
  assert (L : Zle_bool (D - prec) (emax - prec) = true) by (apply Z.leb_le; lia). rewrite L. reflexivity.
Qed.
Lemma round_exact s c k : Zpos (digits2_pos c) <= prec -> binary_round prec emax s (sh k c) (- Z.of_nat k) = canon s c.
Proof.
  intros Hd. unfold binary_round, shl_align. rewrite digits_sh.
  replace (Zpos (digits2_pos c) + Z.of_nat k + - Z.of_nat k) with (Zpos (digits2_pos c)) by lia.
  rewrite fexp_small by lia. destruct (Zpos (digits2_pos c) - prec - - Z.of_nat k) as [|p|p] eqn:E.
  - apply aux_exact; lia.
  - apply aux_exact; lia.
  - rewrite shift_pos_sh, sh_add.
    replace (Zpos (digits2_pos c) - prec) with (- Z.of_nat (Pos.to_nat p + k)) by lia. apply aux_exact; lia.
Qed.
Definition of_Z (z : Z) : spec_float := binary_normalize prec emax z 0 false.
Lemma of_Z_pos c : Zpos (digits2_pos c) <= prec -> of_Z (Zpos c) = canon false c.
Proof. intros H. exact (round_exact false c 0 H). Qed.
Lemma of_Z_neg c : Zpos (digits2_pos c) <= prec -> of_Z (Zneg c) = canon true c.
Proof. intros H. exact (round_exact true c 0 H). Qed.
Lemma normalize_int z k : Z.abs z < 2 ^ prec ->
  binary_normalize prec emax (z * 2 ^ Z.of_nat k) (- Z.of_nat k) false = of_Z z.
Proof.
  intros H. destruct z as [|c|c].
  - reflexivity.
  - rewrite <- sh_Z. unfold binary_normalize. rewrite of_Z_pos by (apply digits_le; lia). apply round_exact. apply digits_le; lia.
  - replace (Zneg c * 2 ^ Z.of_nat k) with (- Zpos (sh k c)) by (rewrite sh_Z; lia). cbn [Z.opp]. unfold binary_normalize.
    rewrite of_Z_neg by (apply digits_le; lia). apply round_exact. apply digits_le; lia.
Qed.
Lemma align_sh j k c : (j <= k)%nat -> fst (shl_align (sh j c) (- Z.of_nat j) (- Z.of_nat k)) = sh k c.
Proof.
  intros H. unfold shl_align. destruct (- Z.of_nat k - - Z.of_nat j) as [|p|p] eqn:E; cbn [fst].
  - f_equal. lia.
  - lia.
  - rewrite shift_pos_sh, sh_add. f_equal. lia.
Qed.
(** A nonzero integer in the format, as a signed mantissa. *)
Lemma of_Z_shape z : z <> 0 -> Z.abs z < 2 ^ prec -> exists s c j,
  of_Z z = S754_finite s (sh j c) (- Z.of_nat j) /\ z = cond_Zopp s (Zpos c).
Proof.
  intros Hz H. destruct z as [|c|c]; [lia| |].
  - exists false, c, (Z.to_nat (prec - Zpos (digits2_pos c))). assert (D : Zpos (digits2_pos c) <= prec) by (apply digits_le; lia).
    rewrite of_Z_pos by exact D. unfold canon. split; [f_equal; lia|reflexivity].
  - exists true, c, (Z.to_nat (prec - Zpos (digits2_pos c))). assert (D : Zpos (digits2_pos c) <= prec) by (apply digits_le; lia).
    rewrite of_Z_neg by exact D. unfold canon. split; [f_equal; lia|reflexivity].
Qed.
Lemma add_int a b : Z.abs a < 2 ^ prec -> Z.abs b < 2 ^ prec -> Z.abs (a + b) < 2 ^ prec ->
  SFadd prec emax (of_Z a) (of_Z b) = of_Z (a + b).
Proof.
  intros Ha Hb Hab. destruct (Z.eq_dec a 0) as [->|Na], (Z.eq_dec b 0) as [->|Nb].
  - reflexivity.
  - destruct (of_Z_shape b Nb Hb) as (s & c & j & E & _). rewrite Z.add_0_l, E. reflexivity.
  - destruct (of_Z_shape a Na Ha) as (s & c & j & E & _). rewrite Z.add_0_r, E. reflexivity.
  - destruct (of_Z_shape a Na Ha) as (s & c & j & Ea & E), (of_Z_shape b Nb Hb) as (s' & c' & j' & Eb & E').
    rewrite Ea, Eb. unfold SFadd. set (k := Nat.max j j').
    replace (Z.min (- Z.of_nat j) (- Z.of_nat j')) with (- Z.of_nat k) by (unfold k; lia).
    rewrite !align_sh by (unfold k; lia). rewrite <- (normalize_int (a + b) k Hab). f_equal.
    rewrite !sh_Z, E, E'. destruct s, s'; cbn [cond_Zopp]; lia.
Qed.
(** The exception: 0 - 0 and x - x are +0, and 0 - b is -b. *)
Lemma sub_int a b : Z.abs a < 2 ^ prec -> Z.abs b < 2 ^ prec -> Z.abs (a - b) < 2 ^ prec ->
  SFsub prec emax (of_Z a) (of_Z b) = of_Z (a - b).
Proof.
  intros Ha Hb Hab. destruct (Z.eq_dec a 0) as [->|Na], (Z.eq_dec b 0) as [->|Nb].
  - reflexivity.
  - destruct b as [|c|c]; [lia| |]; cbn [Z.sub Z.add Z.opp].
    + rewrite of_Z_pos by (apply digits_le; lia). change (0 - Zpos c) with (Zneg c). rewrite of_Z_neg by (apply digits_le; lia). reflexivity.
    + rewrite of_Z_neg by (apply digits_le; lia). change (0 - Zneg c) with (Zpos c). rewrite of_Z_pos by (apply digits_le; lia). reflexivity.
  - destruct (of_Z_shape a Na Ha) as (s & c & j & E & _). rewrite Z.sub_0_r, E. reflexivity.
  - destruct (of_Z_shape a Na Ha) as (s & c & j & Ea & E), (of_Z_shape b Nb Hb) as (s' & c' & j' & Eb & E').
    rewrite Ea, Eb. unfold SFsub. set (k := Nat.max j j').
    replace (Z.min (- Z.of_nat j) (- Z.of_nat j')) with (- Z.of_nat k) by (unfold k; lia).
    rewrite !align_sh by (unfold k; lia). rewrite <- (normalize_int (a - b) k Hab). f_equal.
    rewrite !sh_Z, E, E'. destruct s, s'; cbn [cond_Zopp]; lia.
Qed.
End Fmt.
Lemma f_of_Z_of z : f_of_Z z = of_Z 24 128 z.
Proof. destruct z; reflexivity. Qed.
Lemma d_of_Z_of z : d_of_Z z = of_Z 53 1024 z.
Proof. destruct z; reflexivity. Qed.
Lemma f_add_int a b : Z.abs a < 2 ^ 24 -> Z.abs b < 2 ^ 24 -> Z.abs (a + b) < 2 ^ 24 -> f_add (f_of_Z a) (f_of_Z b) = f_of_Z (a + b).
Proof. rewrite !f_of_Z_of. apply add_int; lia. Qed.
Lemma f_sub_int a b : Z.abs a < 2 ^ 24 -> Z.abs b < 2 ^ 24 -> Z.abs (a - b) < 2 ^ 24 -> f_sub (f_of_Z a) (f_of_Z b) = f_of_Z (a - b).
Proof. rewrite !f_of_Z_of. apply sub_int; lia. Qed.
Lemma d_add_int a b : Z.abs a < 2 ^ 53 -> Z.abs b < 2 ^ 53 -> Z.abs (a + b) < 2 ^ 53 -> d_add (d_of_Z a) (d_of_Z b) = d_of_Z (a + b).
Proof. rewrite !d_of_Z_of. apply add_int; lia. Qed.
Lemma d_sub_int a b : Z.abs a < 2 ^ 53 -> Z.abs b < 2 ^ 53 -> Z.abs (a - b) < 2 ^ 53 -> d_sub (d_of_Z a) (d_of_Z b) = d_of_Z (a - b).
Proof. rewrite !d_of_Z_of. apply sub_int; lia. Qed.
Lemma sh_zero z : of_Z 24 128 z = S754_zero false -> Z.abs z < 2 ^ 24 -> z = 0.
Proof.
  intros H Hz. destruct (Z.eq_dec z 0) as [|N]; [assumption|].
  destruct (of_Z_shape 24 128 ltac:(lia) ltac:(lia) ltac:(lia) z N Hz) as (s & c & j & E & _). congruence.
Qed.
