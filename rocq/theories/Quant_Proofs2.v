(** Quantization of one projection. *)
From Verif Require Import Base Messaging_Model Projection_Model Delta_Model Neuron_Model Pipeline_Model
  Stdp_Model Additive_Model Train_Model Net_Model FloatReal Normalize_Proofs Classify_Model Metrics_Proofs Storage_Proofs2 Additive_Proofs2
  Quant_Model Quant_Proofs Quant_Spec.
From Coq Require Import Reals Psatz.
From Flocq Require Import Core IEEE754.BinarySingleNaN Relative.
Local Instance P24 : Prec_gt_0 24 := eq_refl.
Local Instance E128 : Prec_lt_emax 24 128 := eq_refl.
Local Instance P53 : Prec_gt_0 53 := eq_refl.
Local Instance E1024 : Prec_lt_emax 53 1024 := eq_refl.

(** The extremes. *)
Lemma lt_val x y : fin32 x -> fin32 y -> (f_lt x y = true /\ (val x < val y)%R) \/ (f_lt x y = false /\ (val y <= val x)%R).
Proof.
  intros Fx Fy. unfold f_lt. rewrite (lt_real 24 128 x y Fx Fy). destruct (Rlt_bool_spec (val x) (val y)); auto.
Qed.
Lemma zero_fin : fin32 (S754_zero false). Proof. split; reflexivity. Qed.
Lemma extremes_from l : Forall fin32 l -> forall hi lo, fin32 hi -> fin32 lo ->
  let r := fold_left (fun mm x => (if f_lt (fst mm) x then x else fst mm, if f_gt (snd mm) x then x else snd mm)) l (hi, lo) in
  fin32 (fst r) /\ fin32 (snd r) /\ (val hi <= val (fst r))%R /\ (val (snd r) <= val lo)%R /\
  Forall (fun x => val (snd r) <= val x <= val (fst r))%R l /\ In (fst r) (hi :: l) /\ In (snd r) (lo :: l).
Proof.
  induction l as [|x t IH]; intros Fl hi lo Fh Fo; cbn [fold_left].
  - cbn. repeat split; auto; try (apply Rle_refl). apply Fh. apply Fh. apply Fo. apply Fo.
  - apply Forall_cons_iff in Fl as [Fx Ft]. cbn [fst snd].
    set (hi' := if f_lt hi x then x else hi). set (lo' := if f_gt lo x then x else lo).
    assert (Fh' : fin32 hi') by (unfold hi'; destruct (f_lt hi x); assumption).
    assert (Fo' : fin32 lo') by (unfold lo'; destruct (f_gt lo x); assumption).
    assert (H1 : (val hi <= val hi' /\ val x <= val hi')%R) by (unfold hi'; destruct (lt_val hi x Fh Fx) as [[-> H]|[-> H]]; lra).
    assert (H2 : (val lo' <= val lo /\ val lo' <= val x)%R) by (unfold lo'; change (f_gt lo x) with (f_lt x lo); destruct (lt_val x lo Fx Fo) as [[-> H]|[-> H]]; lra).
    assert (I1 : hi' = hi \/ hi' = x) by (unfold hi'; destruct (f_lt hi x); auto).
    assert (I2 : lo' = lo \/ lo' = x) by (unfold lo'; destruct (f_gt lo x); auto).
    specialize (IH Ft hi' lo' Fh' Fo'). cbn zeta in IH. destruct IH as (A & B & C & D & E & F & G).
    split; [exact A|]. split; [exact B|]. split; [lra|]. split; [lra|]. split; [constructor; [lra|exact E]|].
    split.
    + destruct F as [<-|F]; [destruct I1 as [->| ->]; cbn; auto|cbn; auto].
    + destruct G as [<-|G]; [destruct I2 as [->| ->]; cbn; auto|cbn; auto].
Qed.
Lemma max_val a b : fin32 a -> fin32 b -> let m := if f_lt a b then b else a in fin32 m /\ val m = Rmax (val a) (val b).
Proof.
  intros Fa Fb. cbn zeta. destruct (lt_val a b Fa Fb) as [[-> H]|[-> H]]; (split; [assumption|]); [rewrite Rmax_right|rewrite Rmax_left]; lra.
Qed.
Definition total_max (l : list flt) (mt : N) : flt :=
  max3 (f_abs (fst (extremes l))) (f_abs (snd (extremes l))) (f_abs (f_of_Z (Z.of_N mt))).
Lemma total_max_real l mt : Forall fin32 l -> (mt < 65536)%N ->
  fin32 (total_max l mt) /\ largest (map (fun x => Rabs (val x)) l ++ [IZR (Z.of_N mt)]) (val (total_max l mt)).
Proof.
  intros Fl Hm. destruct (extremes_from l Fl _ _ zero_fin zero_fin) as (A & B & C & D & E & F & G).
  fold (extremes l) in A, B, C, D, E, F, G. change (val (S754_zero false)) with 0%R in C, D.
  destruct (abs_fin _ A) as [A1 A2], (abs_fin _ B) as [B1 B2]. destruct (of_N_exact mt ltac:(change (2 ^ 24)%N with 16777216%N; lia)) as [T0 T00].
  destruct (abs_fin _ T0) as [T1 T2]. rewrite T00, Rabs_pos_eq in T2 by (apply IZR_le; lia).
  rewrite Rabs_pos_eq in A2 by exact C. rewrite Rabs_left1 in B2 by exact D.
  unfold total_max, max3. destruct (max_val _ _ A1 B1) as [M1 M2]. destruct (max_val _ _ M1 T1) as [N1 N2]. cbn zeta in *.
  split; [exact N1|]. rewrite N2, M2, A2, B2, T2. set (h := val (fst (extremes l))) in *. set (o := val (snd (extremes l))) in *. set (t := IZR (Z.of_N mt)).
  assert (T : (0 <= t)%R) by (apply IZR_le; lia).
  split.
  - apply in_or_app. destruct (Rle_dec (Rmax h (- o)) t) as [L|L]; [right; left; now rewrite Rmax_right|].
    rewrite Rmax_left by lra. left. apply in_map_iff.
    destruct (Rle_dec h (- o)) as [L2|L2].
    + rewrite Rmax_right in * by exact L2. destruct G as [G|G]; [unfold o in *; rewrite <- G in *; cbn in *; lra|]. exists (snd (extremes l)). split; [apply Rabs_left1; exact D|exact G].
    + rewrite Rmax_left in * by lra. destruct F as [F|F]; [unfold h in *; rewrite <- F in *; cbn in *; lra|]. exists (fst (extremes l)). split; [apply Rabs_pos_eq; exact C|exact F].
  - apply Forall_app. split; [|constructor; [apply Rmax_r|constructor]].
    apply Forall_forall. intros y Hy. apply in_map_iff in Hy as (x & <- & Hx). rewrite Forall_forall in E. specialize (E x Hx).
    eapply Rle_trans; [|apply Rmax_l]. unfold Rabs. destruct (Rcase_abs (val x)); [eapply Rle_trans; [|apply Rmax_r]|eapply Rle_trans; [|apply Rmax_l]]; lra.
Qed.
Lemma max_threshold_real : forall l m mt, max_threshold l m = Ret mt -> (m < 65536)%N ->
  (mt < 65536)%N /\ (m <= mt)%N /\ Forall (fun n => 0 <= whole_threshold n <= Z.of_N mt)%Z l /\ (mt = m \/ exists n, In n l /\ whole_threshold n = Z.of_N mt).
Proof.
  induction l as [|[[p s] x] t IH]; intros m mt H Hm; cbn [max_threshold] in H.
  - assert (m = mt) by (injection H; auto). subst. repeat split; auto. lia.
  - destruct (to_u16 (d_add (d_of_Z (Z.of_N (ap_thr p))) (ap_add p))) as [k| |] eqn:E; try discriminate. cbn [obind] in H.
    apply to_u16_inv in E as (_ & E1 & E2). destruct (IH _ _ H) as (A & B & C & D); [lia|].
    split; [exact A|]. split; [lia|]. split; [constructor; [cbn [whole_threshold]; lia|exact C]|].
    destruct D as [D|(n & D1 & D2)]; [|right; exists n; cbn; auto].
    destruct (N.max_spec m k) as [[_ M]|[_ M]]; [right; exists (p, s, x); cbn [In whole_threshold]; split; [auto|lia]|left; lia].
Qed.
(** The largest magnitude of a projection and a population that is not empty. *)
Lemma total_max_largest w l mt : Forall fin32 (syn_weights (np_kind w)) -> l <> [] -> max_threshold l 0 = Ret mt ->
  fin32 (total_max (syn_weights (np_kind w)) mt) /\ largest (magnitudes w l) (val (total_max (syn_weights (np_kind w)) mt)).
Proof.
  intros Fw Hl Hm. destruct (max_threshold_real _ _ _ Hm ltac:(lia)) as (A & _ & C & D).
  destruct (total_max_real _ mt Fw A) as [T [I G]]. split; [exact T|]. unfold magnitudes.
  apply Forall_app in G as [G1 G2]. apply Forall_cons_iff in G2 as [G2 _].
  assert (D' : exists n, In n l /\ whole_threshold n = Z.of_N mt).
  { destruct D as [->|D]; [|exact D]. destruct l as [|n l]; [congruence|]. exists n. apply Forall_cons_iff in C as [C _]. cbn. split; [auto|lia]. }
  destruct D' as (n & D1 & D2). split.
  - apply in_or_app. apply in_app_or in I as [I|[I|[]]]; [left; exact I|right]. apply in_map_iff. exists n. split; [rewrite D2; exact I|exact D1].
  - apply Forall_app. split; [exact G1|]. apply Forall_forall. intros y Hy. apply in_map_iff in Hy as (n' & <- & Hn). rewrite Forall_forall in C.
    eapply Rle_trans; [|exact G2]. apply IZR_le. specialize (C n' Hn). lia.
Qed.

(** The scale. *)
Definition scale_for (M : R) (s : flt) : Prop := fin32 s /\ (0 < M)%R /\ exists e, (Rabs e <= bpow radix2 (-24))%R /\ val s = (255 / M * (1 + e))%R.
Lemma f255 : fin32 (f_of_Z 255) /\ val (f_of_Z 255) = 255%R.
Proof. exact (of_N_exact 255 ltac:(lia)). Qed.
Lemma scale_real T : fin32 T -> (0 <= val T)%R -> Base.is_finite (f_div (f_of_Z 255) T) = true -> scale_for (val T) (f_div (f_of_Z 255) T).
Proof.
  intros FT P F. destruct f255 as [F2 V2].
  assert (NZ : val T <> 0%R).
  { destruct T as [s|s| |s m e]; try (destruct FT; discriminate).
    cbn [SF2R]. apply F2R_neq_0. cbn. destruct s; discriminate. }
  destruct (div_fin 24 128 P24 E128 _ _ F2 FT NZ F) as [G1 G2]. unfold f_div in *.
  split; [exact G1|]. split; [lra|]. rewrite V2 in G2.
  destruct (rel_err (255 / val T)) as (e & E1 & E2).
  - pose proof (fin_bound 24 128 _ FT) as B. unfold bounded_R in B. rewrite Rabs_pos_eq in B by exact P.
    assert (0 < / val T)%R by (apply Rinv_0_lt_compat; lra). rewrite Rabs_pos_eq by (apply Rmult_le_pos; lra).
    assert (bpow radix2 (-128) <= / val T)%R.
    { replace (bpow radix2 (-128)) with (/ bpow radix2 128)%R by (symmetry; apply (bpow_opp radix2 128)). apply Rinv_le; lra. }
    change (-126)%Z with (2 + -128)%Z. rewrite bpow_plus. change (bpow radix2 2) with 4%R. unfold Rdiv. nra.
  - exists e. split; [exact E1|]. rewrite G2. exact E2.
Qed.

(** Scaling a number not larger than the largest. *)
Lemma b24 : bpow radix2 (-24) = (/ 16777216)%R. Proof. reflexivity. Qed.
Lemma fmt_top : generic_format radix2 fx (255 + / 65536)%R.
Proof.
  change fx with (FLT_exp (-149) 24). apply generic_format_FLT. exists (Float radix2 16711681 (-16)); cbn [Fnum Fexp]; [|change (Zpower radix2 24) with 16777216%Z; lia|lia].
  unfold F2R. cbn [Fnum Fexp]. change (bpow radix2 (-16)) with (/ 65536)%R. lra.
Qed.
Lemma ratio_le x M : (0 < M)%R -> (Rabs x <= M)%R -> (-255 <= 255 * x / M <= 255)%R.
Proof.
  intros P H. assert (-1 <= x / M <= 1)%R.
  { apply Rabs_le_inv. unfold Rdiv. rewrite Rabs_mult, (Rabs_pos_eq (/ M)) by (apply Rlt_le, Rinv_0_lt_compat, P).
    apply (Rmult_le_reg_r M); [exact P|]. rewrite Rmult_assoc, Rinv_l, Rmult_1_r by lra. lra. }
  unfold Rdiv in *. lra.
Qed.
Lemma prod_real M s x : scale_for M s -> fin32 x -> (Rabs (val x) <= M)%R ->
  fin32 (f_mul x s) /\ val (f_mul x s) = rn (val x * val s) /\ (- (255 + / 65536) <= val (f_mul x s) <= 255 + / 65536)%R /\
  (Rabs (val (f_mul x s) - 255 * val x / M) <= bpow radix2 (-15))%R.
Proof.
  intros (Fs & P & e & E1 & E2) Fx H. pose proof (ratio_le _ _ P H) as Q. set (q := (255 * val x / M)%R) in *.
  assert (E : (val x * val s = q * (1 + e))%R) by (rewrite E2; unfold q; field; lra).
  rewrite b24 in E1. apply Rabs_le_inv in E1.
  assert (R : (- (255 + / 65536) <= val x * val s <= 255 + / 65536)%R) by (rewrite E; nra).
  assert (R2 : (- (255 + / 65536) <= rn (val x * val s) <= 255 + / 65536)%R).
  { split; [apply (rnd_ge_format 24 128 P24); [apply generic_format_opp, fmt_top|lra]|apply (rnd_le_format 24 128 P24); [apply fmt_top|lra]]. }
  destruct (mul_real 24 128 P24 E128 x s Fx Fs) as [G1 G2].
  { apply small_bounded. apply Rabs_le. assert (65536 <= bpow radix2 64)%R by (change 65536%R with (bpow radix2 16); apply bpow_le; lia). lra. }
  unfold f_mul. split; [exact G1|]. split; [exact G2|]. rewrite G2. split; [exact R2|].
  destruct (any_err 24 128 P24 (val x * val s)) as (e2 & n & B1 & B2 & B3). rewrite B3, E.
  change (- (24) + 1)%Z with (-23)%Z in B1. change (3 - 128 - 24)%Z with (-149)%Z in B2.
  assert (N : (bpow radix2 (-149) <= bpow radix2 (-60))%R) by (apply bpow_le; lia).
  change (bpow radix2 (-60)) with (/ 1152921504606846976)%R in N. change (bpow radix2 (-23)) with (/ 8388608)%R in B1.
  apply Rabs_le_inv in B1. apply Rabs_le_inv in B2. change (bpow radix2 (-15)) with (/ 32768)%R.
  replace (q * (1 + e) * (1 + e2) + n - q)%R with (q * (e + e2 + e * e2) + n)%R by ring.
  apply Rabs_le.
  assert (S : (- / 8388000 <= e + e2 + e * e2 <= / 8388000)%R) by nra. 
  assert (T : (-255 * / 8388000 <= q * (e + e2 + e * e2) <= 255 * / 8388000)%R) by nra.
  lra.
Qed.
Lemma weight_real M s x : scale_for M s -> fin32 x -> (Rabs (val x) <= M)%R ->
  fin32 (f_round (f_mul x s)) /\ val (f_round (f_mul x s)) = IZR (near (rn (val x * val s))) /\ quantized M x (f_round (f_mul x s)).
Proof.
  intros Hs Fx H. destruct (prod_real _ _ _ Hs Fx H) as (A & B & C & D).
  destruct (f_round_real (f_mul x s) A) as [R1 R2].
  { apply Rabs_le. change (IZR (2 ^ 23)) with 8388608%R. lra. }
  split; [exact R1|]. split; [rewrite R2, B; reflexivity|]. split; [exact R1|]. exists (near (val (f_mul x s))). split; [exact R2|].
  split.
  - split.
    + pose proof (near_le (IZR (-255) - / 4) (val (f_mul x s))) as L. 
      assert (Nn : near (IZR (-255) - / 4) = (-255)%Z).
      { replace (IZR (-255) - / 4)%R with (- (255 + / 4))%R by lra. rewrite near_opp, near_nonneg by lra. replace (Zfloor (255 + / 4 + / 2)) with 255%Z; [reflexivity|]. symmetry. apply Zfloor_imp. change (255 + 1)%Z with 256%Z. lra. }
      rewrite Nn in L. apply L. lra.
    + pose proof (near_le (val (f_mul x s)) (255 + / 4)) as L.
      assert (Nn : near (255 + / 4) = 255%Z) by (rewrite near_nonneg by lra; apply Zfloor_imp; change (255 + 1)%Z with 256%Z; lra).
      rewrite Nn in L. apply L. lra.
  - pose proof (Znearest_half (Zle_bool 0) (val (f_mul x s))) as N.
    apply Rabs_le_inv in N. apply Rabs_le_inv in D. apply Rabs_le. lra.
Qed.
Lemma weight_mono M s x y : scale_for M s -> fin32 x -> fin32 y -> (Rabs (val x) <= M)%R -> (Rabs (val y) <= M)%R -> (val x <= val y)%R ->
  (val (f_round (f_mul x s)) <= val (f_round (f_mul y s)))%R.
Proof.
  intros Hs Fx Fy Hx Hy L. destruct (weight_real _ _ _ Hs Fx Hx) as (_ & -> & _), (weight_real _ _ _ Hs Fy Hy) as (_ & -> & _).
  apply IZR_le, near_le, (rnd_le 24 128 P24). apply Rmult_le_compat_r; [|exact L].
  destruct Hs as (_ & P & e & E1 & ->). rewrite b24 in E1. apply Rabs_le_inv in E1.
  apply Rmult_le_pos; [apply Rmult_le_pos; [lra|apply Rlt_le, Rinv_0_lt_compat, P]|lra].
Qed.
