(** Thresholds, and when quantization goes through. *)
From Verif Require Import Base Messaging_Model Projection_Model Delta_Model Neuron_Model Pipeline_Model
  Stdp_Model Additive_Model Train_Model Net_Model FloatReal Normalize_Proofs Classify_Model Metrics_Proofs Storage_Proofs2 Additive_Proofs2
  Quant_Model Quant_Proofs Quant_Spec Quant_Proofs2 Quant_Proofs3.
From Coq Require Import Reals Psatz.
From Flocq Require Import Core IEEE754.BinarySingleNaN Relative.
Local Instance P24 : Prec_gt_0 24 := eq_refl.
Local Instance E128 : Prec_lt_emax 24 128 := eq_refl.
Local Instance P53 : Prec_gt_0 53 := eq_refl.
Local Instance E1024 : Prec_lt_emax 53 1024 := eq_refl.
Open Scope R_scope.

Lemma sum_real p : (ap_thr p < 65536)%N -> fin64 (ap_add p) -> 0 <= val (ap_add p) -> Base.is_finite (d_add (d_of_Z (Z.of_N (ap_thr p))) (ap_add p)) = true ->
  let s := val (d_add (d_of_Z (Z.of_N (ap_thr p))) (ap_add p)) in
  s = rd (IZR (Z.of_N (ap_thr p)) + val (ap_add p)) /\ IZR (Z.of_N (ap_thr p)) <= s /\ val (ap_add p) <= s /\ (Z.of_N (ap_thr p) <= Ztrunc s)%Z /\ val (ap_add p) < IZR (Ztrunc s) + 1.
Proof.
  intros Ht Fa Pa F. destruct (d_of_N_real (ap_thr p) ltac:(change (2 ^ 24)%N with 16777216%N; lia)) as [T1 T2].
  destruct (add_fin 53 1024 P53 E1024 _ _ T1 Fa F) as [G1 G2]. cbn zeta. unfold d_add in *. rewrite G2, T2.
  assert (P : 0 <= IZR (Z.of_N (ap_thr p))) by (apply IZR_le; lia).
  assert (A : IZR (Z.of_N (ap_thr p)) <= rd (IZR (Z.of_N (ap_thr p)) + val (ap_add p))) by (apply (rnd_ge_format 53 1024 P53); [rewrite <- T2; now apply fin_format|lra]).
  assert (B : val (ap_add p) <= rd (IZR (Z.of_N (ap_thr p)) + val (ap_add p))) by (apply (rnd_ge_format 53 1024 P53); [now apply fin_format|lra]).
  split; [reflexivity|]. split; [exact A|]. split; [exact B|]. rewrite Ztrunc_floor by lra. split; [apply Zfloor_lub; exact A|].
  eapply Rle_lt_trans; [exact B|]. pose proof (Zfloor_ub (rd (IZR (Z.of_N (ap_thr p)) + val (ap_add p)))). exact H.
Qed.
(** The first part after scaling. *)
Lemma threshold_real M s t t' : scale_for M s -> (t < 65536)%N -> IZR (Z.of_N t) <= M -> to_u16 (f_mul (f_of_Z (Z.of_N t)) s) = Ret t' ->
  (t' <= 255)%N /\ 255 * IZR (Z.of_N t) / M - 1 - bpow radix2 (-15) < IZR (Z.of_N t') <= 255 * IZR (Z.of_N t) / M + bpow radix2 (-15).
Proof.
  intros Hs Ht L H. destruct (of_N_exact t ltac:(change (2 ^ 24)%N with 16777216%N; lia)) as [T1 T2]. 
  assert (P : 0 <= IZR (Z.of_N t)) by (apply IZR_le; lia).
  destruct (prod_real M s _ Hs T1) as (A & B & C & D); [rewrite T2, Rabs_pos_eq; assumption|].
  apply to_u16_inv in H as (_ & H & _). rewrite T2 in D. apply Rabs_le_inv in D.
  assert (Q : 0 <= val (f_mul (f_of_Z (Z.of_N t)) s)).
  { rewrite B, T2. apply (rnd_ge_format 24 128 P24); [apply generic_format_0|]. apply Rmult_le_pos; [exact P|].
    destruct Hs as (_ & Pm & e & E1 & ->). rewrite b24 in E1. apply Rabs_le_inv in E1.
    apply Rmult_le_pos; [apply Rmult_le_pos; [lra|apply Rlt_le, Rinv_0_lt_compat, Pm]|lra]. }
  rewrite Ztrunc_floor in H by exact Q. rewrite H. pose proof (Zfloor_lb (val (f_mul (f_of_Z (Z.of_N t)) s))). pose proof (Zfloor_ub (val (f_mul (f_of_Z (Z.of_N t)) s))).
  split; [|lra]. assert (Zfloor (val (f_mul (f_of_Z (Z.of_N t)) s)) < 256)%Z by (apply lt_IZR; lra). lia.
Qed.
(** The second part after scaling. *)
Lemma scale_pos M s : scale_for M s -> 0 < val s < bpow radix2 128.
Proof.
  intros (Fs & Pm & e & E1 & E2). split.
  - rewrite E2. rewrite b24 in E1. apply Rabs_le_inv in E1. apply Rmult_lt_0_compat; [apply Rmult_lt_0_compat; [lra|now apply Rinv_0_lt_compat]|lra].
  - pose proof (fin_bound 24 128 _ Fs) as B. unfold bounded_R in B. apply Rabs_def2 in B. lra.
Qed.
Lemma rd_bpow r e : (-1074 <= e)%Z -> 0 <= r <= bpow radix2 e -> 0 <= rd r <= bpow radix2 e.
Proof.
  intros He [A B]. split; [apply (rnd_ge_format 53 1024 P53); [apply generic_format_0|exact A]|].
  apply (rnd_le_format 53 1024 P53); [|exact B]. change (SpecFloat.fexp 53 1024) with (FLT_exp (-1074) 53). apply generic_format_bpow. unfold FLT_exp. lia.
Qed.
Lemma add_real64 M s a : scale_for M s -> fin64 a -> 0 <= val a <= 131072 ->
  fin64 (d_mul a (d_of_f s)) /\ val (d_mul a (d_of_f s)) = rd (val a * val s) /\ 0 <= val (d_mul a (d_of_f s)).
Proof.
  intros Hs Fa La. pose proof (scale_pos _ _ Hs) as Ps. destruct Hs as (Fs & _). destruct (d_of_f_real s Fs) as [S1 S2].
  assert (R : 0 <= rd (val a * val s) <= bpow radix2 145).
  { apply rd_bpow; [lia|]. split; [apply Rmult_le_pos; lra|]. change 145%Z with (17 + 128)%Z. rewrite bpow_plus. change (bpow radix2 17) with 131072. apply Rmult_le_compat; lra. }
  destruct (mul_real 53 1024 P53 E1024 a (d_of_f s) Fa S1) as [G1 G2].
  { rewrite S2. unfold bounded_R. rewrite Rabs_pos_eq by lra. eapply Rle_lt_trans; [apply R|]. apply bpow_lt. lia. }
  unfold d_mul. split; [exact G1|]. rewrite G2, S2. split; [reflexivity|lra].
Qed.
Lemma add_near M s a : scale_for M s -> fin64 a -> 0 <= val a <= 131072 ->
  Rabs (val (d_mul a (d_of_f s)) - 255 * val a / M) <= bpow radix2 (-23) * (255 * val a / M) + bpow radix2 (-1000).
Proof.
  intros Hs Fa La. destruct (add_real64 _ _ _ Hs Fa La) as (_ & -> & _). destruct Hs as (_ & Pm & e & E1 & ->).
  destruct (any_err 53 1024 P53 (val a * (255 / M * (1 + e)))) as (e2 & n & B1 & B2 & ->).
  set (q := 255 * val a / M). assert (Q : 0 <= q) by (apply Rmult_le_pos; [lra|apply Rlt_le, Rinv_0_lt_compat, Pm]).
  replace (val a * (255 / M * (1 + e))) with (q * (1 + e)) by (unfold q; field; lra).
  replace (q * (1 + e) * (1 + e2) + n - q) with (q * (e + e2 + e * e2) + n) by ring.
  change (- (53) + 1)%Z with (-52)%Z in B1. change (3 - 1024 - 53)%Z with (-1074)%Z in B2.
  assert (B1' : Rabs e2 <= / 1073741824).
  { eapply Rle_trans; [exact B1|]. change (/ 1073741824) with (bpow radix2 (-30)). assert (bpow radix2 (-52) <= bpow radix2 (-30)) by (apply bpow_le; lia). pose proof (bpow_gt_0 radix2 (-52)). lra. }
  assert (B2' : Rabs n <= bpow radix2 (-1000)).
  { eapply Rle_trans; [exact B2|]. assert (bpow radix2 (-1074) <= bpow radix2 (-1000)) by (apply bpow_le; lia). pose proof (bpow_gt_0 radix2 (-1074)). lra. }
  eapply Rle_trans; [apply Rabs_triang|]. apply Rplus_le_compat; [|exact B2']. rewrite Rabs_mult, (Rabs_pos_eq q Q), Rmult_comm.
  apply Rmult_le_compat_r; [exact Q|]. rewrite b24 in E1. change (bpow radix2 (-23)) with (/ 8388608).
  apply Rabs_le_inv in E1. apply Rabs_le_inv in B1'. apply Rabs_le. nra.
Qed.

(** One neuron. *)
Lemma sane_whole n : sane n -> (0 <= whole_threshold n < 65536)%Z -> let '(p, _, _) := n in Base.is_finite (d_add (d_of_Z (Z.of_N (ap_thr p))) (ap_add p)) = true ->
  IZR (Z.of_N (ap_thr p)) <= IZR (whole_threshold n) /\ val (ap_add p) < IZR (whole_threshold n) + 1.
Proof.
  destruct n as [[p st] x]. intros (S1 & S2 & S3) W F. destruct (sum_real p S1 S2 S3 F) as (_ & _ & _ & A & B). cbn [whole_threshold] in *. split; [now apply IZR_le|exact B].
Qed.
Lemma max_threshold_fin : forall l m mt, max_threshold l m = Ret mt ->
  Forall (fun n => let '(p, _, _) := n in Base.is_finite (d_add (d_of_Z (Z.of_N (ap_thr p))) (ap_add p)) = true /\ (0 <= whole_threshold n < 65536)%Z) l.
Proof.
  induction l as [|[[p s] x] t IH]; intros m mt H; cbn [max_threshold] in H; [constructor|].
  destruct (to_u16 (d_add (d_of_Z (Z.of_N (ap_thr p))) (ap_add p))) as [k| |] eqn:E; try discriminate. cbn [obind] in H.
  apply to_u16_inv in E as (E0 & E1 & E2). constructor; [split; [exact E0|cbn [whole_threshold]; lia]|eauto].
Qed.
(** Scaling keeps thresholds ordinary and brings them into the range. *)
Lemma scaled_sane M s n n' : scale_for M s -> sane n -> scaled_neuron s n n' -> (let '(p, _, _) := n in Base.is_finite (d_add (d_of_Z (Z.of_N (ap_thr p))) (ap_add p)) = true) ->
  (0 <= whole_threshold n < 65536)%Z -> IZR (whole_threshold n) <= M -> sane n' /\ low n'.
Proof.
  intros Hs Sn Sc F W L. pose proof (sane_whole n Sn W) as Q. destruct n as [[p st] x], n' as [[p' st'] x']. destruct Sn as (S1 & S2 & S3), Sc as (_ & _ & _ & A & B).
  specialize (Q F). destruct Q as [Q1 Q2]. cbn [sane low].
  destruct (threshold_real M s _ _ Hs S1 ltac:(lra) A) as [T1 _]. destruct W as [_ W]. apply IZR_lt in W.
  destruct (add_real64 M s (ap_add p) Hs S2 ltac:(lra)) as (D1 & _ & D3). rewrite B. split; [split; [lia|split; assumption]|exact T1].
Qed.
