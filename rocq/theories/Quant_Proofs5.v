(** Quantization of networks: thresholds at the end, and when quantization goes through. *)
From Verif Require Import Base Messaging_Model Projection_Model Delta_Model Neuron_Model Pipeline_Model
  Stdp_Model Additive_Model Train_Model Net_Model FloatReal Normalize_Proofs Classify_Model Metrics_Proofs Storage_Proofs2 Additive_Proofs2
  Quant_Model Quant_Proofs Quant_Spec Quant_Proofs2 Quant_Proofs3 Quant_Proofs4.
From Coq Require Import Reals Psatz.
From Flocq Require Import Core IEEE754.BinarySingleNaN Relative.
Local Instance P24 : Prec_gt_0 24 := eq_refl.
Local Instance E128 : Prec_lt_emax 24 128 := eq_refl.
Local Instance P53 : Prec_gt_0 53 := eq_refl.
Local Instance E1024 : Prec_lt_emax 53 1024 := eq_refl.
Open Scope R_scope.

Lemma one_thresholds w pops r l : quantize_one w pops = Ret r -> pop_lookup (np_post w) pops = Some (NStdpAltai l) -> l <> [] -> Forall fin32 (syn_weights (np_kind w)) -> Forall sane l ->
  exists M s l', largest (magnitudes w l) M /\ scale_for M s /\ Forall2 (scaled_neuron s) l l' /\ pop_lookup (np_post w) (snd r) = Some (NStdpAltai l') /\
    Forall (fun n => sane n /\ low n) l' /\ Forall (fun n => let '(p, _, _) := n in IZR (Z.of_N (ap_thr p)) <= M /\ 0 <= val (ap_add p) <= 131072) l.
Proof.
  intros H L Hl Fw Sl. destruct (one_scale _ _ _ H l L Hl Fw) as (M & s & l' & A & B & C & D & _). exists M, s, l'.
  split; [exact A|]. split; [exact B|]. split; [exact C|]. split; [exact D|].
  apply quantize_one_inv in H as (l0 & mt & _ & L0 & Hm & _).
  assert (l0 = l) by (rewrite L in L0; exact (f_equal (fun o => match o with Some (NStdpAltai z) => z | _ => l0 end) (eq_sym L0))). subst l0.
  pose proof (max_threshold_fin _ _ _ Hm) as MF. destruct A as [_ A]. unfold magnitudes in A. apply Forall_app in A as [_ A].
  clear L L0 Hm D Hl. induction C as [|n n' l l' C1 C2 IH]; [split; constructor|].
  apply Forall_cons_iff in Sl as [S1 S2]. apply Forall_cons_iff in MF as [M1 M2]. cbn [map] in A. apply Forall_cons_iff in A as [A1 A2].
  destruct (IH S2 A2 M2) as [I1 I2].
  assert (M1' : (let '(p, _, _) := n in Base.is_finite (d_add (d_of_Z (Z.of_N (ap_thr p))) (ap_add p)) = true) /\ (0 <= whole_threshold n < 65536)%Z) by (destruct n as [[p st] x]; exact M1).
  destruct M1' as [F W]. split; constructor; try assumption.
  - eapply scaled_sane; eauto.
  - pose proof (sane_whole n S1 W) as Q. destruct n as [[p st] x]. destruct (Q F) as [Q1 Q2]. destruct S1 as (_ & _ & S3). destruct W as [_ W]. apply IZR_lt in W. lra.
Qed.
Definition all_sane (pops : list (uid * npop)) : Prop := forall u l, pop_lookup u pops = Some (NStdpAltai l) -> l <> [] /\ Forall sane l.
Lemma one_sane w pops r : quantize_one w pops = Ret r -> Forall fin32 (syn_weights (np_kind w)) -> all_sane pops -> all_sane (snd r) /\
  exists l', pop_lookup (np_post w) (snd r) = Some (NStdpAltai l') /\ Forall low l'.
Proof.
  intros H Fw Sa. pose proof (quantize_one_inv _ _ _ H) as (l & mt & l1 & L & _). destruct (Sa _ _ L) as [S1 S2].
  destruct (one_thresholds _ _ _ _ H L S1 Fw S2) as (M & s & l' & _ & _ & C & D & E & _). destruct (one_pops _ _ _ H) as (_ & _ & O).
  split.
  - intros u q Hq. destruct (N.eq_dec u (np_post w)) as [->|Eu].
    + rewrite D in Hq. assert (l' = q) by exact (f_equal (fun o => match o with Some (NStdpAltai z) => z | _ => l' end) Hq). subst q.
      split; [intros ->; inversion C; subst; congruence|]. eapply Forall_impl; [|exact E]. intros n [A _]. exact A.
    + rewrite O in Hq by exact Eu. eauto.
  - exists l'. split; [exact D|]. eapply Forall_impl; [|exact E]. intros n [_ A]. exact A.
Qed.
Lemma net_low : forall projs pops r, quantize_network projs pops = Ret r -> Forall (fun w => Forall fin32 (syn_weights (np_kind w))) projs -> all_sane pops ->
  all_sane (snd r) /\ forall u l, pop_lookup u (snd r) = Some (NStdpAltai l) -> ((exists w, In w projs /\ np_post w = u) \/ (exists l0, pop_lookup u pops = Some (NStdpAltai l0) /\ Forall low l0)) -> Forall low l.
Proof.
  induction projs as [|w t IH]; intros pops r H Fw Sa.
  - cbn in H. assert (([], pops) = r) by (injection H; auto). subst r. split; [exact Sa|]. intros u l L [(w & [] & _)|(l0 & L0 & Hl)]. cbn [snd] in L. rewrite L in L0.
    assert (l = l0) by exact (f_equal (fun o => match o with Some (NStdpAltai z) => z | _ => l end) L0). now subst.
  - apply quantize_cons in H as (a & b & A & B & ->). apply Forall_cons_iff in Fw as [F1 F2].
    destruct (one_sane _ _ _ A F1 Sa) as [Sb (l' & L' & Hl')]. destruct (IH _ _ B F2 Sb) as [C D]. cbn [snd]. split; [exact C|].
    intros u l L Hu. apply (D u l L). destruct (N.eq_dec u (np_post w)) as [->|Eu]; [right; eauto|].
    destruct Hu as [(w0 & [<-|Hw] & E)|(l0 & L0 & Hl0)]; [congruence|left; eauto|]. right. exists l0.
    destruct (one_pops _ _ _ A) as (_ & _ & O). rewrite O by exact Eu. auto.
Qed.

(** When quantization goes through. *)
Lemma max_threshold_ok : forall l m, Forall (fun n => sane n /\ room n) l -> exists mt, max_threshold l m = Ret mt.
Proof.
  induction l as [|[[p st] x] t IH]; intros m H; cbn [max_threshold]; [eauto|]. apply Forall_cons_iff in H as [[(S1 & S2 & S3) R] H].
  cbn [room] in R. destruct (d_of_N_real (ap_thr p) ltac:(change (2 ^ 24)%N with 16777216%N; lia)) as [T1 T2].
  assert (P : 0 <= IZR (Z.of_N (ap_thr p))) by (apply IZR_le; lia).
  assert (B : 0 <= rd (IZR (Z.of_N (ap_thr p)) + val (ap_add p)) <= 65535).
  { split; [apply (rnd_ge_format 53 1024 P53); [apply generic_format_0|lra]|]. apply (rnd_le_format 53 1024 P53); [exact (fmt_Z53 65535 ltac:(lia))|exact R]. }
  destruct (add_real 53 1024 P53 E1024 _ _ T1 S2) as [[_ G1] G2].
  { rewrite T2. unfold bounded_R. rewrite Rabs_pos_eq by lra. eapply Rle_lt_trans; [apply B|]. change 65535 with (IZR 65535). eapply Rlt_trans with (IZR (Zpower radix2 16)); [apply IZR_lt; reflexivity|]. rewrite IZR_Zpower by lia. apply bpow_lt. lia. }
  unfold d_add. rewrite to_u16_ok; [cbn [obind]; apply IH; exact H|exact G1| |]; rewrite G2, T2; lra.
Qed.
Lemma scale_bound T : fin32 T -> / 128 <= val T -> scale_for (val T) (f_div (f_of_Z 255) T).
Proof.
  intros FT L. destruct f255 as [F2 V2]. apply scale_real; [exact FT|lra|].
  destruct (div_real 24 128 P24 E128 _ _ F2 FT ltac:(lra)) as [[_ G] _]; [|exact G].
  apply small_bounded, rn_abs; [lia|]. rewrite V2.
  assert (0 < / val T <= 128). { split; [apply Rinv_0_lt_compat; lra|]. replace 128 with (/ / 128) by lra. apply Rinv_le; lra. }
  rewrite Rabs_pos_eq by (apply Rmult_le_pos; lra). unfold Rdiv. eapply Rle_trans with (bpow radix2 15); [change (bpow radix2 15) with 32768; nra|apply bpow_le; lia].
Qed.
Lemma scale_thresholds_ok M s : scale_for M s -> / 128 <= M -> forall l, Forall (fun n => sane n /\ IZR (whole_threshold n) <= M /\ Base.is_finite (let '(p, _, _) := n in d_add (d_of_Z (Z.of_N (ap_thr p))) (ap_add p)) = true /\ (0 <= whole_threshold n < 65536)%Z) l ->
  exists l', scale_thresholds s l = Ret l' /\ Forall (fun n => sane n /\ room n) l'.
Proof.
  intros Hs LM. induction l as [|n t IH]; intros H; [exists []; split; [reflexivity|constructor]|].
  apply Forall_cons_iff in H as [(Sn & L & F & W) H]. destruct (IH H) as (t' & Et & Rt). destruct n as [[p st] x]. cbn [scale_thresholds scale_threshold].
  pose proof (sane_whole (p, st, x) Sn W F) as [Q1 Q2]. destruct Sn as (S1 & S2 & S3).
  destruct (of_N_exact (ap_thr p) ltac:(change (2 ^ 24)%N with 16777216%N; lia)) as [T1 T2]. 
  assert (P : 0 <= IZR (Z.of_N (ap_thr p))) by (apply IZR_le; lia).
  destruct (prod_real M s _ Hs T1) as (A & B & C & D); [rewrite T2, Rabs_pos_eq by exact P; lra|].
  assert (Qp : 0 <= val (f_mul (f_of_Z (Z.of_N (ap_thr p))) s)).
  { rewrite B, T2. apply (rnd_ge_format 24 128 P24); [apply generic_format_0|]. pose proof (scale_pos _ _ Hs). apply Rmult_le_pos; lra. }
  pose proof (to_u16_ok (f_mul (f_of_Z (Z.of_N (ap_thr p))) s) (proj2 A) Qp ltac:(lra)) as U. rewrite U. cbn [obind]. rewrite Et. cbn [obind].
  eexists. split; [reflexivity|]. constructor; [|exact Rt].
  destruct (threshold_real M s _ _ Hs S1 ltac:(lra) U) as [U1 _]. destruct W as [_ W]. apply IZR_lt in W.
  destruct (add_real64 M s (ap_add p) Hs S2 ltac:(lra)) as (D1 & D2 & D3).
  cbn [sane room ap_thr ap_add]. split; [split; [lia|split; assumption]|].
  assert (E : val (ap_add p) * val s <= 32896).
  { destruct Hs as (_ & Pm & e & E1 & ->). rewrite b24 in E1. apply Rabs_le_inv in E1.
    assert (I : 0 < / M <= 128). { split; [apply Rinv_0_lt_compat; lra|]. replace 128 with (/ / 128) by lra. apply Rinv_le; lra. }
    assert (val (ap_add p) * / M <= 129).
    { apply Rle_trans with ((M + 1) * / M); [apply Rmult_le_compat_r; lra|]. rewrite Rmult_plus_distr_r, Rinv_r, Rmult_1_l by lra. lra. }
    assert (0 <= val (ap_add p) * / M) by (apply Rmult_le_pos; lra).
    replace (val (ap_add p) * (255 / M * (1 + e))) with (255 * (val (ap_add p) * / M) * (1 + e)) by (field; lra). nra. }
  rewrite D2. assert (rd (val (ap_add p) * val s) <= 32896) by (apply (rnd_le_format 53 1024 P53); [exact (fmt_Z53 32896 ltac:(lia))|exact E]).
  assert (IZR (Z.of_N (Z.to_N (Ztrunc (val (f_mul (f_of_Z (Z.of_N (ap_thr p))) s))))) <= 255) by (apply IZR_le; lia). lra.
Qed.
Lemma one_completes w pops l : pop_lookup (np_post w) pops = Some (NStdpAltai l) -> Forall (fun n => sane n /\ room n) l -> Forall fin32 (syn_weights (np_kind w)) ->
  Exists (fun x => / 128 <= Rabs (val x)) (syn_weights (np_kind w)) ->
  exists a l', quantize_one w pops = Ret (a, pop_put (np_post w) (NStdpAltai l') pops) /\ Forall (fun n => sane n /\ room n) l'.
Proof.
  intros L Hl Fw Hx. destruct (max_threshold_ok l 0 Hl) as [mt Hm]. unfold quantize_one. rewrite L, Hm. cbn [obind]. rewrite kind_weights_eq.
  destruct (max_threshold_real _ _ _ Hm ltac:(lia)) as (Hmt & _ & C & _). destruct (total_max_real (syn_weights (np_kind w)) mt Fw Hmt) as [FT [_ G]].
  change (quant_scale (syn_weights (np_kind w)) mt) with (f_div (f_of_Z 255) (total_max (syn_weights (np_kind w)) mt)). set (T := total_max (syn_weights (np_kind w)) mt) in *.
  apply Forall_app in G as [G1 G2]. apply Forall_cons_iff in G2 as [G2 _].
  assert (LT : / 128 <= val T).
  { apply Exists_exists in Hx as (x & Hx1 & Hx2). rewrite Forall_forall in G1. eapply Rle_trans; [exact Hx2|]. apply G1, in_map_iff. eauto. }
  destruct (scale_thresholds_ok (val T) _ (scale_bound T FT LT) LT l) as (l' & El & Rl).
  - pose proof (max_threshold_fin _ _ _ Hm) as MF. apply Forall_forall. intros n Hn. rewrite Forall_forall in Hl, C, MF. specialize (MF n Hn). specialize (C n Hn).
    split; [apply Hl, Hn|]. split; [eapply Rle_trans; [|exact G2]; apply IZR_le; lia|]. destruct n as [[p st] x]. exact MF.
  - cbn zeta. rewrite El. cbn [obind]. eauto.
Qed.
Lemma net_completes : forall projs pops,
  Forall (fun w => Forall fin32 (syn_weights (np_kind w)) /\ Exists (fun x => / 128 <= Rabs (val x)) (syn_weights (np_kind w)) /\ exists l, pop_lookup (np_post w) pops = Some (NStdpAltai l)) projs ->
  (forall u l, pop_lookup u pops = Some (NStdpAltai l) -> Forall (fun n => sane n /\ room n) l) -> exists r, quantize_network projs pops = Ret r.
Proof.
  induction projs as [|w t IH]; intros pops H Hp; [cbn; eauto|]. apply Forall_cons_iff in H as [(H1 & H2 & l & H3) H].
  destruct (one_completes w pops l H3 (Hp _ _ H3) H1 H2) as (a & l' & E & R). cbn [quantize_network]. rewrite E. cbn [obind snd fst].
  destruct (IH (pop_put (np_post w) (NStdpAltai l') pops)) as [r Er].
  - eapply Forall_impl; [|exact H]. intros v (V1 & V2 & l2 & V3). split; [exact V1|]. split; [exact V2|].
    destruct (N.eq_dec (np_post v) (np_post w)) as [->|Ev]; [exists l'; eapply put_in, H3|exists l2; now rewrite put_other].
  - intros u q Hq. destruct (N.eq_dec u (np_post w)) as [->|Eu].
    + rewrite (put_in _ _ _ _ H3) in Hq. assert (l' = q) by exact (f_equal (fun o => match o with Some (NStdpAltai z) => z | _ => l' end) Hq). now subst q.
    + rewrite put_other in Hq by exact Eu. eauto.
  - rewrite Er. cbn [obind]. eauto.
Qed.
