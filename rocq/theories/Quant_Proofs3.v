(** Quantization of thresholds and of the whole network. *)
From Verif Require Import Base Messaging_Model Projection_Model Delta_Model Neuron_Model Pipeline_Model
  Stdp_Model Additive_Model Train_Model Net_Model FloatReal Normalize_Proofs Classify_Model Metrics_Proofs Storage_Proofs2 Additive_Proofs2
  Quant_Model Quant_Proofs Quant_Spec Quant_Proofs2.
From Coq Require Import Reals Psatz.
From Flocq Require Import Core IEEE754.BinarySingleNaN Relative.
Local Instance P24 : Prec_gt_0 24 := eq_refl.
Local Instance E128 : Prec_lt_emax 24 128 := eq_refl.
Local Instance P53 : Prec_gt_0 53 := eq_refl.
Local Instance E1024 : Prec_lt_emax 53 1024 := eq_refl.

(** ** Projections *)
Lemma kind_weights_eq k : kind_weights k = syn_weights k. Proof. destruct k; reflexivity. Qed.
Lemma on_weights_spec f k : syn_weights (on_weights f k) = map f (syn_weights k).
Proof. destruct k as [p|l p|l p]; cbn; rewrite !map_map; reflexivity. Qed.
Lemma weightless_same w f q : weightless (np_with w (on_weights f (np_kind w)) q) = mkNP (np_uid w) (np_pre w) (np_post w) (np_locked w) (np_kind (weightless w)) q.
Proof. destruct w as [u a b lk k q']. destruct k as [p|l p|l p]; cbn; unfold np_with, weightless; cbn; rewrite !map_map; reflexivity. Qed.

(** ** Populations *)
Lemma lookup_in u a pops : pop_lookup u pops = Some a -> In (u, a) pops.
Proof.
  induction pops as [|[u' a'] t IH]; cbn; [discriminate|]. destruct (N.eqb_spec u u') as [->|E]; [|auto].
  intros H. left. f_equal. exact (f_equal (fun o => match o with Some x => x | None => a' end) H).
Qed.
Lemma in_lookup u a pops : NoDup (map fst pops) -> In (u, a) pops -> pop_lookup u pops = Some a.
Proof.
  induction pops as [|[u' a'] t IH]; cbn; [tauto|]. intros Nd. apply NoDup_cons_iff in Nd as [N1 N2]. intros [H|H].
  - assert (u' = u) by exact (f_equal fst H). assert (a' = a) by exact (f_equal snd H). subst. now rewrite N.eqb_refl.
  - destruct (N.eqb_spec u u') as [->|E]; [|now apply IH]. exfalso. apply N1. apply in_map_iff. now exists (u', a).
Qed.
Lemma put_fst u a pops : map fst (pop_put u a pops) = map fst pops.
Proof. induction pops as [|[u' a'] t IH]; cbn; [reflexivity|]. destruct (N.eqb u u'); cbn; congruence. Qed.
Lemma put_in u a pops x : pop_lookup u pops = Some x -> pop_lookup u (pop_put u a pops) = Some a.
Proof. induction pops as [|[u' a'] t IH]; cbn; [discriminate|]. destruct (N.eqb u u') eqn:E; cbn; rewrite E; auto. Qed.
Lemma put_other u a pops v : v <> u -> pop_lookup v (pop_put u a pops) = pop_lookup v pops.
Proof.
  intros H. induction pops as [|[u' a'] t IH]; cbn; [reflexivity|]. destruct (N.eqb_spec u u') as [->|E]; cbn.
  - destruct (N.eqb_spec v u'); [congruence|reflexivity].
  - now rewrite IH.
Qed.
Lemma put_same {B} (f : npop -> B) u a x pops : pop_lookup u pops = Some x -> f a = f x ->
  map (fun q => (fst q, f (snd q))) (pop_put u a pops) = map (fun q => (fst q, f (snd q))) pops.
Proof.
  intros L H. induction pops as [|[u' a'] t IH]; cbn in *; [reflexivity|]. destruct (N.eqb u u'); cbn.
  - assert (a' = x) by exact (f_equal (fun o => match o with Some y => y | None => x end) L). subst. now rewrite H.
  - now rewrite IH.
Qed.

(** ** Thresholds *)
Definition scaled_neuron (s : flt) (n n' : sneuron al_par al) : Prop :=
  let '(p, st, x) := n in let '(p', st', x') := n' in
  st' = st /\ x' = x /\ no_threshold p' = no_threshold p /\ to_u16 (f_mul (f_of_Z (Z.of_N (ap_thr p))) s) = Ret (ap_thr p') /\ ap_add p' = d_mul (ap_add p) (d_of_f s).
Lemma scale_thresholds_inv s : forall l l', scale_thresholds s l = Ret l' -> Forall2 (scaled_neuron s) l l'.
Proof.
  induction l as [|[[p st] x] t IH]; intros l' H; cbn [scale_thresholds] in H.
  - assert (l' = []) by (injection H; auto). subst. constructor.
  - unfold scale_threshold in H. destruct (to_u16 (f_mul (f_of_Z (Z.of_N (ap_thr p))) s)) as [k| |] eqn:E; try discriminate. cbn [obind] in H.
    destruct (scale_thresholds s t) as [t'| |] eqn:Et; try discriminate. cbn [obind] in H.
    match type of H with Ret ?a = _ => assert (E2 : a = l') by (exact (f_equal (fun o => match o with Ret y => y | _ => a end) H)) end. subst l'.
    constructor; [|now apply IH]. cbn. auto.
Qed.
Lemma scaled_blank s l l' : Forall2 (scaled_neuron s) l l' -> thresholdless (NStdpAltai l') = thresholdless (NStdpAltai l).
Proof.
  intros H. cbn. f_equal. induction H as [|[[p st] x] [[p' st'] x'] l l' A _ IH]; cbn; [reflexivity|]. destruct A as (-> & -> & A & _). now rewrite A, IH.
Qed.
Lemma scaled_len s l l' : Forall2 (scaled_neuron s) l l' -> length l' = length l.
Proof. induction 1; cbn; congruence. Qed.

Lemma quantize_one_inv w pops r : quantize_one w pops = Ret r ->
  exists l mt l', pop_lookup (np_post w) pops = Some (NStdpAltai l) /\ max_threshold l 0 = Ret mt /\
  let s := quant_scale (syn_weights (np_kind w)) mt in
  scale_thresholds s l = Ret l' /\ syn_weights (np_kind (fst r)) = map (fun x => f_round (f_mul x s)) (syn_weights (np_kind w)) /\
  weightless (fst r) = weightless w /\ np_post (fst r) = np_post w /\ snd r = pop_put (np_post w) (NStdpAltai l') pops.
Proof.
  unfold quantize_one. intros H. destruct (pop_lookup (np_post w) pops) as [a|] eqn:L; try discriminate.
  destruct a as [q|q|l]; try discriminate. exists l. destruct (max_threshold l 0) as [mt| |] eqn:M; try discriminate. cbn [obind] in H. exists mt.
  rewrite kind_weights_eq in H. cbn zeta in *. set (s := quant_scale (syn_weights (np_kind w)) mt) in *.
  destruct (scale_thresholds s l) as [l'| |] eqn:T; try discriminate. cbn [obind] in H. exists l'.
  split; [reflexivity|]. split; [reflexivity|]. split; [reflexivity|].
  match type of H with Ret ?a = _ => assert (E2 : a = r) by (exact (f_equal (fun o => match o with Ret y => y | _ => a end) H)) end. subst r.
  cbn [fst snd]. split; [destruct w; apply on_weights_spec|]. split; [rewrite weightless_same; destruct w; reflexivity|]. split; [destruct w; reflexivity|reflexivity].
Qed.
Lemma quantize_cons w t pops r : quantize_network (w :: t) pops = Ret r ->
  exists a b, quantize_one w pops = Ret a /\ quantize_network t (snd a) = Ret b /\ r = (fst a :: fst b, snd b).
Proof.
  cbn [quantize_network]. intros H. destruct (quantize_one w pops) as [a| |] eqn:Ea; try discriminate. cbn [obind] in H.
  destruct (quantize_network t (snd a)) as [b| |] eqn:Eb; try discriminate. cbn [obind] in H. exists a, b. split; [reflexivity|]. split; [exact Eb|].
  match type of H with Ret ?a = _ => exact (eq_sym (f_equal (fun o => match o with Ret y => y | _ => a end) H)) end.
Qed.
(** The projection with number [k] is quantized in the network left by those before it. *)
Lemma quantize_nth : forall projs pops r k w, quantize_network projs pops = Ret r -> nth_error projs k = Some w ->
  exists before a, quantize_network (firstn k projs) pops = Ret before /\ quantize_one w (snd before) = Ret a /\ nth_error (fst r) k = Some (fst a) /\
    quantize_network (skipn (S k) projs) (snd a) = Ret (skipn (S k) (fst r), snd r).
Proof.
  induction projs as [|w0 t IH]; intros pops r k w H Hk; [destruct k; discriminate|].
  apply quantize_cons in H as (a & b & A & B & ->). destruct k as [|k].
  - assert (w0 = w) by (injection Hk; auto). subst w0. exists ([], pops), a. cbn [firstn quantize_network snd nth_error fst]. split; [reflexivity|]. split; [exact A|]. split; [reflexivity|].
    cbn [skipn]. rewrite B. now destruct b.
  - cbn [nth_error] in Hk. destruct (IH _ _ _ _ B Hk) as (before & a' & X & Y & Z & W). exists (fst a :: fst before, snd before), a'.
    cbn [firstn quantize_network]. rewrite A. cbn [obind snd fst]. rewrite X. cbn [obind fst snd nth_error]. split; [reflexivity|]. split; [exact Y|]. split; [exact Z|].
    exact W.
Qed.
Lemma one_pops w pops a : quantize_one w pops = Ret a -> map fst (snd a) = map fst pops /\
  map (fun q => (fst q, thresholdless (snd q))) (snd a) = map (fun q => (fst q, thresholdless (snd q))) pops /\
  (forall u, u <> np_post w -> pop_lookup u (snd a) = pop_lookup u pops).
Proof.
  intros H. apply quantize_one_inv in H as (l & mt & l' & L & _ & T & _ & _ & _ & ->). split; [apply put_fst|]. split.
  - eapply put_same; [exact L|]. eapply scaled_blank, scale_thresholds_inv, T.
  - intros u Hu. now apply put_other.
Qed.
Lemma net_pops : forall projs pops r, quantize_network projs pops = Ret r -> map fst (snd r) = map fst pops /\
  map (fun q => (fst q, thresholdless (snd q))) (snd r) = map (fun q => (fst q, thresholdless (snd q))) pops /\
  (forall u, (forall w, In w projs -> np_post w <> u) -> pop_lookup u (snd r) = pop_lookup u pops).
Proof.
  induction projs as [|w t IH]; intros pops r H.
  - cbn in H. assert (([], pops) = r) by (injection H; auto). subst r. auto.
  - apply quantize_cons in H as (a & b & A & B & ->). destruct (one_pops _ _ _ A) as (A1 & A2 & A3), (IH _ _ B) as (B1 & B2 & B3). cbn [snd].
    split; [congruence|]. split; [congruence|]. intros u Hu. rewrite B3 by (intros x Hx; apply Hu; now right). apply A3. intros E. apply (Hu w); [now left|auto].
Qed.
Lemma net_projs : forall projs pops r, quantize_network projs pops = Ret r -> map weightless (fst r) = map weightless projs.
Proof.
  induction projs as [|w t IH]; intros pops r H.
  - cbn in H. assert (([], pops) = r) by (injection H; auto). now subst r.
  - apply quantize_cons in H as (a & b & A & B & ->). apply quantize_one_inv in A as (l & mt & l' & _ & _ & _ & _ & W & _). cbn [fst map]. f_equal; [exact W|eauto].
Qed.
(** Populations keep their sizes. *)
Lemma blank_len a l : thresholdless a = thresholdless (NStdpAltai l) -> exists l', a = NStdpAltai l' /\ length l' = length l.
Proof.
  destruct a as [q|q|l']; cbn; try discriminate. intros H. exists l'. split; [reflexivity|].
  assert (E : map (fun n : sneuron al_par al => let '(p, s, x) := n in (no_threshold p, s, x)) l' = map (fun n => let '(p, s, x) := n in (no_threshold p, s, x)) l)
    by exact (f_equal (fun a => match a with NStdpAltai z => z | _ => [] end) H).
  apply (f_equal (@length _)) in E. now rewrite !map_length in E.
Qed.
Lemma lookup_map {B} (f : npop -> B) u : forall pops pops', map (fun q => (fst q, f (snd q))) pops' = map (fun q => (fst q, f (snd q))) pops ->
  option_map f (pop_lookup u pops') = option_map f (pop_lookup u pops).
Proof.
  induction pops as [|[v a] t IH]; intros [|[v' a'] t'] H; try discriminate; [reflexivity|]. cbn [map fst snd] in H.
  assert (H1 : v' = v) by (exact (f_equal (fun l => match l with q :: _ => fst q | [] => v end) H)).
  assert (H2 : f a' = f a) by (exact (f_equal (fun l => match l with q :: _ => snd q | [] => f a end) H)).
  assert (H3 : map (fun q => (fst q, f (snd q))) t' = map (fun q => (fst q, f (snd q))) t) by (exact (f_equal (@tl _) H)).
  subst v'. cbn [pop_lookup]. destruct (N.eqb u v); [cbn; now rewrite H2|now apply IH].
Qed.
Lemma net_size projs pops r u l : quantize_network projs pops = Ret r -> pop_lookup u pops = Some (NStdpAltai l) ->
  exists l', pop_lookup u (snd r) = Some (NStdpAltai l') /\ length l' = length l.
Proof.
  intros H L. destruct (net_pops _ _ _ H) as (_ & E & _). apply (lookup_map thresholdless u) in E. rewrite L in E. cbn in E.
  destruct (pop_lookup u (snd r)) as [a|]; [|discriminate]. cbn in E.
  assert (E' : thresholdless a = thresholdless (NStdpAltai l)) by exact (f_equal (fun o => match o with Some y => y | None => a end) E).
  apply blank_len in E' as (l' & -> & Hl). eauto.
Qed.
(** One projection into a population that is not empty. *)
Lemma one_scale w pops r : quantize_one w pops = Ret r -> forall l, pop_lookup (np_post w) pops = Some (NStdpAltai l) -> l <> [] -> Forall fin32 (syn_weights (np_kind w)) ->
  exists M s l', largest (magnitudes w l) M /\ scale_for M s /\ Forall2 (scaled_neuron s) l l' /\
  pop_lookup (np_post w) (snd r) = Some (NStdpAltai l') /\
  syn_weights (np_kind (fst r)) = map (fun x => f_round (f_mul x s)) (syn_weights (np_kind w)) /\ Forall (fun x => (Rabs (val x) <= M)%R) (syn_weights (np_kind w)).
Proof.
  intros H l L Hl Fw. apply quantize_one_inv in H as (l0 & mt & l' & L0 & Hm & T & W & _ & _ & Er).
  assert (l0 = l) by (rewrite L in L0; injection L0; auto). subst l0.
  destruct (total_max_largest w l mt Fw Hl Hm) as [FT Lg]. set (T0 := total_max (syn_weights (np_kind w)) mt) in *.
  change (quant_scale (syn_weights (np_kind w)) mt) with (f_div (f_of_Z 255) T0) in *. cbn zeta in *. set (s := f_div (f_of_Z 255) T0) in *.
  apply scale_thresholds_inv in T. exists (val T0), s, l'. split; [exact Lg|].
  assert (F : Base.is_finite s = true).
  { destruct l as [|[[p st] x] l]; [congruence|]. inversion T as [|n n' ? ? A ?]; subst. destruct n' as [[p' st'] x']. destruct A as (_ & _ & _ & A & _).
    apply to_u16_inv in A as (A & _). unfold f_mul in A. apply mul_fin_l in A. tauto. }
  destruct Lg as [Lg1 Lg2]. unfold magnitudes in Lg2. apply Forall_app in Lg2 as [G1 G2].
  assert (P : (0 <= val T0)%R).
  { destruct (max_threshold_real _ _ _ Hm ltac:(lia)) as (_ & _ & C & _). destruct l as [|n l]; [congruence|]. apply Forall_cons_iff in C as [C _].
    cbn [map] in G2. apply Forall_cons_iff in G2 as [G2 _]. eapply Rle_trans; [|exact G2]. apply IZR_le. lia. }
  split; [now apply scale_real|]. split; [exact T|]. split; [rewrite Er; eapply put_in, L|]. split; [exact W|].
  apply Forall_forall. intros x Hx. rewrite Forall_forall in G1. apply G1. apply in_map_iff. eauto.
Qed.
