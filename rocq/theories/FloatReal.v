(** The real numbers behind [SpecFloat] arithmetic: the operations of Base.v are
    those of Flocq's formalisation of IEEE 754 with rounding to nearest even.  No
    code of /repo is modelled here.  Theorems that use this file rest on the axioms
    of the real numbers of Coq's standard library. *)
From Verif Require Import Base.
From Coq Require Import Reals Psatz.
From Flocq Require Import Core IEEE754.BinarySingleNaN.

Section Real.
Variable prec emax : Z.
Context (Hprec : Prec_gt_0 prec) (Hmax : Prec_lt_emax prec emax).
Notation fexp := (SpecFloat.fexp prec emax).
Notation bf := (binary_float prec emax).
Notation rnd := (round radix2 fexp (round_mode mode_NE)).
Notation v := (SF2R radix2).

Lemma aux_equiv sx mx ex lx :
  SpecFloat.binary_round_aux prec emax sx mx ex lx = binary_round_aux prec emax mode_NE sx mx ex lx.
Proof.
  unfold SpecFloat.binary_round_aux, binary_round_aux. destruct (shr_fexp _ _ _ _ _) as [mrs' e'].
  assert (E : forall m l, SpecFloat.round_nearest_even m l = choice_mode mode_NE sx m l).
  { intros m [|[]]; try reflexivity. cbn. unfold Round.cond_incr. now destruct (Z.even m). }
  now rewrite E.
Qed.
Lemma round_equiv s m e : SpecFloat.binary_round prec emax s m e = binary_round prec emax mode_NE s m e.
Proof. unfold SpecFloat.binary_round, binary_round, shl_align_fexp. destruct (shl_align _ _ _). apply aux_equiv. Qed.
Lemma normalize_equiv m e sz :
  SpecFloat.binary_normalize prec emax m e sz = B2SF (binary_normalize prec emax Hprec Hmax mode_NE m e sz).
Proof. destruct m as [|p|p]; [reflexivity| |]; simpl; rewrite B2SF_SF2B; apply round_equiv. Qed.
Lemma add_equiv (x y : bf) : SFadd prec emax (B2SF x) (B2SF y) = B2SF (Bplus mode_NE x y).
Proof.
  destruct x as [sx|sx| |sx mx ex Bx], y as [sy|sy| |sy my ey By]; try (now (trivial || simpl; case Bool.eqb)). apply normalize_equiv.
Qed.
Lemma sub_equiv (x y : bf) : SFsub prec emax (B2SF x) (B2SF y) = B2SF (Bminus mode_NE x y).
Proof.
  destruct x as [sx|sx| |sx mx ex Bx], y as [sy|sy| |sy my ey By]; try (now (trivial || simpl; case Bool.eqb)).
  simpl. unfold Zminus. rewrite <- cond_Zopp_negb. apply normalize_equiv.
Qed.
Lemma mul_equiv (x y : bf) : SFmul prec emax (B2SF x) (B2SF y) = B2SF (Bmult mode_NE x y).
Proof.
  destruct x as [sx|sx| |sx mx ex Bx], y as [sy|sy| |sy my ey By]; try (now trivial). simpl. rewrite B2SF_SF2B. apply aux_equiv.
Qed.
Lemma div_equiv (x y : bf) : SFdiv prec emax (B2SF x) (B2SF y) = B2SF (Bdiv mode_NE x y).
Proof.
  destruct x as [sx|sx| |sx mx ex Bx], y as [sy|sy| |sy my ey By]; try (now (trivial || simpl; case Bool.eqb)).
  simpl. rewrite B2SF_SF2B. destruct (SFdiv_core_binary _ _ _ _ _ _) as [[mz ez] lz]. apply aux_equiv.
Qed.

(** Numbers of the format. *)
Definition valid (x : flt) : Prop := valid_binary prec emax x = true.
Definition fin (x : flt) : Prop := valid x /\ Base.is_finite x = true.
Lemma fin_B (x : flt) : fin x -> exists b : bf, B2SF b = x /\ is_finite b = true /\ B2R b = v x.
Proof.
  intros [Hv Hf]. exists (SF2B x Hv). split; [apply B2SF_SF2B|]. split.
  - rewrite is_finite_SF2B. destruct x; exact Hf.
  - apply B2R_SF2B.
Qed.
Lemma B_fin (b : bf) : is_finite b = true -> fin (B2SF b) /\ v (B2SF b) = B2R b.
Proof.
  intros H. split; [split; [apply valid_binary_B2SF|destruct b; exact H]|]. apply SF2R_B2SF.
Qed.
Definition bounded_R (r : R) : Prop := (Rabs r < bpow radix2 emax)%R.
Lemma add_real x y : fin x -> fin y -> bounded_R (rnd (v x + v y)) ->
  fin (SFadd prec emax x y) /\ v (SFadd prec emax x y) = rnd (v x + v y).
Proof.
  intros Hx Hy Hb. destruct (fin_B x Hx) as (a & <- & Fa & Ra), (fin_B y Hy) as (b & <- & Fb & Rb).
  rewrite add_equiv. pose proof (Bplus_correct prec emax Hprec Hmax mode_NE a b Fa Fb) as C. rewrite <- Ra, <- Rb in *.
  rewrite Rlt_bool_true in C by exact Hb. destruct C as (C1 & C2 & _). destruct (B_fin _ C2) as [D1 D2]. split; [exact D1|]. now rewrite D2.
Qed.
Lemma sub_real x y : fin x -> fin y -> bounded_R (rnd (v x - v y)) ->
  fin (SFsub prec emax x y) /\ v (SFsub prec emax x y) = rnd (v x - v y).
Proof.
  intros Hx Hy Hb. destruct (fin_B x Hx) as (a & <- & Fa & Ra), (fin_B y Hy) as (b & <- & Fb & Rb).
  rewrite sub_equiv. pose proof (Bminus_correct prec emax Hprec Hmax mode_NE a b Fa Fb) as C. rewrite <- Ra, <- Rb in *.
  rewrite Rlt_bool_true in C by exact Hb. destruct C as (C1 & C2 & _). destruct (B_fin _ C2) as [D1 D2]. split; [exact D1|]. now rewrite D2.
Qed.
Lemma mul_real x y : fin x -> fin y -> bounded_R (rnd (v x * v y)) ->
  fin (SFmul prec emax x y) /\ v (SFmul prec emax x y) = rnd (v x * v y).
Proof.
  intros Hx Hy Hb. destruct (fin_B x Hx) as (a & <- & Fa & Ra), (fin_B y Hy) as (b & <- & Fb & Rb).
  rewrite mul_equiv. pose proof (Bmult_correct prec emax Hprec Hmax mode_NE a b) as C. rewrite <- Ra, <- Rb in *.
  rewrite Rlt_bool_true in C by exact Hb. destruct C as (C1 & C2 & _). rewrite Fa, Fb in C2. destruct (B_fin _ C2) as [D1 D2]. split; [exact D1|]. now rewrite D2.
Qed.
Lemma div_real x y : fin x -> fin y -> v y <> 0%R -> bounded_R (rnd (v x / v y)) ->
  fin (SFdiv prec emax x y) /\ v (SFdiv prec emax x y) = rnd (v x / v y).
Proof.
  intros Hx Hy Hn Hb. destruct (fin_B x Hx) as (a & <- & Fa & Ra), (fin_B y Hy) as (b & <- & Fb & Rb).
  rewrite div_equiv. pose proof (Bdiv_correct prec emax Hprec Hmax mode_NE a b) as C. rewrite <- Ra, <- Rb in *.
  rewrite Rlt_bool_true in C by exact Hb. destruct (C Hn) as (C1 & C2 & _). rewrite Fa in C2. destruct (B_fin _ C2) as [D1 D2]. split; [exact D1|]. now rewrite D2.
Qed.
Lemma normalize_real m e sz : bounded_R (rnd (F2R (Float radix2 m e))) ->
  fin (SpecFloat.binary_normalize prec emax m e sz) /\ v (SpecFloat.binary_normalize prec emax m e sz) = rnd (F2R (Float radix2 m e)).
Proof.
  intros Hb. rewrite normalize_equiv. pose proof (binary_normalize_correct prec emax Hprec Hmax mode_NE m e sz) as C. cbn zeta in C.
  rewrite Rlt_bool_true in C by exact Hb. destruct C as (C1 & C2 & _). destruct (B_fin _ C2) as [D1 D2]. split; [exact D1|]. now rewrite D2.
Qed.
Lemma of_Z_real z : bounded_R (rnd (IZR z)) ->
  let x := match z with Z0 => S754_zero false | _ => SpecFloat.binary_normalize prec emax z 0 false end in
  fin x /\ v x = rnd (IZR z).
Proof.
  intros Hb. assert (E : F2R (Float radix2 z 0) = IZR z) by (unfold F2R; simpl; ring).
  destruct z as [|p|p].
  - cbn. split; [now split|]. symmetry. apply round_0. apply (valid_rnd_round_mode mode_NE).
  - rewrite <- E in *. exact (normalize_real (Zpos p) 0 false Hb).
  - rewrite <- E in *. exact (normalize_real (Zneg p) 0 false Hb).
Qed.
Lemma lt_real x y : fin x -> fin y -> SFltb x y = Rlt_bool (v x) (v y).
Proof.
  intros Hx Hy. destruct (fin_B x Hx) as (a & <- & Fa & Ra), (fin_B y Hy) as (b & <- & Fb & Rb). rewrite <- Ra, <- Rb.
  exact (Bltb_correct prec emax a b Fa Fb).
Qed.
Lemma le_real x y : fin x -> fin y -> SFleb x y = Rle_bool (v x) (v y).
Proof.
  intros Hx Hy. destruct (fin_B x Hx) as (a & <- & Fa & Ra), (fin_B y Hy) as (b & <- & Fb & Rb). rewrite <- Ra, <- Rb.
  exact (Bleb_correct prec emax a b Fa Fb).
Qed.
(** Finite numbers are in the format. *)
Lemma fin_format x : fin x -> generic_format radix2 fexp (v x).
Proof. intros Hx. destruct (fin_B x Hx) as (a & <- & _ & Ra). rewrite <- Ra. apply generic_format_B2R. Qed.
Lemma fin_bound x : fin x -> bounded_R (v x).
Proof. intros Hx. destruct (fin_B x Hx) as (a & <- & Fa & Ra). rewrite <- Ra. apply abs_B2R_lt_emax. Qed.
(** Rounding keeps bounds that are in the format. *)
Global Instance fexp_valid : Valid_exp fexp := fexp_correct prec emax Hprec.
Lemma rnd_le a b : (a <= b)%R -> (rnd a <= rnd b)%R.
Proof. apply round_le; [apply fexp_valid|apply valid_rnd_round_mode]. Qed.
Lemma rnd_ge_format a y : generic_format radix2 fexp a -> (a <= y)%R -> (a <= rnd y)%R.
Proof. intros. apply round_ge_generic; auto using fexp_valid, valid_rnd_round_mode. Qed.
Lemma rnd_le_format b y : generic_format radix2 fexp b -> (y <= b)%R -> (rnd y <= b)%R.
Proof. intros. apply round_le_generic; auto using fexp_valid, valid_rnd_round_mode. Qed.
End Real.
