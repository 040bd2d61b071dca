(** Populations that are given what they can take. *)
From Verif Require Import Base ListLemmas Messaging_Model Messaging_Spec Messaging_Proofs Messaging_Proofs2 Projection_Model Projection_Proofs
  Delta_Model Delta_Spec Delta_Proofs Neuron_Model Neuron_Proofs2 Pipeline_Model Pipeline_Spec Pipeline_Proofs Pipeline_Proofs2 Stdp_Model Additive_Model Additive_Proofs Train_Model
  Net_Model Net_Spec Net_Proofs Net_Proofs2 Net_Proofs3 Net_Proofs4 Safe_Spec.

(** ** The loops over the neurons *)
Section Loop.
Context {A : Type}.
Variable inv : A -> Prop.
Lemma update_at_ret f : forall l i, i < length l -> Forall inv l -> (forall x, inv x -> exists x', f x = Ret x' /\ inv x') ->
  exists l', update_at i f l = Ret l' /\ length l' = length l /\ Forall inv l'.
Proof.
  induction l as [|x l IH]; intros i Hi Hl Hf; cbn [length] in Hi; [lia|]. apply Forall_cons_iff in Hl as [Hx Hl].
  destruct i as [|i]; cbn [update_at].
  - destruct (Hf x Hx) as (x' & -> & Hx'). cbn [obind]. eexists. split; [reflexivity|]. split; [reflexivity|]. constructor; assumption.
  - destruct (IH i) as (l' & -> & L & Hl'); [lia|exact Hl|exact Hf|]. cbn [obind]. eexists. split; [reflexivity|].
    cbn [length]. split; [congruence|]. constructor; assumption.
Qed.
Lemma impact_flagged_ret (imp : bool -> A -> impact -> outcome A) (OK : impact -> Prop) :
  (forall f n i, OK i -> inv n -> exists n', imp f n i = Ret n' /\ inv n') ->
  forall l ns, Forall (fun e => OK (snd e) /\ N.to_nat (i_post (snd e)) < length ns) l -> Forall inv ns ->
  exists ns', impact_flagged imp l ns = Ret ns' /\ length ns' = length ns /\ Forall inv ns'.
Proof.
  intros Himp. induction l as [|[f i] l IH]; intros ns Hl Hns; cbn [impact_flagged]; [eauto|].
  apply Forall_cons_iff in Hl as [[Ho Hi] Hl]. cbn [snd] in *.
  destruct (update_at_ret (fun n => imp f n i) ns _ Hi Hns) as (n1 & -> & L & H1). { intros x Hx. now apply Himp. }
  cbn [obind]. destruct (IH n1) as (n2 & E & L2 & H2); [|exact H1|].
  - eapply Forall_impl; [|exact Hl]. intros e [H H']. split; [exact H|]. now rewrite L.
  - rewrite E. exists n2. split; [reflexivity|]. split; [congruence|exact H2].
Qed.
Lemma impact_plain (imp : A -> impact -> outcome A) : forall l ns,
  impact_population imp (map snd l) ns = impact_flagged (fun _ => imp) l ns.
Proof.
  induction l as [|[f i] l IH]; intros ns; cbn [map snd impact_population impact_flagged]; [reflexivity|].
  destruct (update_at _ _ _) as [n1| |]; cbn [obind]; [apply IH|reflexivity|reflexivity].
Qed.
End Loop.
Lemma impacts_flagged ms : impacts_of ms = map snd (flagged ms).
Proof.
  unfold impacts_of, flagged. induction ms as [|m ms IH]; cbn [flat_map map]; [reflexivity|]. rewrite map_app, <- IH. f_equal.
  destruct m as [|? ? ? ? f l]; [reflexivity|]. rewrite map_map. cbn [snd]. symmetry. apply map_id.
Qed.
Lemma flagged_fits a ms : Forall (message_fits a) ms -> Forall (fun e => fits a (snd e)) (flagged ms).
Proof.
  induction 1 as [|m ms Hm _ IH]; cbn [flagged flat_map]; [constructor|]. apply Forall_app. split; [|exact IH].
  destruct m as [|? ? ? ? f l]; [constructor|]. cbn [message_fits] in Hm. clear -Hm. induction Hm; cbn [map]; constructor; auto.
Qed.

(** ** One impact *)
Definition al_inv (n : al) : Prop := (int64_min < a_time n)%Z.
Lemma lif_takes l n i : takes (NPlain (PopLif l)) (i_type i) (i_value i) -> exists n', lif_impact n i = Ret n'.
Proof. cbn [takes]. unfold lif_impact. intros [-> | ->]; eauto. Qed.
Lemma bl_takes n i : (i_type i = BLOCKING -> exists z, to_int64 (i_value i) = Ret z) -> exists n', bl_impact n i = Ret n'.
Proof. intros H. unfold bl_impact. destruct (i_type i); eauto. destruct (H eq_refl) as (z & ->). cbn [obind]. eauto. Qed.
Lemma al_takes n i : i_type i <> INHIBITORY_CONDUCTANCE ->
  (i_type i = BLOCKING -> exists z, to_int64 (i_value i) = Ret z /\ z <> int64_min) -> al_inv n ->
  exists n', al_impact n i = Ret n' /\ al_inv n'.
Proof.
  intros H H' Hn. unfold al_impact, al_inv in *. destruct (i_type i); try (eexists; split; [reflexivity|exact Hn]); [congruence|].
  destruct (H' eq_refl) as (z & Ez & Hz). rewrite Ez. cbn [obind]. assert (Hz' : (int64_min < z)%Z).
  { unfold to_int64 in Ez. destruct (Z_trunc _) as [z'|]; [|discriminate]. destruct (Z.leb_spec int64_min z'); [|discriminate].
    cbn [andb] in Ez. destruct (_ <=? _)%Z; [|discriminate]. injection Ez as ->. lia. }
  destruct (xorb _ _); [eexists; split; [reflexivity|exact Hz']|].
  destruct (Z.eqb_spec (a_time n) int64_min) as [E|E]; [lia|].
  destruct (f_le _ _); [eexists; split; [reflexivity|exact Hz']|]. eexists. split; [reflexivity|exact Hn].
Qed.
Lemma al_next_inv t : (int64_min < t)%Z -> (int64_min < al_next_time t)%Z.
Proof.
  unfold al_next_time. cbv zeta. intros H. change int64_min with (-9223372036854775808)%Z in *. change int64_max with 9223372036854775807%Z.
  destruct (t >? 0)%Z eqn:E1; [|destruct (t <? 0)%Z eqn:E2]; match goal with |- context [Z.eqb ?x 0] => destruct (Z.eqb x 0) eqn:E3 end;
    try discriminate; lia.
Qed.
(** ** One population *)
Definition same_kind (a b : npop) : Prop :=
  match a, b with
  | NPlain (PopLif _), NPlain (PopLif _) | NPlain (PopBlifat _), NPlain (PopBlifat _) | NPlain (PopAltai _), NPlain (PopAltai _)
  | NStdpBlifat _, NStdpBlifat _ | NStdpAltai _, NStdpAltai _ => size a = size b
  | _, _ => False
  end.
Lemma same_kind_refl a : same_kind a a.
Proof. destruct a as [[l|l|l]|l|l]; reflexivity. Qed.
Lemma same_kind_trans a b c : same_kind a b -> same_kind b c -> same_kind a c.
Proof. destruct a as [[?|?|?]|?|?], b as [[?|?|?]|?|?], c as [[?|?|?]|?|?]; cbn [same_kind size]; try contradiction; congruence. Qed.
Lemma same_kind_fits a b i : same_kind a b -> fits a i -> fits b i.
Proof.
  unfold fits. destruct a as [[?|?|?]|?|?], b as [[?|?|?]|?|?]; cbn [same_kind size takes]; try contradiction; intros H; rewrite H; auto.
Qed.
Lemma same_kind_message a b m : same_kind a b -> message_fits a m -> message_fits b m.
Proof.
  intros H. destruct m as [|? ? ? ? f l]; [auto|]. cbn [message_fits]. apply Forall_impl. intros i. now apply same_kind_fits.
Qed.

Section Pops.
Variable pow2f : flt -> flt.
Lemma front_ret {A} (inv : A -> Prop) pre imp post ms (ns : list A) (OK : impact -> Prop) :
  (forall n, inv n -> inv (pre n)) -> (forall f n i, OK i -> inv n -> exists n', imp f n i = Ret n' /\ inv n') ->
  (forall n, inv n -> inv (fst (post n))) ->
  Forall (fun e => OK (snd e) /\ N.to_nat (i_post (snd e)) < length ns) (flagged ms) -> Forall inv ns ->
  exists ns' spikes, stdp_front pre imp post ms ns = Ret (ns', spikes) /\ length ns' = length ns /\ Forall inv ns'.
Proof.
  intros H1 H2 H3 Hms Hns. unfold stdp_front. rewrite (pre_part_all pre (imp true) post).
  destruct (impact_flagged_ret inv imp OK H2 (flagged ms) (map pre ns)) as (n1 & E & L & Hn1).
  - now rewrite map_length.
  - apply Forall_map. eapply Forall_impl; [|exact Hns]. exact H1.
  - rewrite E. cbn [obind]. pose proof (post_part_all_states pre (imp true) post n1) as E1.
    destruct (post_part post 0 0 (length n1) n1) as [n2 idx]. cbn [fst] in E1. exists n2. eexists. split; [reflexivity|]. rewrite map_length in L.
    subst n2. rewrite map_length. split; [exact L|]. apply Forall_map. eapply Forall_impl; [|exact Hn1]. exact H3.
Qed.
Lemma plain_ret {A} (inv : A -> Prop) pre imp post u step ms (ns : list A) (OK : impact -> Prop) :
  (forall n, inv n -> inv (pre n)) -> (forall n i, OK i -> inv n -> exists n', imp n i = Ret n' /\ inv n') ->
  (forall n, inv n -> inv (fst (post n))) ->
  Forall (fun e => OK (snd e) /\ N.to_nat (i_post (snd e)) < length ns) (flagged ms) -> Forall inv ns ->
  exists r, population_step pre imp post u step ms ns = Ret r /\ length (fst (fst r)) = length ns /\ Forall inv (fst (fst r)).
Proof.
  intros H1 H2 H3 Hms Hns. rewrite (population_step_eq pre imp post), impacts_flagged, impact_plain.
  destruct (impact_flagged_ret inv (fun _ => imp) OK (fun _ => H2) (flagged ms) (map pre ns)) as (n1 & E & L & Hn1).
  - now rewrite map_length.
  - apply Forall_map. eapply Forall_impl; [|exact Hns]. exact H1.
  - rewrite E. cbn [obind]. cbv zeta. eexists. split; [reflexivity|]. cbn [fst]. rewrite map_length in *. split; [exact L|].
    apply Forall_map. eapply Forall_impl; [|exact Hn1]. exact H3.
Qed.
Lemma in_range a ms : Forall (message_fits a) ms ->
  Forall (fun e => takes a (i_type (snd e)) (i_value (snd e)) /\ N.to_nat (i_post (snd e)) < size a) (flagged ms).
Proof.
  intros H. eapply Forall_impl; [|exact (flagged_fits a ms H)]. intros e [H1 H2]. split; [exact H2|]. lia.
Qed.
Lemma npop_ret u step ms a projs : kinds_ok projs -> (N.of_nat (size a) <= two32)%N -> settled a -> Forall (message_fits a) ms ->
  exists a' projs' o, npop_step pow2f u step ms a projs = Ret (a', projs', o) /\ settled a' /\ same_kind a a'.
Proof.
  intros Hk Hs Hse Hms. apply in_range in Hms. destruct a as [[l|l|l]|l|l]; cbn [npop_step apop_step size settled] in *.
  - destruct (plain_ret (fun _ => True) (lift_pre lif_pre) (lift_imp lif_impact) (lift_post lif_post) u step ms l (fun i => takes (NPlain (PopLif l)) (i_type i) (i_value i)))
      as (r & E & L & _); auto.
    + intros n i Hi _. destruct (lif_takes l (snd n) i Hi) as (n' & E). unfold lift_imp. rewrite E. cbn [obind]. eauto.
    + apply Forall_forall. auto.
    + rewrite E. cbn [obind fst snd]. do 3 eexists. split; [reflexivity|]. split; [exact I|]. cbn [same_kind size]. now symmetry.
  - destruct (plain_ret (fun _ => True) (lift_pre (bl_prestep false)) (lift_imp bl_impact) (lift_post bl_post) u step ms l (fun i => takes (NPlain (PopBlifat l)) (i_type i) (i_value i)))
      as (r & E & L & _); auto.
    + intros n i Hi _. destruct (bl_takes (snd n) i Hi) as (n' & E). unfold lift_imp. rewrite E. cbn [obind]. eauto.
    + apply Forall_forall. auto.
    + rewrite E. cbn [obind fst snd]. do 3 eexists. split; [reflexivity|]. split; [exact I|]. cbn [same_kind size]. now symmetry.
  - destruct (plain_ret (fun n => al_inv (snd n)) (lift_pre (al_prestep false)) (lift_imp al_impact) (lift_post al_post) u step ms l (fun i => takes (NPlain (PopAltai l)) (i_type i) (i_value i)))
      as (r & E & L & Hi); auto.
    + intros n i [H1 H2] Hn. destruct (al_takes (snd n) i H1 H2 Hn) as (n' & E & Hn'). unfold lift_imp. rewrite E. cbn [obind]. eexists. split; [reflexivity|exact Hn'].
    + intros n Hn. unfold lift_post. cbn [al_post fst snd]. unfold al_inv. cbn [a_time]. now apply al_next_inv.
    + rewrite E. cbn [obind fst snd]. do 3 eexists. split; [reflexivity|]. split; [exact Hi|]. cbn [same_kind size]. now symmetry.
  - destruct (@front_ret (sneuron bl_par bl) (fun _ => True) (s_pre (bl_prestep true)) (s_impact bl_impact) (s_post bl_post) ms l (fun i => takes (NStdpBlifat l) (i_type i) (i_value i)))
      as (ns & spikes & E & L & _); auto.
    + intros f [[p s] x] i Hi _. destruct (bl_takes s i Hi) as (n' & E). unfold s_impact. rewrite E. cbn [obind]. eauto.
    + apply Forall_forall. auto.
    + rewrite E. cbn [obind fst snd]. destruct (stdp_front_spec _ _ _ _ _ _ _ E Hs) as (_ & Hn & Hr).
      destruct (stdp_train_spec pow2f bl_view bl_write u step spikes ns projs Hk Hn Hr) as (ns' & projs1 & Et & L' & _).
      rewrite Et. cbn [obind fst snd]. do 3 eexists. split; [reflexivity|]. split; [exact I|]. cbn [same_kind size]. congruence.
  - destruct (@front_ret (sneuron al_par al) (fun n => al_inv (snd (fst n))) (s_pre (al_prestep true)) (s_impact al_impact) (s_post al_post) ms l (fun i => takes (NStdpAltai l) (i_type i) (i_value i)))
      as (ns & spikes & E & L & Hi); auto.
    + intros [[p s] x] H. exact H.
    + intros f [[p s] x] i [H1 H2] Hn. cbn [fst snd] in *. destruct (al_takes s i H1 H2 Hn) as (n' & E & Hn'). unfold s_impact. rewrite E. cbn [obind].
      eexists. split; [reflexivity|exact Hn'].
    + intros [[p s] x] H. cbn [s_post al_post fst snd] in *. unfold al_inv in *. cbn [a_time]. now apply al_next_inv.
    + rewrite E. cbn [obind fst snd]. destruct (stdp_front_spec _ _ _ _ _ _ _ E Hs) as (_ & Hn & Hr).
      destruct (stdp_train_spec pow2f al_view al_write u step spikes ns projs Hk Hn Hr) as (ns' & projs1 & Et & L' & _ & _ & Hall & _).
      rewrite Et. cbn [obind fst snd]. do 3 eexists. split; [reflexivity|]. split; [|cbn [same_kind size]; congruence].
      cbn [settled]. apply Forall_forall. intros n' Hn'. apply In_nth_error in Hn' as (i & Hi'). change (@nth_error (sneuron al_par al) ns' i = Some n') in Hi'.
      destruct (nth_error ns i) as [n|] eqn:En.
      * destruct (Hall i n En) as (v & Hv & _). rewrite Hv in Hi'. injection Hi' as <-. rewrite Forall_forall in Hi.
        specialize (Hi n (nth_error_In _ _ En)). destruct n as [[p s] x]. exact Hi.
      * exfalso. apply nth_error_None in En. assert (Hx : nth_error ns' i <> None) by congruence. apply nth_error_Some in Hx. lia.
Qed.
Definition pops_like (pops0 pops : list (uid * npop)) : Prop :=
  Forall2 (fun e0 e => fst e0 = fst e /\ same_kind (snd e0) (snd e) /\ settled (snd e)) pops0 pops.
Lemma pops_like_sizes pops0 pops : pops_like pops0 pops -> Forall (fun e => (N.of_nat (size (snd e)) <= two32)%N) pops0 ->
  Forall (fun e => (N.of_nat (size (snd e)) <= two32)%N) pops.
Proof.
  induction 1 as [|e0 e l0 l (H1 & H2 & H3) _ IH]; intros Hs; [constructor|]. apply Forall_cons_iff in Hs as [Ha Hb]. constructor; [|auto].
  destruct e0 as [? [[?|?|?]|?|?]], e as [? [[?|?|?]|?|?]]; cbn [same_kind snd] in *; try contradiction; congruence.
Qed.
Lemma npops_ret step inbox : forall pops0 pops projs, pops_like pops0 pops -> Forall (fun e => (N.of_nat (size (snd e)) <= two32)%N) pops ->
  kinds_ok projs -> (forall u a, In (u, a) pops0 -> Forall (message_fits a) (inbox u)) ->
  exists pops' projs' outs, npops_alone pow2f step inbox pops projs = Ret (pops', projs', outs) /\ pops_like pops0 pops'.
Proof.
  intros pops0 pops projs H. revert projs. induction H as [|[u0 a0] [u a] l0 l (H1 & H2 & H3) _ IH]; intros projs Hs Hk Hin; cbn [npops_alone].
  - do 3 eexists. split; [reflexivity|constructor].
  - cbn [fst snd] in *. subst u0. apply Forall_cons_iff in Hs as [Hsa Hs]. cbn [snd] in Hsa.
    assert (Hm : Forall (message_fits a) (inbox u)).
    { eapply Forall_impl; [|exact (Hin u a0 (or_introl eq_refl))]. intros m. now apply same_kind_message. }
    destruct (npop_ret u step (inbox u) a projs Hk Hsa H3 Hm) as (a' & projs1 & o & E & Hse & Hsk).
    destruct (npop_step_spec pow2f u step (inbox u) a projs a' projs1 o Hk Hsa E) as (_ & _ & _ & K1 & _).
    rewrite E. cbn [obind]. destruct (IH projs1 Hs K1) as (pops' & projs' & outs & E' & Hl).
    { intros v b Hv. apply Hin. now right. }
    rewrite E'. cbn [obind]. do 3 eexists. split; [reflexivity|]. constructor; [|exact Hl]. cbn [fst snd]. split; [reflexivity|].
    split; [eapply same_kind_trans; eauto|exact Hse].
Qed.
End Pops.
