(** Training inside a network. *)
From Verif Require Import Base ListLemmas Messaging_Model Messaging_Spec Projection_Model Projection_Spec Projection_Proofs
  Delta_Model Delta_Spec Delta_Proofs Neuron_Model Neuron_Spec Neuron_Proofs2 Pipeline_Model Pipeline_Spec Pipeline_Proofs Pipeline_Proofs2
  Stdp_Model Additive_Model Additive_Spec Additive_Proofs Train_Model Train_Proofs Net_Model Net_Spec Net_Proofs.

(** ** From slices to synapses *)
Lemma slices_all (R : rparams -> rparams -> Prop) : forall l l', lends l = lends l' ->
  (forall i, Forall2 R (sl i l) (sl i l')) ->
  Forall2 (fun s s' => sy_from s' = sy_from s /\ sy_to s' = sy_to s /\ R (sy_params s) (sy_params s')) l l'.
Proof.
  unfold lends. induction l as [|s l IH]; intros [|s' l'] E H; cbn [map] in *; try discriminate; [constructor|].
  injection E as E1 E2 E. constructor.
  - pose proof (H (sy_to s)) as Hs. unfold sl in Hs. cbn [filter] in Hs. rewrite <- E2, N.eqb_refl in Hs. cbn [map] in Hs.
    inversion Hs; subst. auto.
  - apply IH; [exact E|]. intros i. specialize (H i). unfold sl in *. cbn [filter] in H. rewrite <- E2 in H.
    destruct (N.eqb (sy_to s) i); [|exact H]. cbn [map] in H. inversion H; subst. assumption.
Qed.
Lemma Forall2_concat {A} (R : A -> A -> Prop) : forall ls ls' : list (list A), map (@length A) ls = map (@length A) ls' ->
  Forall2 R (concat ls) (concat ls') -> Forall2 (Forall2 R) ls ls'.
Proof.
  induction ls as [|l ls IH]; intros [|l' ls'] E H; cbn [map concat] in *; try discriminate; [constructor|].
  injection E as E1 E2.
  assert (Forall2 R l l' /\ Forall2 R (concat ls) (concat ls')) as [H1 H2].
  { clear -E1 H. revert l' E1 H. induction l as [|x l IH]; intros [|x' l'] E H; cbn [length app] in *; try discriminate; [auto|].
    inversion H; subst. destruct (IH l') as [H1 H2]; [lia|assumption|]. split; [constructor; assumption|assumption]. }
  constructor; auto.
Qed.

Lemma map_eq_F2 {A B} (f : A -> B) : forall a b, map f b = map f a -> Forall2 (fun x y => f y = f x) a b.
Proof. induction a as [|x a IH]; intros [|y b] H; cbn [map] in H; try discriminate; constructor; injection H as H1 H2; auto. Qed.

(** ** What training keeps of a synapse *)
Definition static (s : rparams) :=
  (d_delay (rp_delta s), d_type (rp_delta s), rr_min (rp_rule s), rr_max (rp_rule s), rr_du (rp_rule s), rr_period (rp_rule s), rr_last (rp_rule s)).
Lemma fm_static g : (forall n s, static (snd (g n s)) = static s) -> forall l n, map static (snd (fm g n l)) = map static l.
Proof.
  intros Hg. induction l as [|s l IH]; intros n; cbn [fm map snd]; [reflexivity|]. pose proof (Hg n s) as H. destruct (g n s) as [n1 r].
  specialize (IH n1). destruct (fm g n1 l) as [n2 t']. cbn [snd map] in *. now rewrite H, IH.
Qed.
Lemma fm_all g (P : rparams -> Prop) : (forall n s, P (snd (g n s))) -> forall l n, Forall P (snd (fm g n l)).
Proof.
  intros Hg. induction l as [|s l IH]; intros n; cbn [fm snd]; [constructor|]. pose proof (Hg n s) as H. destruct (g n s) as [n1 r].
  specialize (IH n1). destruct (fm g n1 l) as [n2 t']. cbn [snd] in *. now constructor.
Qed.
Section Kept.
Variable pow2f : flt -> flt.
Lemma mark_static step n s : static (snd (mark_f step n s)) = static s.
Proof. unfold mark_f. cbv zeta. cbn [snd]. now destruct (_ || _). Qed.
Lemma hebb_static n s : static (snd (hebb_f pow2f n s)) = static s.
Proof. unfold hebb_f. cbv zeta. now destruct (_ && _). Qed.
Lemma reward_static step n s : static (snd (reward_f pow2f step n s)) = static s.
Proof. unfold reward_f. cbv zeta. now destruct (_ && _). Qed.
Lemma train_static step b n l : map static (snd (train_n pow2f step b n l)) = map static l.
Proof.
  assert (H1 : forall n l, map static (snd (spiking_n pow2f step n l)) = map static l).
  { clear. intros n l. unfold spiking_n. cbv zeta. rewrite fm_static by reflexivity.
    destruct (negb _); [rewrite fm_static by apply hebb_static|]; (destruct (negb _); [rewrite fm_static by reflexivity|]); cbn [snd];
      apply fm_static; intros; apply mark_static. }
  assert (H2 : forall n l, map static (snd (dopamine_n pow2f step n l)) = map static l).
  { clear. intros n l. unfold dopamine_n. destruct (_ || _); [|reflexivity]. cbv zeta. rewrite fm_static by reflexivity.
    apply fm_static. intros; apply reward_static. }
  assert (H3 : forall n l, map static (snd (renorm_n step n l)) = map static l).
  { clear. intros n l. unfold renorm_n. cbv zeta. destruct (_ && _); [reflexivity|]. destruct (f_lt _ _); [reflexivity|].
    rewrite fm_static by reflexivity. apply fm_static. reflexivity. }
  unfold train_n. cbv zeta. rewrite H3, H2. destruct b; [apply H1|reflexivity].
Qed.
Lemma recalc_consistent n s : consistent (snd (recalc_f n s)).
Proof. reflexivity. Qed.
Lemma dopamine_consistent step n l : Forall consistent l -> Forall consistent (snd (dopamine_n pow2f step n l)).
Proof. intros H. unfold dopamine_n. destruct (_ || _); [|exact H]. cbv zeta. apply fm_all. apply recalc_consistent. Qed.
Lemma renorm_consistent step n l : Forall consistent l -> Forall consistent (snd (renorm_n step n l)).
Proof.
  intros H. unfold renorm_n. cbv zeta. destruct (_ && _); [exact H|]. destruct (f_lt _ _); [exact H|]. apply fm_all. apply recalc_consistent.
Qed.
Lemma train_consistent step b n l : b = true \/ Forall consistent l -> Forall consistent (snd (train_n pow2f step b n l)).
Proof.
  intros H. unfold train_n. cbv zeta. apply renorm_consistent, dopamine_consistent. destruct b.
  - unfold spiking_n. cbv zeta. apply fm_all. apply recalc_consistent.
  - destruct H as [H|H]; [discriminate|exact H].
Qed.
End Kept.

(** ** Working projections *)
Lemma works_incoming u n projs : incoming u n projs = slice n (works u projs).
Proof.
  unfold incoming, slice, works. induction projs as [|w t IH]; cbn [flat_map]; [reflexivity|].
  rewrite map_app, concat_app, filter_app, map_app, <- IH. f_equal. clear IH.
  unfold is_resource, resource_synapses, working. destruct (np_kind w); cbn [andb]; [reflexivity|reflexivity|].
  destruct (negb (np_locked w) && N.eqb (np_post w) u); [|reflexivity]. cbn [map concat]. now rewrite app_nil_r.
Qed.
Lemma works_ok u projs : Forall (fun w => kind_ok (np_kind w)) projs -> Forall index_ok (works u projs).
Proof.
  unfold works. induction 1 as [|w t H Ht IH]; cbn [flat_map]; [constructor|]. apply Forall_app. split; [|exact IH].
  unfold working. destruct (np_kind w); [constructor|constructor|]. destruct (_ && _); constructor; [exact H|constructor].
Qed.
Lemma working_set u w p p' : working u w = Some p -> working u (set_rproj w p') = Some p'.
Proof.
  unfold working, set_rproj. destruct (np_kind w) eqn:E; try discriminate. cbn [np_with np_kind np_locked np_post]. destruct (_ && _); [reflexivity|discriminate].
Qed.
Lemma works_put_back u : forall projs ps, length ps = length (works u projs) -> works u (put_back u projs ps) = ps.
Proof.
  unfold works. induction projs as [|w t IH]; intros ps H; cbn [flat_map put_back] in *; [destruct ps; [reflexivity|discriminate]|].
  destruct (working u w) as [p|] eqn:E.
  - cbn [app length] in H. destruct ps as [|p' ps]; [discriminate|]. cbn [flat_map]. rewrite (working_set u w p p' E). cbn [app]. f_equal. apply IH. cbn [length] in H. lia.
  - cbn [app] in H. cbn [flat_map]. rewrite E. cbn [app]. now apply IH.
Qed.
(** One projection before and after the training of population [u]. *)
Definition kept (w w' : nproj) : Prop :=
  np_uid w' = np_uid w /\ np_pre w' = np_pre w /\ np_post w' = np_post w /\ np_locked w' = np_locked w /\ np_queue w' = np_queue w /\
  match np_kind w, np_kind w' with
  | NDelta p, NDelta p' => p' = p
  | NAdditive l p, NAdditive l' p' => l' = l /\ p' = p
  | NResource l p, NResource l' p' => l' = l /\
      Forall2 (fun s s' => sy_from s' = sy_from s /\ sy_to s' = sy_to s /\ static (sy_params s') = static (sy_params s)) (p_syn p) (p_syn p')
  | _, _ => False
  end.
Lemma kept_refl w : kept w w.
Proof.
  unfold kept. repeat (split; [reflexivity|]). destruct (np_kind w); auto. split; [reflexivity|].
  induction (p_syn p); constructor; auto.
Qed.
Lemma Forall2_trans3 {A} (R1 R2 R3 : A -> A -> Prop) : (forall a b c, R1 a b -> R2 b c -> R3 a c) ->
  forall l1 l2 l3, Forall2 R1 l1 l2 -> Forall2 R2 l2 l3 -> Forall2 R3 l1 l3.
Proof.
  intros H l1 l2 l3 H1. revert l3. induction H1 as [|a b l1 l2 Hab H1 IH]; intros l3 H2; inversion H2; subst; constructor; eauto.
Qed.
Lemma kept_trans a b c : kept a b -> kept b c -> kept a c.
Proof.
  unfold kept. intros (A1 & A2 & A3 & A4 & A5 & A6) (B1 & B2 & B3 & B4 & B5 & B6). repeat (split; [congruence|]).
  destruct (np_kind a) as [p|l p|l p], (np_kind b) as [p'|l' p'|l' p'], (np_kind c) as [p''|l'' p''|l'' p'']; try contradiction.
  - congruence.
  - destruct A6, B6. split; congruence.
  - destruct A6 as [-> A6], B6 as [-> B6]. split; [reflexivity|]. eapply Forall2_trans3; [|exact A6|exact B6].
    cbn beta. intros x y z (H1 & H2 & H3) (K1 & K2 & K3). split; [congruence|]. split; congruence.
Qed.
Lemma kept_fixed w w' : kept w w' -> fixed w' = fixed w.
Proof.
  unfold kept, fixed, np_forced, stdp_pops, delta_synapses. intros (A1 & A2 & A3 & A4 & A5 & A6). rewrite A1, A2, A3.
  destruct (np_kind w) as [p|l p|l p], (np_kind w') as [p'|l' p'|l' p']; try contradiction.
  - now rewrite A6.
  - destruct A6 as [-> ->]. reflexivity.
  - destruct A6 as [-> A6]. f_equal. rewrite !map_map. symmetry. clear -A6. induction A6 as [|s s' l l' (H1 & H2 & H3) _ IH]; cbn [map]; [reflexivity|].
    rewrite IH. f_equal. unfold static in H3. injection H3 as H3 H4 _ _ _ _ _. unfold r_delta. cbn [sy_from sy_to sy_params]. congruence.
Qed.

(** The training of a population whose neurons are [vs]. *)
Section Train.
Variable pow2f : flt -> flt.
Lemma train_fold step spikes (vs : list tview) ps : Forall index_ok ps -> NoDup spikes -> Forall (fun i => (i < N.of_nat (length vs))%N) spikes ->
  exists vs' ps', train_f pow2f step spikes (vs, ps) = Ret (vs', ps') /\ length vs' = length vs /\ Forall index_ok ps' /\
    (forall i n, nth_error vs i = Some n -> exists n', nth_error vs' i = Some n' /\
       (n', slice (N.of_nat i) ps') = train_n pow2f step (existsb (N.eqb (N.of_nat i)) spikes) n (slice (N.of_nat i) ps)) /\
    (forall j, (N.of_nat (length vs) <= j)%N -> slice j ps' = slice j ps) /\
    Forall2 (fun p p' : rproj => Forall2 (fun s s' => sy_from s' = sy_from s /\ sy_to s' = sy_to s /\ static (sy_params s') = static (sy_params s)) (p_syn p) (p_syn p')) ps ps'.
Proof.
  intros H1 H2 H3. destruct (train_spec pow2f step spikes vs ps H1 H2 H3) as (vs' & ps' & E & L & En & Hok & Hall & Hout).
  exists vs', ps'. split; [exact E|]. split; [exact L|]. split; [exact Hok|]. split; [exact Hall|]. split; [exact Hout|].
  assert (Hs : forall i, Forall2 (fun s s' => static s' = static s) (slice i ps) (slice i ps')).
  { intros i. assert (Hm : map static (slice i ps') = map static (slice i ps)).
    { destruct (N.ltb_spec i (N.of_nat (length vs))) as [Hi|Hi].
      - assert (exists n, nth_error vs (N.to_nat i) = Some n) as (n & Hn).
        { destruct (nth_error vs (N.to_nat i)) eqn:En'; [eauto|]. apply nth_error_None in En'. lia. }
        destruct (Hall _ _ Hn) as (n' & _ & K). rewrite N2Nat.id in K. apply (f_equal snd) in K. cbn [snd] in K. rewrite K. apply train_static.
      - now rewrite (Hout i Hi). }
    now apply map_eq_F2. }
  assert (Hl : Forall2 (Forall2 (fun s s' => sy_from s' = sy_from s /\ sy_to s' = sy_to s /\ static (sy_params s') = static (sy_params s))) (map p_syn ps) (map p_syn ps')).
  { apply Forall2_concat.
    - assert (forall l : list rproj, map (@length rsyn) (map p_syn l) = map (@length (N * N)) (map ends l)) as Hx.
      { intros l. rewrite !map_map. apply map_ext. intros p. unfold ends. now rewrite map_length. }
      rewrite !Hx. now rewrite En.
    - apply (slices_all (fun s s' => static s' = static s)).
      + unfold lends. rewrite !concat_map, !map_map. unfold ends in En. now rewrite En.
      + exact Hs. }
  clear -Hl. revert ps' Hl. induction ps as [|p ps IH]; intros [|p' ps'] H; cbn [map] in H; inversion H; subst; constructor; auto.
Qed.

Lemma put_back_kept u : forall projs ps, length ps = length (works u projs) ->
  Forall2 (fun p p' : rproj => Forall2 (fun s s' => sy_from s' = sy_from s /\ sy_to s' = sy_to s /\ static (sy_params s') = static (sy_params s)) (p_syn p) (p_syn p')) (works u projs) ps ->
  Forall index_ok ps -> Forall (fun w => kind_ok (np_kind w)) projs ->
  Forall (fun w => kind_ok (np_kind w)) (put_back u projs ps) /\
  Forall2 (fun w w' => kept w w' /\ (working u w = None -> w' = w)) projs (put_back u projs ps).
Proof.
  unfold works. induction projs as [|w t IH]; intros ps L H Hi Hk; cbn [flat_map put_back] in *; [split; constructor|].
  apply Forall_cons_iff in Hk as [Hw Hk]. destruct (working u w) as [p|] eqn:E; cbn [app length] in *.
  - destruct ps as [|p' ps]; [discriminate|]. inversion H as [|? ? ? ? Hp Ht]; subst. apply Forall_cons_iff in Hi as [Hp' Hi].
    cbn [length] in L. destruct (IH ps ltac:(lia) Ht Hi Hk) as [I1 I2].
    pose proof E as Ew. unfold working in E. destruct (np_kind w) as [|l0 p0|l0 p0] eqn:Ek; try discriminate.
    destruct (negb (np_locked w) && N.eqb (np_post w) u); [|discriminate]. injection E as ->.
    split; constructor; auto.
    + unfold set_rproj. rewrite Ek. exact Hp'.
    + split; [|intros Hw0; rewrite Ew in Hw0; discriminate]. unfold kept, set_rproj. rewrite Ek. cbn [np_with np_uid np_pre np_post np_locked np_queue np_kind]. auto 10.
  - destruct (IH ps L H Hi Hk) as [I1 I2]. split; constructor; auto. split; [apply kept_refl|reflexivity].
Qed.

Section Neurons.
Context {A : Type}.
Variables (view : A -> tview) (write : A -> tview -> A).
Lemma write_all_nth : forall ns vs i n v, nth_error ns i = Some n -> nth_error vs i = Some v ->
  nth_error (write_all write ns vs) i = Some (write n v).
Proof.
  unfold write_all. induction ns as [|x ns IH]; intros [|y vs] i n v Hn Hv; destruct i; cbn [nth_error combine map] in *; try discriminate.
  - injection Hn as ->. injection Hv as ->. reflexivity.
  - eauto.
Qed.
Lemma write_all_len ns vs : length vs = length ns -> length (write_all write ns vs) = length ns.
Proof. intros H. unfold write_all. rewrite map_length, combine_length. lia. Qed.

Lemma stdp_train_spec u step spikes ns projs : Forall (fun w => kind_ok (np_kind w)) projs -> NoDup spikes ->
  Forall (fun i => (i < N.of_nat (length ns))%N) spikes ->
  exists ns' projs', stdp_train pow2f view write u step spikes ns projs = Ret (ns', projs') /\ length ns' = length ns /\
    Forall (fun w => kind_ok (np_kind w)) projs' /\
    Forall2 (fun w w' => kept w w' /\ (working u w = None -> w' = w)) projs projs' /\
    (forall i n, nth_error ns i = Some n -> exists v, nth_error ns' i = Some (write n v) /\
       (v, incoming u (N.of_nat i) projs') = train_n pow2f step (existsb (N.eqb (N.of_nat i)) spikes) (view n) (incoming u (N.of_nat i) projs)) /\
    (forall j, (N.of_nat (length ns) <= j)%N -> incoming u j projs' = incoming u j projs).
Proof.
  intros Hk Hn Hr. destruct (train_fold step spikes (map view ns) (works u projs) (works_ok u projs Hk) Hn) as (vs' & ps' & E & L & Hok & Hall & Hout & H2).
  { now rewrite map_length. }
  rewrite map_length in *. exists (write_all write ns vs'), (put_back u projs ps'). unfold stdp_train. rewrite E. cbn [obind fst snd].
  assert (Lp : length ps' = length (works u projs)) by (symmetry; clear -H2; induction H2; cbn [length]; auto).
  destruct (put_back_kept u projs ps' Lp H2 Hok Hk) as [K1 K2].
  assert (Hw : works u (put_back u projs ps') = ps') by now apply works_put_back.
  split; [reflexivity|]. split; [now apply write_all_len|]. split; [exact K1|]. split; [exact K2|]. split.
  - intros i n Hi. destruct (Hall i (view n)) as (v & Hv & Ev); [rewrite nth_error_map, Hi; reflexivity|].
    exists v. split; [now apply write_all_nth|]. rewrite !works_incoming, Hw. exact Ev.
  - intros j Hj. rewrite !works_incoming, Hw. now apply Hout.
Qed.
End Neurons.
End Train.

(** ** Other populations *)
Lemma working_incoming u v n w w' : u <> v -> (working v w = None -> w' = w) -> kept w w' -> incoming u n [w'] = incoming u n [w].
Proof.
  intros Hne Hw K. destruct (working v w) as [p|] eqn:E; [|now rewrite (Hw eq_refl)].
  destruct K as (_ & _ & K3 & K4 & _). unfold working in E. destruct (np_kind w); try discriminate.
  destruct (N.eqb_spec (np_post w) v) as [Ev|Ev]; [|rewrite andb_false_r in E; discriminate].
  assert (Hu : N.eqb (np_post w) u = false) by (apply N.eqb_neq; congruence).
  unfold incoming. cbn [flat_map]. rewrite K3, Hu, !andb_false_r. reflexivity.
Qed.
Lemma incoming_cons u n w t : incoming u n (w :: t) = incoming u n [w] ++ incoming u n t.
Proof. unfold incoming. cbn [flat_map]. now rewrite app_nil_r. Qed.
Lemma incoming_other u v n : u <> v -> forall projs projs',
  Forall2 (fun w w' => kept w w' /\ (working v w = None -> w' = w)) projs projs' -> incoming u n projs' = incoming u n projs.
Proof.
  intros Hne projs projs' H. induction H as [|w w' t t' [K Hw] _ IH]; [reflexivity|].
  rewrite (incoming_cons u n w'), (incoming_cons u n w), IH. f_equal. eapply working_incoming; eauto.
Qed.

(** ** The front part of a population with STDP *)
Section Front.
Context {A : Type}.
Variables (pre : A -> A) (imp : bool -> A -> impact -> outcome A) (post : A -> A * bool).
Lemma update_at_len : forall l i (f : A -> outcome A) l', update_at i f l = Ret l' -> length l' = length l.
Proof.
  induction l as [|x l IH]; intros [|i] f l' H; cbn [update_at] in H; try discriminate.
  - destruct (f x); cbn [obind] in H; try discriminate. now injection H as <-.
  - destruct (update_at i f l) as [t| |] eqn:E; cbn [obind] in H; try discriminate. injection H as <-. cbn [length]. now rewrite (IH i f t E).
Qed.
Lemma impact_flagged_len : forall l ns ns', impact_flagged imp l ns = Ret ns' -> length ns' = length ns.
Proof.
  induction l as [|[f i] t IH]; intros ns ns' H; cbn [impact_flagged] in H; [now injection H as <-|].
  destruct (update_at _ _ _) as [n1| |] eqn:E; cbn [obind] in H; try discriminate. rewrite (IH _ _ H). eapply update_at_len; eauto.
Qed.
Lemma positions_facts (bs : list bool) : NoDup (positions bs) /\ forall i, In i (positions bs) -> i < length bs.
Proof.
  unfold positions. split; [apply NoDup_filter, seq_NoDup|]. intros i H. apply filter_In in H as [H _]. apply in_seq in H. lia.
Qed.
Lemma stdp_front_spec ms ns ns' spikes : stdp_front pre imp post ms ns = Ret (ns', spikes) -> (N.of_nat (length ns) <= two32)%N ->
  length ns' = length ns /\ NoDup spikes /\ Forall (fun i => (i < N.of_nat (length ns'))%N) spikes.
Proof.
  unfold stdp_front. intros H Hl. rewrite (pre_part_all pre (imp true) post) in H.
  destruct (impact_flagged imp (flagged ms) (map pre ns)) as [n1| |] eqn:E; cbn [obind] in H; try discriminate.
  apply impact_flagged_len in E. rewrite map_length in E.
  pose proof (post_part_all_states pre (imp true) post n1) as E1. pose proof (post_part_all_idx pre (imp true) post n1) as E2.
  destruct (post_part post 0 0 (length n1) n1) as [n2 idx]. cbn [fst snd] in *. injection H as <- <-.
  assert (L2 : length n2 = length n1) by (rewrite E1; apply map_length).
  destruct (positions_facts (map snd (map post n1))) as [Hnd Hin]. rewrite <- E2 in *. rewrite !map_length in Hin.
  assert (Hw : forall i, In i idx -> w32 (N.of_nat i) = N.of_nat i).
  { intros i Hi. specialize (Hin i Hi). unfold w32. apply N.mod_small. lia. }
  split; [congruence|]. split.
  - rewrite (map_ext_in _ N.of_nat) by exact Hw. clear -Hnd. induction Hnd; cbn [map]; constructor; auto.
    intros H0. apply in_map_iff in H0 as (y & Hy & Hin). apply Nat2N.inj in Hy. now subst.
  - rewrite (map_ext_in _ N.of_nat) by exact Hw. apply Forall_forall. intros x Hx. apply in_map_iff in Hx as (y & <- & Hy).
    specialize (Hin y Hy). lia.
Qed.
End Front.
