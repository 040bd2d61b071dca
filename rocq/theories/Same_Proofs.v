(** Proofs about runs on the two CPU backends. *)
From Verif Require Import Base ListLemmas Messaging_Model Messaging_Spec Projection_Model Projection_Spec Projection_Proofs
  Delta_Model Delta_Spec Delta_Proofs Delta_Proofs2 Neuron_Model Neuron_Spec Pipeline_Model Pipeline_Spec Pipeline_Proofs Pipeline_Proofs2
  Stdp_Model Additive_Model Additive_Spec Additive_Proofs Train_Model Train_Proofs Net_Model Net_Spec Net_Proofs Net_Proofs2 Net_Proofs3 Net_Proofs4 Net_Proofs5
  Mt_Model Mt_Spec Mt_Proofs Mt_Proofs2 Sched_Model Sched_Proofs MtNet_Model MtNet_Spec MtNet_Proofs MtNet_Proofs2 MtNet_Proofs3 Same_Spec.

(** ** Bare projections *)
Lemma bare_facts w v : bare w = bare v -> np_uid w = np_uid v /\ np_pre w = np_pre v /\ np_post w = np_post v /\ np_locked w = np_locked v /\
  np_forced w = np_forced v /\ stdp_pops w = stdp_pops v /\ delta_synapses w = delta_synapses v /\ resource_synapses w = resource_synapses v /\ is_resource w = is_resource v.
Proof.
  unfold bare, forget, np_with, np_forced, stdp_pops, delta_synapses, resource_synapses, is_resource. cbn [np_kind np_uid np_pre np_post np_locked np_queue].
  intros [= H1 H2 H3 H4 H5]. destruct (np_kind w) as [p|l p|l p], (np_kind v) as [q|m q|m q]; try discriminate; unfold no_index in H5.
  - injection H5 as H5. auto 12.
  - injection H5 as H5 H6. rewrite H6. auto 12.
  - injection H5 as H5 H6. rewrite H6. auto 12.
Qed.
Lemma bare_intro w v : loadable w -> loadable v -> fixed w = fixed v -> np_locked w = np_locked v -> delta_synapses w = delta_synapses v ->
  resource_synapses w = resource_synapses v -> bare w = bare v.
Proof.
  unfold loadable, fixed, bare, forget, np_with, np_forced, stdp_pops, delta_synapses, resource_synapses. cbn [np_kind np_uid np_pre np_post np_locked np_queue].
  intros L1 L2 [= H1 H2 H3 H4 H5 _] H6 H7 H8.
  destruct (np_kind w) as [p|l p|l p], (np_kind v) as [q|m q|m q]; try contradiction; try discriminate; unfold no_index; congruence.
Qed.
Lemma bare_fixed w v : bare w = bare v -> fixed w = fixed v.
Proof. intros H. destruct (bare_facts _ _ H) as (H1 & H2 & H3 & _ & H4 & H5 & H6 & _). unfold fixed. congruence. Qed.
Lemma bare_loadable w v : bare w = bare v -> loadable w -> loadable v.
Proof.
  intros H. unfold bare, forget, np_with in H. cbn [np_kind np_queue] in H. injection H as _ _ _ _ H. unfold loadable. destruct (np_kind w), (np_kind v); try discriminate; auto.
Qed.
Lemma bare_relock bs w v : bare w = bare v -> bare (relock bs w) = bare (relock bs v).
Proof.
  unfold relock. revert w v. induction bs as [|b bs IH]; intros w v H; cbn [fold_left]; [exact H|]. apply IH.
  unfold bare, forget, set_lock, np_with in *. cbn [np_kind np_uid np_pre np_post np_locked np_queue] in *. injection H as -> -> -> _ H. now rewrite H.
Qed.
Lemma bare_bare w : forget (bare w) = bare w.
Proof. unfold bare, forget, np_with. cbn [np_kind np_uid np_pre np_post np_locked np_queue]. destruct (np_kind w); reflexivity. Qed.
Lemma bare_incoming u n : forall l, incoming u n (map bare l) = incoming u n l.
Proof.
  induction l as [|w l IH]; [reflexivity|]. unfold incoming in *. cbn [map flat_map]. rewrite IH. f_equal.
  unfold bare, forget, np_with, is_resource, resource_synapses. cbn [np_kind np_uid np_pre np_post np_locked]. destruct (np_kind w); reflexivity.
Qed.
Lemma bare_working u w : working u w = None <-> working u (bare w) = None.
Proof.
  unfold working, bare, forget, np_with. cbn [np_kind np_post np_locked]. destruct (np_kind w); try tauto. destruct (_ && _); split; intros; auto; discriminate.
Qed.
Lemma bare_kept w w' : kept w w' -> kept (bare w) (bare w').
Proof.
  unfold kept, bare, forget, np_with. cbn [np_kind np_uid np_pre np_post np_locked np_queue]. intros (-> & -> & -> & -> & _ & H).
  repeat (split; [reflexivity|]). destruct (np_kind w), (np_kind w'); try contradiction; cbn [no_index p_syn]; auto.
  - now subst.
  - destruct H as [-> ->]. auto.
Qed.
Lemma bare_results us l l' : Forall2 (projs_result us) l l' -> Forall2 (projs_result us) (map bare l) (map bare l').
Proof.
  induction 1 as [|w w' t t' [K Hn] _ IH]; cbn [map]; [constructor|]. constructor; [|exact IH]. split; [now apply bare_kept|].
  intros H. f_equal. apply Hn. eapply Forall_impl; [|exact H]. intros u. apply bare_working.
Qed.
Lemma bare_determined us P Q p q : Forall2 (projs_result us) P p -> Forall2 (projs_result us) Q q -> map bare P = map bare Q ->
  (forall u n, In u us -> incoming u n p = incoming u n q) -> map bare p = map bare q.
Proof.
  intros F1 F2 HPQ H. apply bare_results in F1, F2. rewrite <- HPQ in F2. pose proof (determined us _ _ _ F1 F2) as D.
  rewrite !map_map in D. rewrite !(map_ext (fun w => forget (bare w)) bare bare_bare) in D. apply D. intros u n Hu. rewrite !bare_incoming. auto.
Qed.

(** ** Populations *)
Lemma spike_message_eq u step l l' : spike_message u step l = spike_message u step l' -> l = l'.
Proof. destruct l, l'; cbn; congruence. Qed.
Lemma neurons_same {A} pow2f (view : A -> tview) write u step spikes P p Q q ns l l' :
  neurons_result pow2f view write u step spikes P p ns l -> neurons_result pow2f view write u step spikes Q q ns l' ->
  (forall n, incoming u n P = incoming u n Q) -> l' = l /\ forall n, incoming u n p = incoming u n q.
Proof.
  intros (L1 & N1 & O1) (L2 & N2 & O2) H.
  assert (G : forall i n, nth_error ns i = Some n -> nth_error l' i = nth_error l i /\ incoming u (N.of_nat i) p = incoming u (N.of_nat i) q).
  { intros i n Hi. destruct (N1 i n Hi) as (v1 & E1 & T1). destruct (N2 i n Hi) as (v2 & E2 & T2). rewrite <- H in T2. rewrite <- T2 in T1. injection T1 as -> T1. split; [congruence|exact T1]. }
  split.
  - apply nth_error_ext. intros i. destruct (nth_error ns i) as [n|] eqn:Ei; [now apply (G i n)|].
    apply nth_error_None in Ei. rewrite !(proj2 (nth_error_None _ _)) by lia. reflexivity.
  - intros n. destruct (nth_error ns (N.to_nat n)) as [x|] eqn:Ei.
    + destruct (G _ _ Ei) as [_ G2]. now rewrite N2Nat.id in G2.
    + apply nth_error_None in Ei. rewrite O1, O2 by lia. apply H.
Qed.
Definition fired_of (o : option message) : list N := match o with Some (SpikeMsg _ _ idx) => idx | _ => [] end.
Lemma apop_out u step ms a a' o : apop_step u step ms a = Ret (a', o) -> o = spike_message u step (fired_of o).
Proof.
  assert (G : forall A (pre : A -> A) imp post ns r, population_step pre imp post u step ms ns = Ret r -> snd r = spike_message u step (fired_of (snd r))).
  { intros A pre imp post ns r H. unfold population_step in H. destruct (impact_population _ _ _) as [n1| |]; cbn [obind] in H; try discriminate.
    destruct (post_part post 0 0 (length n1) n1) as [n2 idx]. injection H as <-. cbn [snd]. destruct idx; reflexivity. }
  unfold apop_step. destruct a; destruct (population_step _ _ _ _ _ _ _) as [r| |] eqn:E; cbn [obind]; intros H; try discriminate; injection H as _ <-; exact (G _ _ _ _ _ _ E).
Qed.
Lemma pop_same pow2f u step ms ms' P p Q q a a1 o1 a2 o2 :
  pop_result pow2f u step ms P p a a1 o1 -> pop_result pow2f u step ms' Q q a a2 o2 -> (forall r, front u step ms a = Ret r -> front u step ms' a = Ret r) ->
  (forall n, incoming u n P = incoming u n Q) -> a2 = a1 /\ o2 = o1 /\ (stdp_pop a = true -> forall n, incoming u n p = incoming u n q).
Proof.
  unfold pop_result. destruct a as [x|l|l], a1 as [x1|l1|l1], a2 as [x2|l2|l2]; try contradiction; intros H1 H2 Hf Hi; cbn [front] in Hf.
  - rewrite H1, H2 in Hf. cbn [obind fst snd] in Hf. specialize (Hf _ eq_refl). injection Hf as Hx Ho. split; [now rewrite Hx|]. split; [|discriminate].
    rewrite (apop_out _ _ _ _ _ _ H1), (apop_out _ _ _ _ _ _ H2). unfold fired_of. now rewrite Ho.
  - destruct H1 as (n1 & s1 & E1 & -> & R1), H2 as (n2 & s2 & E2 & -> & R2). unfold bl_front in *. rewrite E1, E2 in Hf. cbn [obind fst snd] in Hf. specialize (Hf _ eq_refl). injection Hf as -> ->.
    destruct (neurons_same _ _ _ _ _ _ _ _ _ _ _ _ _ R1 R2 Hi) as [-> G]. auto.
  - destruct H1 as (n1 & s1 & E1 & -> & R1), H2 as (n2 & s2 & E2 & -> & R2). unfold al_front in *. rewrite E1, E2 in Hf. cbn [obind fst snd] in Hf. specialize (Hf _ eq_refl). injection Hf as -> ->.
    destruct (neurons_same _ _ _ _ _ _ _ _ _ _ _ _ _ R1 R2 Hi) as [-> G]. auto.
Qed.
Lemma pops_same pow2f step (boxA boxB : uid -> list message) us P p Q q : forall (pops popsA popsB : list (uid * npop)) outsA outsB,
  Forall2 (projs_result us) P p -> Forall2 (projs_result us) Q q -> map bare P = map bare Q ->
  (forall u, In u us -> In u (stdp_uids pops)) ->
  length popsA = length pops -> length popsB = length pops -> length outsA = length pops -> length outsB = length pops ->
  (forall i u a, nth_error pops i = Some (u, a) -> exists a' o, nth_error popsA i = Some (u, a') /\ nth_error outsA i = Some o /\
     pop_result pow2f u step (boxA u) P p a a' o) ->
  (forall i u a, nth_error pops i = Some (u, a) -> exists a' o, nth_error popsB i = Some (u, a') /\ nth_error outsB i = Some o /\
     pop_result pow2f u step (boxB u) Q q a a' o) ->
  (forall i u a, nth_error pops i = Some (u, a) -> forall r, front u step (boxA u) a = Ret r -> front u step (boxB u) a = Ret r) ->
  popsB = popsA /\ outsB = outsA /\ map bare q = map bare p.
Proof.
  intros pops popsA popsB outsA outsB FP FQ HPQ Hus LA LB MA MB HA HB Hf.
  assert (HPQ' : forall u n, incoming u n P = incoming u n Q) by (intros u n; rewrite <- (bare_incoming u n P), HPQ; apply bare_incoming).
  assert (G : forall i u a, nth_error pops i = Some (u, a) -> nth_error popsB i = nth_error popsA i /\ nth_error outsB i = nth_error outsA i /\
     (stdp_pop a = true -> forall n, incoming u n p = incoming u n q)).
  { intros i u a Hi. destruct (HA i u a Hi) as (a1 & o1 & A1 & A2 & A3). destruct (HB i u a Hi) as (a2 & o2 & B1 & B2 & B3).
    destruct (pop_same _ _ _ _ _ _ _ _ _ _ _ _ _ _ A3 B3 (Hf i u a Hi) (HPQ' u)) as (-> & -> & Hinc). split; [congruence|]. split; [congruence|exact Hinc]. }
  split; [|split].
  - apply nth_error_ext. intros i. destruct (nth_error pops i) as [[u a]|] eqn:Ei; [now apply (G i u a)|].
    apply nth_error_None in Ei. rewrite !(proj2 (nth_error_None _ _)) by lia. reflexivity.
  - apply nth_error_ext. intros i. destruct (nth_error pops i) as [[u a]|] eqn:Ei; [now apply (G i u a)|].
    apply nth_error_None in Ei. rewrite !(proj2 (nth_error_None _ _)) by lia. reflexivity.
  - apply (bare_determined us Q P q p FQ FP (eq_sym HPQ)). intros u n Hu. apply Hus in Hu. unfold stdp_uids in Hu. apply in_map_iff in Hu as ([u' a] & Eu & Hu). cbn [fst] in Eu. subst u'.
    apply filter_In in Hu as [Hu Hst]. cbn [snd] in Hst. apply In_nth_error in Hu as (i & Hi). symmetry. now apply (G i u a).
Qed.

(** ** Projections *)
Definition linked (t : nat) (w v : nproj) : Prop :=
  bare w = bare v /\ agree (np_queue w) (np_queue v) /\
  wfq (np_uid w) (np_pre w) (np_post w) (np_forced w) 0 (N.of_nat t) (np_queue w) /\
  wfq (np_uid w) (np_post w) (np_pre w) (np_forced w) 0 (N.of_nat t) (np_queue v).
Lemma events_spikes step l spikes spikes' : Permutation spikes spikes' -> Permutation (flat_map (evs_of step l) spikes) (flat_map (evs_of step l) spikes').
Proof. intros H. now apply Permutation_flat_map. Qed.
Lemma existsb_perm {A} (f : A -> bool) l l' : Permutation l l' -> existsb f l = existsb f l'.
Proof. induction 1; cbn [existsb]; try congruence. destruct (f x), (f y); reflexivity. Qed.
Lemma proj_same expf pj t ms ms' ord w v w' o v' o' : (0 < pj < two64)%N ->
  linked t w v -> nproj_ok w -> nproj_ok v -> loadable w ->
  (N.of_nat (length (delta_synapses w)) <= 2 ^ 63)%N -> any_order pj (N.of_nat (length (delta_synapses w))) ord -> numeric v ->
  (ms = [] /\ ms' = [] \/ exists s t1 l s' t2 l', ms = [SpikeMsg s t1 l] /\ ms' = [SpikeMsg s' t2 l'] /\ Permutation l l' /\ NoDup l') ->
  nproj_step expf (N.of_nat t) ms w = Ret (w', o) -> mt_nproj (N.of_nat t) ms' ord v = Ret (v', o') ->
  linked (S t) w' v' /\ same_output o o'.
Proof.
  intros Hpj (Hb & Hag & W1 & W2) Hw Hv Hl Hsz Hord Hnum Hms E1 E2.
  destruct (bare_facts _ _ Hb) as (B1 & B2 & B3 & B4 & B5 & B6 & B7 & B8 & B9).
  pose proof (bare_loadable _ _ Hb Hl) as Hlv.
  destruct (nproj_step_spec expf (N.of_nat t) ms w (proj1 Hw)) as (k' & q' & o0 & dp & X1 & _ & X3 & X4). rewrite E1 in X1. injection X1 as -> <-.
  destruct (mt_nproj_spec (N.of_nat t) ms' ord v Hv Hlv) as (v0 & m0 & Y1 & _ & Y2 & _ & Y3 & Y4 & Y5 & _ & Y6 & Y7). rewrite E2 in Y1. injection Y1 as <- <-.
  rewrite B7 in Hsz, Hord. specialize (Y7 pj Hpj Hsz Hord).
  assert (Hheard : heard w ms = ms) by (unfold heard, loadable in *; destruct (np_kind w); [reflexivity|contradiction|reflexivity]). rewrite Hheard in X4.
  set (S1 := fold_left (Delta_Proofs.sched (np_uid w) (np_pre w) (np_post w) (np_forced w) (N.of_nat t)) (flat_map (evs_of (N.of_nat t) (delta_synapses w)) (spikes_of ms)) (np_queue w)).
  set (S2 := match ms' with [] => np_queue v | m :: _ => fold_left (mt_part (np_head v) (N.of_nat t) (convert_spikes (spikes_of [m])) (delta_synapses v)) ord (np_queue v) end).
  assert (W1' : wfq (np_uid w) (np_pre w) (np_post w) (np_forced w) 0 (N.of_nat t) S1) by (apply wfq_fold; [lia|exact W1]).
  assert (H12 : agree S1 S2 /\ wfq (np_uid w) (np_post w) (np_pre w) (np_forced w) 0 (N.of_nat t) S2).
  { unfold S1, S2. destruct Hms as [[-> ->]|(s & t1 & l & s' & t2 & l' & -> & -> & Hp & Hnd)].
    - cbn [spikes_of flat_map fold_left]. auto.
    - unfold spikes_of. cbn [flat_map]. rewrite !app_nil_r. rewrite fold_parts. unfold np_head. cbn [ph_uid ph_pre ph_post ph_forced]. rewrite <- B1, <- B2, <- B3, <- B5, <- B7.
      split; [|apply wfq_fold; [lia|exact W2]].
      eapply agree_fold; [split; [apply N.le_0_l|apply N.le_refl]|exact W1|exact W2|exact Hag|].
      etransitivity; [apply events_spikes; exact Hp|]. destruct Hord as (ps & fuel & Hps & Hperm). apply parts_tiles in Hps; [|exact Hpj|exact Hsz].
      etransitivity; [apply events_perm; [exact Hnd|]|].
      + rewrite B7. apply (proj1 Hnum).
      + symmetry. apply parts_perm with (ps := ps); [rewrite B7; exact Hps|exact Hperm]. }
  destruct H12 as [Ha' W2']. pose proof (Ha' (N.of_nat t)) as Hout.
  assert (EQ1 : (q', o) = match q_find (N.of_nat t) S1 with Some m => (q_erase (N.of_nat t) S1, Some m) | None => (S1, None) end).
  { unfold calculate_projection in X4. destruct (do_spikes_eq (np_head w) (N.of_nat t) (spikes_of ms) (delta_proj w) (np_queue w) (delta_proj_ok w (proj1 Hw))) as (p' & E & _ & _).
    rewrite E in X4. cbn [obind fst snd] in X4. rewrite delta_proj_syn in X4. cbn [np_head ph_uid ph_pre ph_post ph_forced] in X4. fold S1 in X4. destruct (q_find (N.of_nat t) S1); injection X4 as _ <- <-; reflexivity. }
  assert (EQ2 : (np_queue v', o') = match q_find (N.of_nat t) S2 with Some m => (q_erase (N.of_nat t) S2, Some m) | None => (S2, None) end).
  { rewrite <- Y6. unfold mt_calculate. fold S2. destruct (q_find (N.of_nat t) S2); reflexivity. }
  set (w1 := np_with w k' q').
  assert (Hw1 : delta_synapses w1 = delta_synapses w /\ fixed w1 = fixed w /\ loadable w1 /\ resource_synapses w1 = map (touched (N.of_nat t) (spikes_of ms)) (resource_synapses w) /\ np_forced w1 = np_forced w).
  { clear -X3 Hl. unfold w1, fixed, delta_synapses, resource_synapses, loadable, np_forced, stdp_pops in *. cbn [np_with np_kind np_uid np_pre np_post].
    unfold stepped in X3. destruct (np_kind w) as [p|l p|l p], k' as [p'|l' p'|l' p']; try contradiction.
    - rewrite X3. auto.
    - destruct X3 as [-> X3]. rewrite X3.
      assert (Hr : map r_delta (map (touched (N.of_nat t) (spikes_of ms)) (p_syn p)) = map r_delta (p_syn p)).
      { rewrite map_map. apply map_ext. intros s. unfold touched. destruct (existsb _ _); reflexivity. }
      rewrite Hr. auto 6. }
  destruct Hw1 as (Z1 & Z2 & Z3 & Z4 & Z5).
  assert (Hspk : forall n, existsb (N.eqb n) (spikes_of ms) = existsb (N.eqb n) (spikes_of (firstn 1 ms'))).
  { intros n. destruct Hms as [[-> ->]|(s & t1 & l & s' & t2 & l' & -> & -> & Hp & Hnd)]; [reflexivity|]. cbn [firstn spikes_of flat_map]. rewrite !app_nil_r. now apply existsb_perm. }
  assert (Hbare : bare w1 = bare v').
  { apply bare_intro; [exact Z3|exact Y2| | | |].
    - rewrite Z2, Y3. now apply bare_fixed.
    - unfold w1. cbn [np_with np_locked]. now rewrite Y5.
    - now rewrite Z1, Y4.
    - rewrite Z4, Y7, B8. apply map_ext. intros s. unfold touched, marked. rewrite Hspk. reflexivity. }
  unfold linked. rewrite Z5. change (np_queue w1) with q'. change (np_uid w1) with (np_uid w). change (np_pre w1) with (np_pre w). change (np_post w1) with (np_post w).
  assert (Hmono : forall a b q, wfq (np_uid w) a b (np_forced w) 0 (N.of_nat t) q -> wfq (np_uid w) a b (np_forced w) 0 (N.of_nat (S t)) q).
  { intros a b q H. eapply wfq_mono; [|exact H]. lia. }
  destruct (q_find (N.of_nat t) S1) as [m1|], (q_find (N.of_nat t) S2) as [m2|]; cbn in Hout; try contradiction; injection EQ1 as -> ->; injection EQ2 as -> ->.
  - split; [|exact Hout]. split; [exact Hbare|]. auto using agree_erase, wfq_erase.
  - split; [|exact I]. split; [exact Hbare|]. auto.
Qed.
