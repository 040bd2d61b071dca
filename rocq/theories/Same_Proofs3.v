(** Proofs about runs on the two CPU backends, continued: impacts on different neurons
    can be taken in any order. *)
From Verif Require Import Base ListLemmas Messaging_Model Neuron_Model Neuron_Spec Neuron_Proofs2 Pipeline_Model Net_Model Sched_Model Same_Spec.

Lemma update_comm {A} i j (f g : A -> outcome A) ns x y : i <> j ->
  update_at i f ns = Ret x -> update_at j g x = Ret y -> exists z, update_at j g ns = Ret z /\ update_at i f z = Ret y.
Proof.
  intros Hij. revert i j Hij x y. induction ns as [|a ns IH]; intros i j Hij x y H1 H2; [destruct i; discriminate|].
  destruct i as [|i], j as [|j]; [lia| | |]; cbn [update_at] in *.
  - destruct (f a) as [a'| |] eqn:F; cbn [obind] in *; try discriminate. injection H1 as <-. cbn [update_at] in H2.
    destruct (update_at j g ns) as [t| |]; cbn [obind] in *; try discriminate. injection H2 as <-. exists (a :: t). split; [reflexivity|]. cbn [update_at]. now rewrite F.
  - destruct (update_at i f ns) as [t| |] eqn:F; cbn [obind] in *; try discriminate. injection H1 as <-. cbn [update_at] in H2.
    destruct (g a) as [a'| |]; cbn [obind] in *; try discriminate. injection H2 as <-. exists (a' :: ns). split; [reflexivity|]. cbn [update_at]. now rewrite F.
  - destruct (update_at i f ns) as [t| |] eqn:F; cbn [obind] in *; try discriminate. injection H1 as <-. cbn [update_at] in H2.
    destruct (update_at j g t) as [t'| |] eqn:G; cbn [obind] in *; try discriminate. injection H2 as <-.
    destruct (IH i j ltac:(lia) t t' F G) as (z & Z1 & Z2). exists (a :: z). rewrite Z1. split; [reflexivity|]. cbn [update_at]. now rewrite Z2.
Qed.
Lemma flagged_perm {A} (imp : bool -> A -> impact -> outcome A) l l' : Permutation l l' -> NoDup (map (fun e => i_post (snd e)) l) ->
  forall ns r, impact_flagged imp l ns = Ret r -> impact_flagged imp l' ns = Ret r.
Proof.
  induction 1 as [|[f i] l l' _ IH|[f i] [g j] l|l l1 l' P1 IH1 _ IH2]; intros Hn ns r; auto.
  - cbn [impact_flagged map] in *. apply NoDup_cons_iff in Hn as [_ Hn]. destruct (update_at _ _ ns) as [x| |]; cbn [obind]; auto.
  - cbn [impact_flagged map snd] in *. apply NoDup_cons_iff in Hn as [Hn _].
    assert (Hij : N.to_nat (i_post i) <> N.to_nat (i_post j)) by (intros E; apply N2Nat.inj in E; apply Hn; left; auto).
    destruct (update_at (N.to_nat (i_post j)) _ ns) as [x| |] eqn:E1; cbn [obind]; try discriminate.
    destruct (update_at (N.to_nat (i_post i)) _ x) as [y| |] eqn:E2; cbn [obind]; try discriminate. intros H.
    destruct (update_comm _ _ _ _ _ _ _ (not_eq_sym Hij) E1 E2) as (z & -> & Z2). cbn [obind]. rewrite Z2. exact H.
  - intros H. apply IH2; [eapply Permutation_NoDup; [apply Permutation_map; exact P1|exact Hn]|]. apply IH1; auto.
Qed.
Lemma impact_flags {A} (imp : A -> impact -> outcome A) : forall l ns, impact_population imp l ns = impact_flagged (fun _ => imp) (map (pair true) l) ns.
Proof. induction l as [|i l IH]; intros ns; [reflexivity|]. cbn [impact_population impact_flagged map]. destruct (update_at _ _ ns); cbn [obind]; auto. Qed.
Lemma reshuffled_flagged : forall ms ms', Forall2 reshuffled ms ms' -> Permutation (flagged ms) (flagged ms').
Proof.
  induction 1 as [|m m' ms ms' H _ IH]; [constructor|]. unfold flagged in *. cbn [flat_map]. apply Permutation_app; [|exact IH].
  destruct m, m'; cbn in H; try contradiction; [constructor|]. destruct H as (_ & -> & H). now apply Permutation_map.
Qed.
Lemma flagged_snd : forall ms, map snd (flagged ms) = impacts_of ms.
Proof.
  induction ms as [|m ms IH]; [reflexivity|]. unfold flagged, impacts_of in *. cbn [flat_map]. rewrite map_app, IH. f_equal. destruct m; [reflexivity|].
  rewrite map_map. apply map_id.
Qed.
Lemma reshuffled_impacts ms ms' : Forall2 reshuffled ms ms' -> Permutation (impacts_of ms) (impacts_of ms').
Proof. intros H. rewrite <- !flagged_snd. apply Permutation_map. now apply reshuffled_flagged. Qed.
Lemma pop_step_perm {A} (pre : A -> A) imp post u step ms ms' ns r : one_each ms -> Forall2 reshuffled ms ms' ->
  population_step pre imp post u step ms ns = Ret r -> population_step pre imp post u step ms' ns = Ret r.
Proof.
  intros Hn H. rewrite !population_step_eq, !impact_flags. destruct (impact_flagged _ (map (pair true) (impacts_of ms)) _) as [x| |] eqn:E; cbn [obind]; try discriminate.
  rewrite (flagged_perm _ _ (map (pair true) (impacts_of ms')) (Permutation_map _ (reshuffled_impacts _ _ H))) with (r := x) (2 := E); [auto|].
  rewrite map_map. exact Hn.
Qed.
Lemma one_each_free u step ms a : one_each ms -> order_free u step ms a.
Proof.
  intros Hn ms' r H. 
  assert (G : forall A (pre : A -> A) imp post ns r, stdp_front pre imp post ms ns = Ret r -> stdp_front pre imp post ms' ns = Ret r).
  { intros A pre imp post ns r0. unfold stdp_front. destruct (impact_flagged imp (flagged ms) _) as [x| |] eqn:E; cbn [obind]; try discriminate.
    rewrite (flagged_perm _ _ (flagged ms') (reshuffled_flagged _ _ H)) with (r := x) (2 := E); [auto|].
    unfold one_each in Hn. rewrite <- flagged_snd, map_map in Hn. exact Hn. }
  destruct a as [x|l|l]; cbn [front].
  - destruct x as [ns|ns|ns]; cbn [apop_step];
      destruct (population_step _ _ _ u step ms ns) as [y| |] eqn:E; cbn [obind]; try discriminate; rewrite (pop_step_perm _ _ _ _ _ _ _ _ _ Hn H E); auto.
  - destruct (stdp_front _ _ _ ms l) as [y| |] eqn:E; cbn [obind]; try discriminate. rewrite (G _ _ _ _ _ _ E). auto.
  - destruct (stdp_front _ _ _ ms l) as [y| |] eqn:E; cbn [obind]; try discriminate. rewrite (G _ _ _ _ _ _ E). auto.
Qed.
