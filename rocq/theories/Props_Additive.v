(** Property theorems C71, C72: projections with the additive STDP rule. *)
From Verif Require Import Base ListLemmas Messaging_Model Projection_Model Projection_Spec Projection_Proofs Delta_Model Delta_Spec Delta_Proofs Additive_Model Additive_Spec Additive_Proofs Additive_Proofs2.

(** *** C71 *)
(** Every run of an additive STDP projection, for every exponential function: the
    step at time t sends exactly the impacts due (Additive_Spec.additive_due) in
    one message that carries the projection's identifiers, and nothing if none is
    due; the synapses change as Additive_Spec.training says.  Messages of "STDP
    only" populations train and have no effect; training at a step takes effect
    from the next step on; the run is never undefined. *)
Theorem c71_dataflow expf h s0 pops ins p :
  sound_additive p -> Forall (fun s => syn_ok (delta_view s)) (p_syn p) ->
  (s0 + N.of_nat (length ins) + two32 <= two64)%N ->
  exists outs p', additive_run expf h s0 pops ins p [] = Ret (outs, p') /\ length outs = length ins /\
    nth_error (training expf pops ins (p_syn p)) (length ins) = Some (p_syn p') /\
    forall t o, nth_error outs t = Some o ->
      (o = None <-> additive_due expf pops ins (p_syn p) t = []) /\
      forall m, o = Some m -> exists time imps,
        m = ImpactMsg (ph_uid h) time (ph_pre h) (ph_post h) (ph_forced h) imps /\
        Permutation imps (additive_due expf pops ins (p_syn p) t) /\ (s0 <= time <= s0 + N.of_nat t)%N.
Proof.
  intros Hs Hok Hb. apply sound_additive_ok in Hs.
  destruct (seen_facts expf pops (fun s => syn_ok (delta_view s))) with (ins := ins) (l := p_syn p) as (F1 & F2 & F3 & F4).
  { intros ms s H. unfold syn_ok, delta_view, trained in *. destruct (applies _ _ _); exact H. }
  specialize (F3 Hok). rewrite <- F1 in Hb.
  destruct (run_good h s0 (seen expf pops ins (p_syn p)) (ends_of (map delta_view (p_syn p))) Hb F2) with (p := as_delta p) as (outs & E & Hl & Hall).
  - eapply Forall_impl; [|exact F3]. cbn beta. intros i (l' & -> & H). apply Forall_map. exact H.
  - now apply index_ok_as_delta.
  - reflexivity.
  - destruct (run_simulates expf h pops ins s0 p (as_delta p) [] Hs (index_ok_as_delta _ Hs) eq_refl outs E) as (p' & E' & Hp').
    exists outs, p'. split; [exact E'|]. split; [congruence|]. split.
    + rewrite Hp'. generalize (p_syn p). clear. induction ins as [|ms ins IH]; intros l; cbn [length training nth_error fold_left]; [reflexivity|]. apply IH.
    + intros t o Ho. specialize (Hall t o Ho). unfold good_output in Hall.
      replace (additive_due expf pops ins (p_syn p) t) with (due (seen expf pops ins (p_syn p)) t); [exact Hall|].
      unfold due, additive_due. apply flat_map_ext_in. intros n _.
      destruct (nth_error (seen expf pops ins (p_syn p)) n) as [i|] eqn:Ei.
      * apply F4 in Ei as (ms & lt & -> & -> & ->). reflexivity.
      * destruct (nth_error ins n) as [ms|] eqn:E1; [|reflexivity].
        destruct (nth_error (training expf pops ins (p_syn p)) n) as [lt|] eqn:E2; [|reflexivity].
        assert (C : nth_error (seen expf pops ins (p_syn p)) n = Some (mkIn (map delta_view lt) (effective pops ms))) by (apply F4; eauto).
        congruence.
Qed.
Print Assumptions c71_dataflow.

(** A run in which every message comes from an "STDP only" population sends
    nothing. *)
Theorem c71_stdp_only_silent expf h s0 pops ins p outs p' :
  sound_additive p -> Forall (fun s => syn_ok (delta_view s)) (p_syn p) ->
  (s0 + N.of_nat (length ins) + two32 <= two64)%N ->
  Forall (Forall (fun m => exists s time idx, m = SpikeMsg s time idx /\ pops s = Some STDPOnly)) ins ->
  additive_run expf h s0 pops ins p [] = Ret (outs, p') -> Forall (fun o => o = None) outs.
Proof.
  intros Hs Hok Hb Hall E. destruct (c71_dataflow expf h s0 pops ins p Hs Hok Hb) as (outs' & q & E' & _ & _ & H).
  assert (outs' = outs) by congruence. subst outs'. apply Forall_forall. intros o Ho. apply In_nth_error in Ho as (t & Ht).
  apply (H t o Ht). unfold additive_due. induction (seq 0 (S t)) as [|n l IH]; cbn [flat_map]; [reflexivity|]. rewrite IH, app_nil_r.
  destruct (nth_error ins n) as [ms|] eqn:Ei; [|reflexivity]. destruct (nth_error (training expf pops ins (p_syn p)) n); [|reflexivity].
  assert (Ee : effective pops ms = []).
  { rewrite Forall_forall in Hall. specialize (Hall ms (nth_error_In _ _ Ei)). clear -Hall.
    induction Hall as [|m ms (s & time & idx & -> & Hp) _ IH]; [reflexivity|]. cbn [effective filter only_stdp]. rewrite Hp. exact IH. }
  rewrite Ee. reflexivity.
Qed.
Print Assumptions c71_stdp_only_silent.

(** A concrete run: population 5 trains only, population 6 trains and acts, 7 acts
    only.  "Exponential" here is the constant 1. *)
Definition ex_exp (x : flt) : flt := f_of_Z 1.
Definition ex_pops : pop_map := fun u => if N.eqb u 5 then Some STDPOnly else if N.eqb u 6 then Some STDPAndSpike else None.
Definition ex_asyn (from to : N) : asyn :=
  mkSyn (mkAP (mkDP (f_of_Z 3) 1 EXCITATORY) (f_of_Z 1) (f_of_Z 1) [] []) from to.
Definition ex_aproj : aproj := proj_generated (fun i => nth_error [ex_asyn 0 0; ex_asyn 0 1] i) 2.
Example c71_case :
  let ins := [[SpikeMsg 6 0 [0]%N]; [SpikeMsg 6 1 [0]%N; SpikeMsg 5 1 [1]%N]; [SpikeMsg 7 2 [0]%N; SpikeMsg 5 2 [0]%N]] in
  sound_additive ex_aproj /\ Forall (fun s => syn_ok (delta_view s)) (p_syn ex_aproj) /\
  exists p', additive_run ex_exp (mkPH 9 6 8 false) 0 ex_pops ins ex_aproj [] =
    Ret ([Some (ImpactMsg 9 0 6 8 false [mkImpact 0 (f_of_Z 3) EXCITATORY 0 0; mkImpact 1 (f_of_Z 3) EXCITATORY 0 1]);
          Some (ImpactMsg 9 1 6 8 false [mkImpact 0 (f_of_Z 3) EXCITATORY 0 0; mkImpact 1 (f_of_Z 3) EXCITATORY 0 1]);
          Some (ImpactMsg 9 2 6 8 false [mkImpact 0 (f_of_Z 7) EXCITATORY 0 0; mkImpact 1 (f_of_Z 3) EXCITATORY 0 1])], p') /\
    map (fun s => (a_pre (sy_params s), a_post (sy_params s))) (p_syn p') = [([], [2]); ([], [1])]%N.
Proof.
  cbv zeta. split; [|split].
  - eexists _, true, [], []. split; [right; split; [eauto|reflexivity]|]. split; [reflexivity|exact I].
  - repeat constructor.
  - eexists. split; vm_compute; reflexivity.
Qed.

(** *** C72 *)
(** No synapse ever changes anything but its weight and its histories. *)
Theorem c72_frame expf pops ins l t lt i s : nth_error (training expf pops ins l) t = Some lt -> nth_error l i = Some s ->
  length lt = length l /\ exists s', nth_error lt i = Some s' /\ sy_from s' = sy_from s /\ sy_to s' = sy_to s /\
    d_delay (a_delta (sy_params s')) = d_delay (a_delta (sy_params s)) /\ d_type (a_delta (sy_params s')) = d_type (a_delta (sy_params s)) /\
    a_tau_plus (sy_params s') = a_tau_plus (sy_params s) /\ a_tau_minus (sy_params s') = a_tau_minus (sy_params s).
Proof.
  revert l t s. induction ins as [|ms ins IH]; intros l [|t] s; cbn [training nth_error].
  - intros [= <-] Hs. split; [reflexivity|]. exists s. auto 9.
  - destruct t; discriminate.
  - intros [= <-] Hs. split; [reflexivity|]. exists s. auto 9.
  - intros Ht Hs. assert (Hs' : nth_error (map (trained expf pops ms) l) i = Some (trained expf pops ms s)) by (rewrite nth_error_map, Hs; reflexivity).
    destruct (IH _ _ _ Ht Hs') as (Hl & s' & H1 & H2). split; [now rewrite map_length in Hl|]. exists s'. split; [exact H1|].
    unfold trained in H2. destruct (applies pops ms s); exact H2.
Qed.
Print Assumptions c72_frame.

Lemma f_add_comm a b : f_add a b = f_add b a.
Proof.
  unfold f_add, SFadd. destruct a as [[]|[]| |[] m e], b as [[]|[]| |[] m' e']; try reflexivity; cbv zeta; rewrite (Z.min_comm e' e); f_equal; apply Z.add_comm.
Qed.
Lemma fill_grown period h ts : grown period h -> grown period (fill period h ts).
Proof.
  revert h. induction ts as [|t ts IH]; intros h Hh; [exact Hh|]. unfold fill. cbn [fold_left]. apply IH.
  destruct (f_lt (f_of_Z (Z.of_nat (length h))) period) eqn:E; [|exact Hh]. intros k Hk. rewrite app_length in Hk. cbn [length] in Hk.
  destruct (Nat.eq_dec k (length h)) as [->|]; [exact E|]. apply Hh. lia.
Qed.
Lemma lt_not_ge x y : f_lt x y = true -> f_ge x y = true -> False.
Proof.
  unfold f_lt, f_ge, SFltb, SFleb. intros A B.
  assert (E : SFcompare y x = match SFcompare x y with Some c => Some (CompOpp c) | None => None end).
  { clear. assert (P : forall m m' : positive, Pos.compare_cont Eq m' m = CompOpp (Pos.compare_cont Eq m m')).
    { intros m m'. symmetry. exact (Pos.compare_cont_antisym m m' Eq). }
    destruct x as [|[]| |[] m e], y as [|[]| |[] m' e']; cbn [SFcompare]; try reflexivity;
      rewrite (Z.compare_antisym e e'), (P m m'); destruct (e ?= e')%Z; cbn [CompOpp]; try reflexivity;
      destruct (Pos.compare_cont Eq m m'); reflexivity. }
  rewrite E in B. destruct (SFcompare x y) as [[]|]; discriminate.
Qed.
Lemma trained_grown expf pops ms s : grown_synapse s -> grown_synapse (trained expf pops ms s).
Proof.
  intros [H1 H2]. unfold trained, grown_synapse. destruct (applies pops ms s); cbn [sy_params a_tau_plus a_tau_minus a_pre a_post].
  - split; intros k Hk; cbn in Hk; lia.
  - unfold pre_history, post_history. rewrite (f_add_comm (a_tau_minus (sy_params s))). split; now apply fill_grown.
Qed.
(** Whenever the rule is applied, both histories have the same size (the assertion
    in the code), provided the projection was set up with empty histories. *)
Theorem c72_same_size expf pops ins l t lt ms s :
  Forall (fun s => a_pre (sy_params s) = [] /\ a_post (sy_params s) = []) l ->
  nth_error (training expf pops ins l) t = Some lt -> nth_error ins t = Some ms -> In s lt ->
  applies pops ms s = true -> length (pre_history pops ms s) = length (post_history pops ms s).
Proof.
  intros H0 Ht _ Hin Ha.
  assert (Hg : Forall grown_synapse l).
  { eapply Forall_impl; [|exact H0]. cbn beta. intros x [E1 E2]. unfold grown_synapse. rewrite E1, E2. split; intros k Hk; cbn in Hk; lia. }
  assert (Hs : grown_synapse s).
  { clear H0 Ha. revert l t Hg Ht. induction ins as [|m0 ins IH]; intros l [|t] Hg Ht; cbn [training nth_error] in Ht.
    - injection Ht as <-. rewrite Forall_forall in Hg. auto.
    - destruct t; discriminate.
    - injection Ht as <-. rewrite Forall_forall in Hg. auto.
    - eapply IH; [|exact Ht]. apply Forall_map. eapply Forall_impl; [|exact Hg]. intros. now apply trained_grown. }
  destruct Hs as [H1 H2]. unfold applies in Ha. apply andb_true_iff in Ha as [A1 A2]. unfold is_full in A1, A2.
  assert (G1 : grown (f_add (a_tau_plus (sy_params s)) (a_tau_minus (sy_params s))) (pre_history pops ms s)).
  { unfold pre_history. rewrite (f_add_comm (a_tau_minus (sy_params s))). now apply fill_grown. }
  assert (G2 : grown (f_add (a_tau_plus (sy_params s)) (a_tau_minus (sy_params s))) (post_history pops ms s)).
  { unfold post_history. rewrite (f_add_comm (a_tau_minus (sy_params s))). now apply fill_grown. }
  destruct (Nat.lt_trichotomy (length (pre_history pops ms s)) (length (post_history pops ms s))) as [H|[H|H]]; [|exact H|].
  - exfalso. exact (lt_not_ge _ _ (G2 _ H) A1).
  - exfalso. exact (lt_not_ge _ _ (G1 _ H) A2).
Qed.
Print Assumptions c72_same_size.

(** False: "spikes of the target neuron before spikes of the source neuron weaken
    the synapse".  For every exponential function with non-negative values, all
    positive time constants, all messages and every step, a (finite) weight never
    gets smaller. *)
Theorem c72_weaken_refuted expf pops ins l t lt lt' i s s' :
  exp_like expf ->
  nth_error (training expf pops ins l) t = Some lt -> nth_error (training expf pops ins l) (S t) = Some lt' ->
  nth_error lt i = Some s -> nth_error lt' i = Some s' ->
  positive_float (a_tau_plus (sy_params s)) -> positive_float (a_tau_minus (sy_params s)) ->
  valid_binary 24 128 (d_weight (a_delta (sy_params s))) = true -> is_finite (d_weight (a_delta (sy_params s))) = true ->
  f_le (d_weight (a_delta (sy_params s))) (d_weight (a_delta (sy_params s'))) = true.
Proof.
  intros He Ht Ht' Hi Hi' Hp Hm Hv Hf.
  assert (Hn : exists ms, s' = trained expf pops ms s).
  { revert l t Ht Ht'. induction ins as [|ms ins IH]; intros l t Ht Ht'; cbn [training nth_error] in *; [destruct t; discriminate|].
    destruct t as [|t].
    - injection Ht as <-. cbn [nth_error] in Ht'. exists ms. destruct ins; cbn [training nth_error] in Ht'; injection Ht' as <-; rewrite nth_error_map, Hi in Hi'; cbn [option_map] in Hi'; congruence.
    - eapply IH; eauto. }
  destruct Hn as (ms & ->). unfold trained. destruct (applies pops ms s); cbn [sy_params a_delta d_weight].
  - apply add_nonneg_ge; [now split|]. apply pair_sum_nonneg. intros d Hd. now apply curve_nonneg.
  - apply f_le_refl. now split.
Qed.
Print Assumptions c72_weaken_refuted.

(** False: "the presynaptic history holds the spikes of the source neuron".  Both
    histories follow the target's number only: if no message of an STDP population
    mentions it, a step leaves the histories and the weight as they were (unless
    both were already full). *)
Theorem c72_source_ignored_refuted expf pops ms s :
  applies pops [] s = false ->
  (forall u time idx, In (SpikeMsg u time idx) ms -> pops u = None \/ ~ In (sy_to s) idx) ->
  trained expf pops ms s = s.
Proof.
  intros Ha H.
  assert (Hm : forall w, mentions pops w ms (sy_to s) = []).
  { intros w. clear Ha. induction ms as [|m ms IH]; [reflexivity|]. unfold mentions. cbn [flat_map]. fold (mentions pops w ms (sy_to s)).
    rewrite IH by (intros; eapply H; right; eauto). rewrite app_nil_r. destruct m as [u time idx|]; [|reflexivity].
    destruct (H u time idx (or_introl eq_refl)) as [->|Hni]; [reflexivity|]. destruct (pops u) as [k|]; [|reflexivity].
    destruct (w k); [|reflexivity]. apply (count_occ_not_In N.eq_dec) in Hni. rewrite Hni. reflexivity. }
  assert (E1 : pre_history pops ms s = pre_history pops [] s) by (unfold pre_history; now rewrite Hm).
  assert (E2 : post_history pops ms s = post_history pops [] s) by (unfold post_history; now rewrite Hm).
  unfold trained. unfold applies in *. rewrite E1, E2, Ha. destruct s as [[] f t]. reflexivity.
Qed.
Print Assumptions c72_source_ignored_refuted.

(** A projection whose STDP populations are all "STDP only" never trains: with
    empty histories at the start and a positive period, no weight ever changes. *)
Theorem c72_stdp_only_never_trains expf pops ins l t lt :
  (forall u, pops u <> Some STDPAndSpike) ->
  Forall (fun s => a_pre (sy_params s) = [] /\
                   f_ge (f_of_Z 0) (f_add (a_tau_plus (sy_params s)) (a_tau_minus (sy_params s))) = false) l ->
  nth_error (training expf pops ins l) t = Some lt ->
  map (fun s => d_weight (a_delta (sy_params s))) lt = map (fun s => d_weight (a_delta (sy_params s))) l.
Proof.
  intros Hp. revert l t. induction ins as [|ms ins IH]; intros l [|t] H0 Ht; cbn [training nth_error] in Ht; try (injection Ht as <-; reflexivity).
  - destruct t; discriminate.
  - assert (Hm : forall n, mentions pops and_spike ms n = []).
    { clear -Hp. intros n. unfold mentions. induction ms as [|m ms IHm]; cbn [flat_map]; [reflexivity|]. rewrite IHm, app_nil_r. destruct m as [u time idx|]; [|reflexivity].
      specialize (Hp u). destruct (pops u) as [[]|]; try reflexivity. congruence. }
    assert (E : map (fun s => (a_pre (sy_params s), a_tau_plus (sy_params s), a_tau_minus (sy_params s), d_weight (a_delta (sy_params s)))) (map (trained expf pops ms) l) =
                map (fun s => (a_pre (sy_params s), a_tau_plus (sy_params s), a_tau_minus (sy_params s), d_weight (a_delta (sy_params s)))) l).
    { rewrite map_map. apply map_ext_in. intros s Hs. rewrite Forall_forall in H0. destruct (H0 s Hs) as [E1 E2].
      assert (Ep : pre_history pops ms s = []) by (unfold pre_history; rewrite Hm, E1; reflexivity).
      unfold trained, applies, is_full. rewrite Ep. cbn [length]. change (Z.of_nat 0) with 0%Z. rewrite E2. cbn [andb sy_params a_pre a_tau_plus a_tau_minus a_delta]. now rewrite E1. }
    transitivity (map (fun s => d_weight (a_delta (sy_params s))) (map (trained expf pops ms) l)).
    + eapply IH; [|exact Ht]. apply Forall_forall. intros s' Hs'.
        apply (in_map (fun s => (a_pre (sy_params s), a_tau_plus (sy_params s), a_tau_minus (sy_params s), d_weight (a_delta (sy_params s))))) in Hs'.
        rewrite E in Hs'. apply in_map_iff in Hs' as (s & Es & Hs). rewrite Forall_forall in H0. destruct (H0 s Hs) as [E1 E2].
        injection Es as F1 F2 F3 F4. split; congruence.
    + apply (f_equal (map snd)) in E. rewrite !map_map in E. cbn [snd] in E. rewrite map_map. exact E.
Qed.
Print Assumptions c72_stdp_only_never_trains.

(** The hypotheses hold of, and the rule is applied in, the run of c71_case; the
    times may also wrap: with the target's spike 1 step before the source's the
    difference used is 2^64 - 1. *)
Example c72_case :
  applies ex_pops [SpikeMsg 6 1 [0]%N] (mkSyn (mkAP (mkDP (f_of_Z 3) 1 EXCITATORY) (f_of_Z 1) (f_of_Z 1) [0]%N [0]%N) 4 0) = true /\
  exp_like ex_exp /\ positive_float (f_of_Z 1) /\ sub64 0 1 = 18446744073709551615%N /\
  applies ex_pops [] (ex_asyn 0 1) = false /\ f_ge (f_of_Z 0) (f_add (f_of_Z 1) (f_of_Z 1)) = false.
Proof.
  split; [vm_compute; reflexivity|]. split; [intros x _ _; split; reflexivity|]. repeat split.
Qed.
