(** Property theorems C84, C85, C86, C88, C89: whole networks with every kind of
    population and projection, training, and the switching of learning, on the
    single-threaded backend. *)
From Verif Require Import Base ListLemmas Messaging_Model Messaging_Spec Projection_Model Projection_Spec Projection_Proofs
  Delta_Model Delta_Spec Delta_Proofs Neuron_Model Pipeline_Model Pipeline_Spec Pipeline_Proofs Pipeline_Proofs2
  Stdp_Model Additive_Model Additive_Spec Additive_Proofs Train_Model Train_Proofs Net_Model Net_Spec Net_Proofs Net_Proofs2 Net_Proofs3 Net_Proofs4 Net_Proofs5
  Props_Pipeline.

(** *** C84 *)
(** Every network, every subscriptions in addition, every sequence of calls from
    outside and of calls of start_learning / stop_learning between the steps.  In
    every step every population takes in exactly, in this order, the impact messages
    meant for it among those sent by the projections in the previous step and those
    waiting; every projection takes in exactly the spike messages meant for it among
    those waiting and those sent by the populations in the same step.  The step of a
    projection is made with its synapses as training left them. *)
Theorem c84_dataflow pow2f expf extra pops projs turns k tr :
  sound_network pops projs -> Forall (fun u => forallb outside (tu_ops u) = true) turns ->
  net_run pow2f expf extra pops projs turns k tr ->
  length tr = length turns /\ (nb_pops k, nb_projs k) = after tr pops projs (length tr) /\
  forall t r u, nth_error tr t = Some r -> nth_error turns t = Some u ->
    nr_pops r = fst (after tr pops projs t) /\ nr_projs r = learn_all (tu_learn u) (snd (after tr pops projs t)) /\
    map fst (nr_pops r) = map fst pops /\
    (forall i p a, nth_error (nr_pops r) i = Some (p, a) ->
       nth_error (r_pop_in (nr_msgs r)) i =
         Some (filter (to_population (map np_head projs) extra p) (sent_before (map nr_msgs tr) t ++ r_ext (nr_msgs r)))) /\
    (forall j w, nth_error (nr_trained r) j = Some w -> exists ms w' o,
       ms = filter (to_nproj extra w) (r_ext (nr_msgs r) ++ sent_msgs (r_pop_out (nr_msgs r))) /\
       nth_error (r_proj_in (nr_msgs r)) j = Some ms /\ nth_error (nr_projs' r) j = Some w' /\
       nth_error (r_proj_out (nr_msgs r)) j = Some o /\
       nproj_step expf (N.of_nat t mod two64) ms w = Ret (w', o)).
Proof.
  intros Hs Hf Hr. destruct (net_run_facts _ _ _ _ _ _ _ _ Hs Hf Hr) as (L & F & E & _). split; [exact L|]. split; [exact E|].
  intros t r u Ht Hu. destruct (F t r u Ht Hu) as (SF & E1 & E2). split; [exact E1|]. split; [exact E2|].
  split; [apply (sf_us _ _ _ _ _ _ _ _ SF)|]. split.
  - intros i p a Hi. destruct (sf_pops _ _ _ _ _ _ _ _ SF i p a Hi) as (a' & o & H & _). exact H.
  - intros j w Hj. destruct (sf_projs _ _ _ _ _ _ _ _ SF j w Hj) as (w' & o & H1 & H2 & H3 & H4).
    exists (nproj_box extra (r_ext (nr_msgs r)) (sent_msgs (r_pop_out (nr_msgs r))) w), w', o. auto 10.
Qed.
Print Assumptions c84_dataflow.

(** Exactly once, for every kind of projection, whatever training does to the
    weights: what a projection sends at step [t] is, up to order, the impacts of all
    spikes that came in at a step [n] through a synapse with delay [t - n + 1], with
    the weight the synapse had after the training of step [n]. *)
Theorem c84_exactly_once pow2f expf extra pops projs turns k tr j w :
  sound_network pops projs -> Forall (fun u => forallb outside (tu_ops u) = true) turns ->
  net_run pow2f expf extra pops projs turns k tr ->
  nth_error projs j = Some w -> Forall syn_ok (delta_synapses w) -> (N.of_nat (length tr) + two32 <= two64)%N ->
  forall t r, nth_error tr t = Some r -> exists o, nth_error (r_proj_out (nr_msgs r)) j = Some o /\
    (o = None <-> due (map (input_of extra j) tr) t = []) /\
    forall m, o = Some m -> exists time imps,
      m = ImpactMsg (np_uid w) time (np_pre w) (np_post w) (np_forced w) imps /\
      Permutation imps (due (map (input_of extra j) tr) t) /\ (time <= N.of_nat t)%N.
Proof.
  intros Hs Hf Hr Hj Hok Hl t r Ht.
  assert (Hq : np_queue w = []). { pose proof (sn_queues _ _ Hs) as H. rewrite Forall_forall in H. apply H. eapply nth_error_In; eauto. }
  destruct (outputs_due _ _ _ _ _ _ _ _ Hs Hf Hr j w Hj Hok Hq Hl t r Ht) as (o & H1 & G1 & G2). exists o. split; [exact H1|].
  split; [exact G1|]. intros m Hm. destruct (G2 m Hm) as (time & imps & E & P & T). exists time, imps. split; [exact E|]. split; [exact P|]. lia.
Qed.
Print Assumptions c84_exactly_once.

(** The latency: a spike of neuron [x] that a projection takes in at step [n] reaches
    the postsynaptic population at step [n + d] through every synapse from [x] with
    delay [d], with the weight the synapse had after the training of step [n]. *)
Lemma fixed_column pow2f expf extra pops projs turns k tr : sound_network pops projs ->
  Forall (fun u => forallb outside (tu_ops u) = true) turns -> net_run pow2f expf extra pops projs turns k tr ->
  forall t r, nth_error tr t = Some r -> map fixed (nr_projs r) = map fixed projs /\ map fixed (nr_trained r) = map fixed projs /\ map fixed (nr_projs' r) = map fixed projs.
Proof.
  intros Hs Hf Hr t r Ht. destruct (turn_at _ _ _ _ _ _ _ _ Hs Hf Hr t r Ht) as (u & Hu).
  destruct (net_run_facts _ _ _ _ _ _ _ _ Hs Hf Hr) as (_ & F & _). destruct (F t r u Ht Hu) as (SF & _). destruct SF. auto.
Qed.
Lemma fixed_nth l l' j w : map fixed l = map fixed l' -> nth_error l j = Some w -> exists w', nth_error l' j = Some w' /\ fixed w' = fixed w.
Proof.
  intros H Hj. assert (E : nth_error (map fixed l) j = Some (fixed w)) by (rewrite nth_error_map, Hj; reflexivity).
  rewrite H, nth_error_map in E. destruct (nth_error l' j) as [w'|]; [|discriminate]. cbn [option_map] in E. exists w'. split; [reflexivity|].
  now apply (f_equal (fun o => match o with Some y => y | None => fixed w end)) in E.
Qed.
Theorem c84_latency pow2f expf extra pops projs turns k tr n d rn rd i u j w sender time idx x s syn :
  sound_network pops projs -> Forall (fun u => forallb outside (tu_ops u) = true) turns ->
  net_run pow2f expf extra pops projs turns k tr ->
  (N.of_nat (length tr) + two32 <= two64)%N ->
  nth_error tr n = Some rn -> nth_error (nr_trained rn) j = Some w -> Forall syn_ok (delta_synapses w) ->
  nth_error (map fst pops) i = Some u -> u <> 0%N -> np_post w = u ->
  In (SpikeMsg sender time idx) (heard w (r_ext (nr_msgs rn) ++ sent_msgs (r_pop_out (nr_msgs rn)))) ->
  to_nproj extra w (SpikeMsg sender time idx) = true -> In x idx ->
  nth_error (delta_synapses w) s = Some syn -> sy_from syn = x -> d_delay (sy_params syn) = N.of_nat d -> d >= 1 ->
  nth_error tr (n + d) = Some rd ->
  exists ms time' imps, nth_error (r_pop_in (nr_msgs rd)) i = Some ms /\
    In (ImpactMsg (np_uid w) time' (np_pre w) u (np_forced w) imps) ms /\
    In (mkImpact (N.of_nat s) (d_weight (sy_params syn)) (d_type (sy_params syn)) x (sy_to syn)) imps.
Proof.
  intros Hs Hf Hr Hlen Hn Hj Hok Ha Hu0 Hpost Hin Hsend Hx Hsyn Hfrom Hd Hd1 Hrd.
  destruct (fixed_column _ _ _ _ _ _ _ _ Hs Hf Hr n rn Hn) as (_ & F1 & _).
  destruct (fixed_nth _ _ j w F1 Hj) as (w0 & Hj0 & Ew).
  destruct (fixed_uid _ _ Ew) as (Eu & Eh & _). destruct (fixed_ends _ _ (eq_sym Ew)) as [_ Hok0]. specialize (Hok0 Hok).
  assert (Ht : exists rt, nth_error tr (n + d - 1) = Some rt).
  { destruct (nth_error tr (n + d - 1)) eqn:E; [eauto|]. apply nth_error_None in E.
    assert (nth_error tr (n + d) <> None) as H by congruence. apply nth_error_Some in H. lia. }
  destruct Ht as (rt & Ht). set (t := n + d - 1) in *.
  destruct (c84_exactly_once _ _ _ _ _ _ _ _ j w0 Hs Hf Hr Hj0 Hok0 Hlen t rt Ht) as (o & Ho & Hnone & Hsome).
  set (imp := mkImpact (N.of_nat s) (d_weight (sy_params syn)) (d_type (sy_params syn)) x (sy_to syn)).
  assert (Hdue : In imp (due (map (input_of extra j) tr) t)).
  { unfold due. apply in_flat_map. exists n. split; [apply in_seq; unfold t; lia|]. rewrite nth_error_map, Hn. cbn [option_map].
    unfold input_of. rewrite Hj. cbn [in_syn in_msgs].
    apply in_flat_map. exists x. split.
    - unfold spikes_of. apply in_flat_map. exists (SpikeMsg sender time idx). split; [|exact Hx].
      unfold heard in *. destruct (np_kind w); [apply filter_In; split; [exact Hin|exact Hsend]| |apply filter_In; split; [exact Hin|exact Hsend]].
      unfold effective in *. apply filter_In in Hin as [H1 H2]. apply filter_In. split; [|exact H2]. apply filter_In. split; assumption.
    - unfold impacts_with_delay. apply in_map_iff. exists (s, syn). cbn [fst snd]. split; [unfold imp; now rewrite Hfrom|].
      apply filter_In. cbn [snd]. split.
      + assert (forall b (l : list dsyn) s, nth_error l s = Some syn -> nth_error (combine (seq b (length l)) l) s = Some (b + s, syn)) as Hc.
        { clear. intros b l. revert b. induction l as [|y l IH]; intros b s Hs; [destruct s; discriminate|]. cbn [length seq combine].
          destruct s as [|s]; cbn [nth_error] in *; [injection Hs as ->; now rewrite Nat.add_0_r|].
          rewrite (IH (S b) s Hs). now replace (S b + s) with (b + S s) by lia. }
        unfold numbered. eapply nth_error_In. apply (Hc 0 _ s Hsyn).
      + rewrite Hfrom, N.eqb_refl, Hd. cbn [andb]. apply N.eqb_eq. unfold t. lia. }
  destruct o as [m|]; [|exfalso; rewrite (proj1 Hnone eq_refl) in Hdue; contradiction].
  destruct (Hsome m eq_refl) as (time' & imps & Em & Hperm & _).
  destruct (turn_at _ _ _ _ _ _ _ _ Hs Hf Hr (n + d) rd Hrd) as (ud & Hud).
  destruct (c84_dataflow _ _ _ _ _ _ _ _ Hs Hf Hr) as (_ & _ & F). destruct (F (n + d) rd ud Hrd Hud) as (_ & _ & Hus & Hpin & _).
  assert (exists a, nth_error (nr_pops rd) i = Some (u, a)) as (a & Hia).
  { rewrite <- Hus, nth_error_map in Ha. destruct (nth_error (nr_pops rd) i) as [[u' a]|] eqn:E; [|discriminate]. cbn [option_map fst] in Ha.
    injection Ha as <-. eauto. }
  exists (filter (to_population (map np_head projs) extra u) (sent_before (map nr_msgs tr) (n + d) ++ r_ext (nr_msgs rd))), time', imps.
  pose proof (f_equal ph_uid Eh) as X1. pose proof (f_equal ph_pre Eh) as X2. pose proof (f_equal ph_post Eh) as X3. pose proof (f_equal ph_forced Eh) as X4.
  cbn [np_head ph_uid ph_pre ph_post ph_forced] in X1, X2, X3, X4.
  split; [exact (Hpin i u a Hia)|]. split.
  - apply filter_In. split.
    + apply in_or_app. left. replace (n + d) with (S t) by (unfold t; lia). cbn [sent_before]. rewrite nth_error_map, Ht. cbn [option_map].
      eapply In_sent; [eapply nth_error_In; exact Ho|]. rewrite Em, X1, X2, X3, X4, Hpost. reflexivity.
    + cbn [to_population]. apply N.eqb_neq in Hu0. rewrite Hu0. cbn [negb andb].
      apply orb_true_iff. left. apply existsb_exists. exists (np_head w0). split; [apply in_map; eapply nth_error_In; eauto|].
      cbn [np_head ph_uid ph_post]. rewrite X1, X3, Hpost, !N.eqb_refl. reflexivity.
  - eapply Permutation_in; [apply Permutation_sym; exact Hperm|exact Hdue].
Qed.
Print Assumptions c84_latency.

(** *** C85 *)
(** Over a whole run, identifiers, ends, STDP populations, kind and the structure of
    the synapses (neurons, delay, type) of every projection stay as they were. *)
Theorem c85_structure pow2f expf extra pops projs turns k tr :
  sound_network pops projs -> Forall (fun u => forallb outside (tu_ops u) = true) turns ->
  net_run pow2f expf extra pops projs turns k tr ->
  map fixed (nb_projs k) = map fixed projs /\ map fst (nb_pops k) = map fst pops /\
  forall t r, nth_error tr t = Some r -> map fixed (nr_projs r) = map fixed projs /\
    map fixed (nr_trained r) = map fixed projs /\ map fixed (nr_projs' r) = map fixed projs.
Proof.
  intros Hs Hf Hr. destruct (net_run_facts _ _ _ _ _ _ _ _ Hs Hf Hr) as (_ & _ & _ & R). split; [apply (nrd_hs _ _ _ _ _ R)|].
  split; [apply (nrd_us _ _ _ _ _ R)|]. apply (fixed_column _ _ _ _ _ _ _ _ Hs Hf Hr).
Qed.
Print Assumptions c85_structure.
(** Which weights may change in a step: a delta projection never changes; training
    does not touch additive projections, nor resource projections that are locked or do
    not end in a population with resource STDP; the step of a resource projection
    changes nothing but the step of the last spike of a synapse. *)
Theorem c85_frame pow2f expf extra pops projs turns k tr t r j w :
  sound_network pops projs -> Forall (fun u => forallb outside (tu_ops u) = true) turns ->
  net_run pow2f expf extra pops projs turns k tr ->
  nth_error tr t = Some r -> nth_error (nr_projs r) j = Some w -> exists w1 w',
    nth_error (nr_trained r) j = Some w1 /\ nth_error (nr_projs' r) j = Some w' /\
    np_locked w1 = np_locked w /\ np_locked w' = np_locked w /\
    (is_resource w = false -> w1 = w) /\
    (np_locked w = true -> w1 = w) /\
    ((forall u a, In (u, a) (nr_pops r) -> stdp_pop a = true -> np_post w <> u) -> w1 = w) /\
    (forall p, np_kind w = NDelta p -> delta_synapses w' = delta_synapses w) /\
    (is_resource w = true -> map unstamped (resource_synapses w') = map unstamped (resource_synapses w1)).
Proof.
  intros Hs Hf Hr Ht Hw. destruct (turn_at _ _ _ _ _ _ _ _ Hs Hf Hr t r Ht) as (u & Hu).
  destruct (net_run_facts _ _ _ _ _ _ _ _ Hs Hf Hr) as (_ & F & _). destruct (F t r u Ht Hu) as (SF & _).
  destruct (F2_nth _ _ _ (sf_train _ _ _ _ _ _ _ _ SF) j w Hw) as (w1 & H1 & K & Hn).
  destruct (sf_projs _ _ _ _ _ _ _ _ SF j w1 H1) as (w' & o & _ & H2 & _ & H3). exists w1, w'.
  split; [exact H1|]. split; [exact H2|].
  assert (Hk1 : kind_ok (np_kind w1)).
  { pose proof (sf_ok1 _ _ _ _ _ _ _ _ SF) as Hok. rewrite Forall_forall in Hok. apply Hok. eapply nth_error_In; eauto. }
  destruct (nproj_step_spec expf (N.of_nat t mod two64) (nproj_box extra (r_ext (nr_msgs r)) (sent_msgs (r_pop_out (nr_msgs r))) w1) w1 Hk1)
    as (k' & q' & o' & dp & E & Hk' & Hst & _).
  rewrite H3 in E. injection E as -> ->. pose proof K as (_ & _ & _ & K4 & _ & K6).
  split; [exact K4|]. split; [exact K4|]. split; [|split; [|split; [|split]]].
  - intros Hnr. apply Hn. apply Forall_forall. intros v _. unfold working, is_resource in *. destruct (np_kind w); [reflexivity|reflexivity|discriminate].
  - intros Hl. apply Hn. apply Forall_forall. intros v _. unfold working. rewrite Hl. now destruct (np_kind w).
  - intros Hp. apply Hn. apply Forall_forall. intros v Hv. unfold stdp_uids in Hv. apply in_map_iff in Hv as ([v' a] & <- & Hin).
    apply filter_In in Hin as [Hin Ha]. cbn [fst snd] in *. unfold working. destruct (np_kind w); [reflexivity|reflexivity|].
    specialize (Hp v' a Hin Ha). destruct (N.eqb_spec (np_post w) v'); [contradiction|]. now rewrite andb_false_r.
  - intros p Hp. unfold delta_synapses. cbn [np_with np_kind]. rewrite Hp in *. destruct (np_kind w1); try contradiction. subst.
    destruct k'; cbn [stepped] in Hst; try contradiction. exact Hst.
  - intros _. unfold resource_synapses. cbn [np_with np_kind]. destruct (np_kind w1) as [| |l p1], k' as [| |l' p']; cbn [stepped] in Hst; try contradiction; try reflexivity.
    destruct Hst as [_ ->]. rewrite map_map. apply map_ext. intros s. unfold touched. now destruct (existsb _ _).
Qed.
Print Assumptions c85_frame.

(** *** C86 *)
(** Training is local: one function, the same for all networks, both kinds of
    neurons and all steps, gives what happens to a neuron and the synapses that lead
    to it from what they were, whether the neuron fired in this step, and the step.
    (C75 says what the function does.) *)
Theorem c86_locality pow2f : exists F : N -> bool -> tview -> list rparams -> tview * list rparams,
  forall expf extra pops projs turns k tr t r i u a,
  sound_network pops projs -> Forall (fun u => forallb outside (tu_ops u) = true) turns ->
  net_run pow2f expf extra pops projs turns k tr ->
  nth_error tr t = Some r -> nth_error (nr_pops r) i = Some (u, a) -> exists ms a' o,
    ms = filter (to_population (map np_head projs) extra u) (sent_before (map nr_msgs tr) t ++ r_ext (nr_msgs r)) /\
    nth_error (nr_pops' r) i = Some (u, a') /\ nth_error (r_pop_out (nr_msgs r)) i = Some o /\
    let local {A} (view : A -> tview) (write : A -> tview -> A) (fired : list N) (ns ns' : list A) :=
      length ns' = length ns /\
      (forall n x, nth_error ns n = Some x -> exists v, nth_error ns' n = Some (write x v) /\
         (v, incoming u (N.of_nat n) (nr_trained r)) =
           F (N.of_nat t mod two64)%N (existsb (N.eqb (N.of_nat n)) fired) (view x) (incoming u (N.of_nat n) (nr_projs r))) /\
      (forall n, (N.of_nat (length ns) <= n)%N -> incoming u n (nr_trained r) = incoming u n (nr_projs r)) in
    match a, a' with
    | NPlain x, NPlain x' => apop_step u (N.of_nat t mod two64) ms x = Ret (x', o)
    | NStdpBlifat l, NStdpBlifat l' => exists ns fired,
        stdp_front (s_pre (bl_prestep true)) (s_impact bl_impact) (s_post bl_post) ms l = Ret (ns, fired) /\
        o = spike_message u (N.of_nat t mod two64) fired /\ local bl_view bl_write fired ns l'
    | NStdpAltai l, NStdpAltai l' => exists ns fired,
        stdp_front (s_pre (al_prestep true)) (s_impact al_impact) (s_post al_post) ms l = Ret (ns, fired) /\
        o = spike_message u (N.of_nat t mod two64) fired /\ local al_view al_write fired ns l'
    | _, _ => False
    end.
Proof.
  exists (train_n pow2f). intros expf extra pops projs turns k tr t r i u a Hs Hf Hr Ht Hi.
  destruct (turn_at _ _ _ _ _ _ _ _ Hs Hf Hr t r Ht) as (tu & Hu). destruct (net_run_facts _ _ _ _ _ _ _ _ Hs Hf Hr) as (_ & F & _).
  destruct (F t r tu Ht Hu) as (SF & _). destruct (sf_pops _ _ _ _ _ _ _ _ SF i u a Hi) as (a' & o & _ & H2 & H3 & H4).
  eexists _, a', o. split; [reflexivity|]. split; [exact H2|]. split; [exact H3|].
  destruct a as [x|l|l], a' as [x'|l'|l']; cbn [pop_result] in H4; try contradiction; [exact H4| |]; exact H4.
Qed.
Print Assumptions c86_locality.

(** *** C89 *)
(** The weight of every resource synapse follows its synaptic resource: if it does at
    the start, it does after every step. *)
Lemma incoming_working u w s projs : In w projs -> is_resource w = true -> np_locked w = false -> np_post w = u -> In s (resource_synapses w) ->
  In (sy_params s) (incoming u (sy_to s) projs).
Proof.
  intros H1 H2 H3 H4 H5. unfold incoming. apply in_flat_map. exists w. split; [exact H1|]. rewrite H2, H3, H4, N.eqb_refl. cbn [negb andb].
  apply in_map, filter_In. split; [exact H5|apply N.eqb_refl].
Qed.
Lemma incoming_inv u n q projs : In q (incoming u n projs) -> exists w s, In w projs /\ In s (resource_synapses w) /\ sy_params s = q.
Proof.
  unfold incoming. intros H. apply in_flat_map in H as (w & Hw & H). destruct (_ && _); [|contradiction].
  apply in_map_iff in H as (s & E & H). apply filter_In in H as [H _]. eauto.
Qed.
Section Consistent.
Variables (pow2f expf : flt -> flt) (extra : list subscr) (pops : list (uid * npop)) (projs : list nproj) (turns : list turn)
  (k : nbackend) (tr : list nrecord).
Hypothesis Hs : sound_network pops projs.
Hypothesis Hf : Forall (fun u => forallb outside (tu_ops u) = true) turns.
Hypothesis Hr : net_run pow2f expf extra pops projs turns k tr.
Definition all_consistent (l : list nproj) : Prop := forall w s, In w l -> In s (resource_synapses w) -> consistent (sy_params s).
Lemma trained_incoming t r u a n : nth_error tr t = Some r -> In (u, a) (nr_pops r) -> stdp_pop a = true ->
  incoming u n (nr_trained r) = incoming u n (nr_projs r) \/
  exists b v, incoming u n (nr_trained r) = snd (train_n pow2f (N.of_nat t mod two64) b v (incoming u n (nr_projs r))).
Proof.
  intros Ht Hin Ha. destruct (turn_at _ _ _ _ _ _ _ _ Hs Hf Hr t r Ht) as (tu & Hu). destruct (net_run_facts _ _ _ _ _ _ _ _ Hs Hf Hr) as (_ & F & _).
  destruct (F t r tu Ht Hu) as (SF & _). apply In_nth_error in Hin as (i & Hi).
  destruct (sf_pops _ _ _ _ _ _ _ _ SF i u a Hi) as (a' & o & _ & _ & _ & H4).
  assert (Hg : forall A (view : A -> tview) write spikes ns ns', neurons_result pow2f view write u (N.of_nat t mod two64) spikes (nr_projs r) (nr_trained r) ns ns' ->
     incoming u n (nr_trained r) = incoming u n (nr_projs r) \/
     exists b v, incoming u n (nr_trained r) = snd (train_n pow2f (N.of_nat t mod two64) b v (incoming u n (nr_projs r)))).
  { intros A view write spikes ns ns' (L & H1 & H2). destruct (N.ltb_spec n (N.of_nat (length ns))) as [Hn|Hn]; [|left; auto].
    destruct (nth_error ns (N.to_nat n)) as [x|] eqn:Ex; [|apply nth_error_None in Ex; lia].
    destruct (H1 _ _ Ex) as (v & _ & E). rewrite N2Nat.id in E. right. do 2 eexists. apply (f_equal snd) in E. exact E. }
  destruct a as [x|l|l]; [discriminate| |]; destruct a' as [x'|l'|l']; cbn [pop_result] in H4; try contradiction;
    destruct H4 as (ns & spikes & _ & _ & H4); eauto.
Qed.
Lemma consistent_trained t r : nth_error tr t = Some r -> all_consistent (nr_projs r) -> all_consistent (nr_trained r).
Proof.
  intros Ht Hc w1 s Hw Hin. destruct (turn_at _ _ _ _ _ _ _ _ Hs Hf Hr t r Ht) as (tu & Hu). destruct (net_run_facts _ _ _ _ _ _ _ _ Hs Hf Hr) as (_ & F & _).
  destruct (F t r tu Ht Hu) as (SF & _). apply In_nth_error in Hw as (j & Hj).
  pose proof (sf_train _ _ _ _ _ _ _ _ SF) as T.
  assert (exists w, nth_error (nr_projs r) j = Some w /\ projs_result (stdp_uids (nr_pops r)) w w1) as (w & Hw & K & Hn).
  { clear -T Hj. revert j Hj. induction T as [|a b l l' H _ IH]; intros j Hj; destruct j; cbn [nth_error] in *; try discriminate; [|eauto].
    injection Hj as <-. eauto. }
  destruct (existsb (fun e => match working (fst e) w with Some _ => stdp_pop (snd e) | None => false end) (nr_pops r)) eqn:Ex.
  - apply existsb_exists in Ex as ([u a] & Hin' & Hx). cbn [fst snd] in Hx. destruct (working u w) as [p|] eqn:Ew; [|discriminate].
    pose proof K as (_ & _ & K3 & K4 & _ & K6).
    unfold working in Ew. destruct (np_kind w) as [| |l0 p0] eqn:Ek; try discriminate.
    destruct (np_kind w1) as [| |l1 p1] eqn:Ek1; try contradiction.
    destruct (np_locked w) eqn:El; cbn [negb andb] in Ew; [discriminate|]. destruct (N.eqb_spec (np_post w) u) as [Hp|]; [|discriminate].
    assert (Hi : In (sy_params s) (incoming u (sy_to s) (nr_trained r))).
    { apply (incoming_working u w1); auto; [eapply nth_error_In; eauto|unfold is_resource; now rewrite Ek1|congruence]. }
    assert (Hall : Forall consistent (incoming u (sy_to s) (nr_projs r))).
    { apply Forall_forall. intros q Hq. apply incoming_inv in Hq as (v & s0 & H1 & H2 & <-). eapply Hc; eauto. }
    destruct (trained_incoming t r u a (sy_to s) Ht Hin' Hx) as [E|(b & v & E)]; rewrite E in Hi.
    + rewrite Forall_forall in Hall. auto.
    + pose proof (train_consistent pow2f (N.of_nat t mod two64) b v _ (or_intror Hall)) as H. rewrite Forall_forall in H. auto.
  - assert (w1 = w) as ->; [|apply (Hc w); auto; eapply nth_error_In; eauto].
    apply Hn. apply Forall_forall. intros u Hu'. unfold stdp_uids in Hu'. apply in_map_iff in Hu' as ([u' a] & <- & Hin').
    apply filter_In in Hin' as [Hin' Ha]. cbn [fst snd] in *. destruct (working u' w) eqn:Ew; [|reflexivity]. exfalso.
    assert (existsb (fun e => match working (fst e) w with Some _ => stdp_pop (snd e) | None => false end) (nr_pops r) = true) as Hx; [|congruence].
    apply existsb_exists. exists (u', a). cbn [fst snd]. rewrite Ew. auto.
Qed.
Lemma learn_consistent bs l : all_consistent l -> all_consistent (learn_all bs l).
Proof.
  intros H w s Hw Hin. rewrite learn_all_map in Hw. apply in_map_iff in Hw as (w0 & <- & Hw). apply (H w0 s Hw).
  fold (relock bs w0) in Hin. unfold resource_synapses in *. now rewrite (proj1 (relock_same bs w0)) in Hin.
Qed.
Lemma stepped_consistent t r : nth_error tr t = Some r -> all_consistent (nr_trained r) -> all_consistent (nr_projs' r).
Proof.
  intros Ht Hc w' s Hw Hin. destruct (turn_at _ _ _ _ _ _ _ _ Hs Hf Hr t r Ht) as (tu & Hu). destruct (net_run_facts _ _ _ _ _ _ _ _ Hs Hf Hr) as (_ & F & _).
  destruct (F t r tu Ht Hu) as (SF & _). apply In_nth_error in Hw as (j & Hj).
  destruct (nth_error (nr_trained r) j) as [w1|] eqn:E1.
  2:{ exfalso. apply nth_error_None in E1. assert (nth_error (nr_projs' r) j <> None) as Hx by congruence. apply nth_error_Some in Hx.
      pose proof (f_equal (@length _) (sf_hs1 _ _ _ _ _ _ _ _ SF)) as L1. pose proof (f_equal (@length _) (sf_hs' _ _ _ _ _ _ _ _ SF)) as L2.
      rewrite !map_length in *. lia. }
  destruct (sf_projs _ _ _ _ _ _ _ _ SF j w1 E1) as (w2 & o & _ & H2 & _ & H3). rewrite Hj in H2. injection H2 as <-.
  assert (Hk1 : kind_ok (np_kind w1)).
  { pose proof (sf_ok1 _ _ _ _ _ _ _ _ SF) as Hok. rewrite Forall_forall in Hok. apply Hok. eapply nth_error_In; eauto. }
  destruct (nproj_step_spec expf (N.of_nat t mod two64) (nproj_box extra (r_ext (nr_msgs r)) (sent_msgs (r_pop_out (nr_msgs r))) w1) w1 Hk1)
    as (k' & q' & o' & dp & E & Hk' & Hst & _).
  rewrite H3 in E. injection E as -> ->. unfold resource_synapses in Hin. cbn [np_with np_kind] in Hin.
  destruct (np_kind w1) as [| |l p1] eqn:Ek, k' as [| |l' p']; cbn [stepped] in Hst; try contradiction.
  destruct Hst as [_ Hst]. rewrite Hst in Hin. apply in_map_iff in Hin as (s0 & <- & Hin).
  assert (consistent (sy_params s0)) as H0.
  { apply (Hc w1); [eapply nth_error_In; eauto|]. unfold resource_synapses. now rewrite Ek. }
  unfold touched. destruct (existsb _ _); exact H0.
Qed.
Lemma consistent_after : all_consistent projs -> forall t, t <= length tr -> all_consistent (snd (after tr pops projs t)).
Proof.
  intros H0. induction t as [|t IH]; intros Ht; [exact H0|]. destruct (nth_error tr t) as [r|] eqn:Er; [|apply nth_error_None in Er; lia].
  rewrite (after_S pops projs tr t r Er). cbn [snd]. apply (stepped_consistent t r Er), (consistent_trained t r Er).
  destruct (turn_at _ _ _ _ _ _ _ _ Hs Hf Hr t r Er) as (tu & Hu). destruct (net_run_facts _ _ _ _ _ _ _ _ Hs Hf Hr) as (_ & F & _).
  destruct (F t r tu Er Hu) as (_ & _ & ->). apply learn_consistent, IH. lia.
Qed.
End Consistent.
Theorem c89_weights_follow_resource pow2f expf extra pops projs turns k tr :
  sound_network pops projs -> Forall (fun u => forallb outside (tu_ops u) = true) turns ->
  net_run pow2f expf extra pops projs turns k tr ->
  (forall w s, In w projs -> In s (resource_synapses w) -> consistent (sy_params s)) ->
  (forall t w s, t <= length tr -> In w (snd (after tr pops projs t)) -> In s (resource_synapses w) -> consistent (sy_params s)) /\
  (forall w s, In w (nb_projs k) -> In s (resource_synapses w) -> consistent (sy_params s)).
Proof.
  intros Hs Hf Hr H0. pose proof (consistent_after _ _ _ _ _ _ _ _ Hs Hf Hr H0) as H. split; [intros t w s Ht; now apply H|].
  intros w s. destruct (net_run_facts _ _ _ _ _ _ _ _ Hs Hf Hr) as (_ & _ & E & _). apply (f_equal snd) in E. cbn [snd] in E. rewrite E.
  now apply H.
Qed.
Print Assumptions c89_weights_follow_resource.
(** And whatever it was before, the weight of every synapse that can learn follows its
    resource after the target neuron fired. *)
Theorem c89_after_a_spike pow2f expf extra pops projs turns k tr t r i u a time fired n :
  sound_network pops projs -> Forall (fun u => forallb outside (tu_ops u) = true) turns ->
  net_run pow2f expf extra pops projs turns k tr ->
  nth_error tr t = Some r -> nth_error (nr_pops r) i = Some (u, a) -> stdp_pop a = true ->
  nth_error (r_pop_out (nr_msgs r)) i = Some (Some (SpikeMsg u time fired)) -> In n fired ->
  Forall consistent (incoming u n (nr_trained r)).
Proof.
  intros Hs Hf Hr Ht Hi Ha Ho Hn. destruct (turn_at _ _ _ _ _ _ _ _ Hs Hf Hr t r Ht) as (tu & Hu). destruct (net_run_facts _ _ _ _ _ _ _ _ Hs Hf Hr) as (_ & F & _).
  destruct (F t r tu Ht Hu) as (SF & _). destruct (sf_pops _ _ _ _ _ _ _ _ SF i u a Hi) as (a' & o & _ & _ & H3 & H4).
  rewrite Ho in H3. injection H3 as <-.
  assert (Hg : forall A (view : A -> tview) write ns ns', (n < N.of_nat (length ns))%N -> neurons_result pow2f view write u (N.of_nat t mod two64) fired (nr_projs r) (nr_trained r) ns ns' ->
     Forall consistent (incoming u n (nr_trained r))).
  { intros A view write ns ns' Hlt (L & H1 & _). destruct (nth_error ns (N.to_nat n)) as [x|] eqn:Ex; [|apply nth_error_None in Ex; lia].
    destruct (H1 _ _ Ex) as (v & _ & E). rewrite N2Nat.id in E. apply (f_equal snd) in E. cbn [snd] in E. rewrite E. apply train_consistent. left.
    apply existsb_exists. exists n. split; [exact Hn|apply N.eqb_refl]. }
  assert (Hsz : (N.of_nat (size a) <= two32)%N).
  { assert (forall t, t <= length tr -> Forall (fun e => (N.of_nat (size (snd e)) <= two32)%N) (fst (after tr pops projs t))) as Hx.
    { clear -Hs Hf Hr. induction t as [|t IH]; intros Ht; [apply (sn_sizes _ _ Hs)|]. destruct (nth_error tr t) as [r|] eqn:Er; [|apply nth_error_None in Er; lia].
      rewrite (after_S pops projs tr t r Er). cbn [fst]. destruct (turn_at _ _ _ _ _ _ _ _ Hs Hf Hr t r Er) as (tu & Hu).
      destruct (net_run_facts _ _ _ _ _ _ _ _ Hs Hf Hr) as (_ & F & _). destruct (F t r tu Er Hu) as (SF & Ep & _).
      apply Forall_forall. intros [u a'] Hin. apply In_nth_error in Hin as (i & Hi). cbn [snd].
      assert (exists u0 a, nth_error (nr_pops r) i = Some (u0, a)) as (u0 & a & Ha).
      { destruct (nth_error (nr_pops r) i) as [[u0 a]|] eqn:E; [eauto|]. apply nth_error_None in E.
        assert (nth_error (nr_pops' r) i <> None) as Hx by congruence. apply nth_error_Some in Hx.
        pose proof (f_equal (@length _) (sf_us _ _ _ _ _ _ _ _ SF)) as L1. pose proof (f_equal (@length _) (sf_us' _ _ _ _ _ _ _ _ SF)) as L2.
        rewrite !map_length in *. lia. }
      destruct (sf_pops _ _ _ _ _ _ _ _ SF i u0 a Ha) as (a1 & o & _ & H2 & _ & H4). rewrite Hi in H2. injection H2 as -> <-.
      assert (Hs0 : (N.of_nat (size a) <= two32)%N).
      { rewrite Ep in Ha. specialize (IH ltac:(lia)). rewrite Forall_forall in IH. apply (IH (u0, a)). eapply nth_error_In; eauto. }
      destruct a as [x|l|l], a' as [x'|l'|l']; cbn [pop_result] in H4; try contradiction.
      - now rewrite (apop_step_size _ _ _ _ _ _ H4).
      - destruct H4 as (ns & sp & E & _ & L & _). cbn [size] in *. destruct (stdp_front_spec _ _ _ _ _ _ _ E Hs0) as (L' & _). rewrite L, L'. exact Hs0.
      - destruct H4 as (ns & sp & E & _ & L & _). cbn [size] in *. destruct (stdp_front_spec _ _ _ _ _ _ _ E Hs0) as (L' & _). rewrite L, L'. exact Hs0. }
    destruct (F t r tu Ht Hu) as (_ & Ep & _). rewrite Ep in Hi. assert (Hlt : t < length tr) by (apply nth_error_Some; congruence).
    specialize (Hx t ltac:(lia)). rewrite Forall_forall in Hx. apply (Hx (u, a)). eapply nth_error_In; eauto. }
  destruct a as [x|l|l]; [discriminate| |]; destruct a' as [x'|l'|l']; cbn [pop_result] in H4; try contradiction;
    destruct H4 as (ns & spikes & E & Em & H4); cbn [size] in Hsz; destruct (stdp_front_spec _ _ _ _ _ _ _ E Hsz) as (L' & _ & Hr').
  all: destruct spikes as [|s0 sp]; cbn [spike_message] in Em; [discriminate|]; injection Em as _ Em; subst fired;
    (eapply Hg; [|exact H4]); rewrite Forall_forall in Hr'; now apply Hr'.
Qed.
Print Assumptions c89_after_a_spike.
