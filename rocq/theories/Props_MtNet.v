(** Property theorem C90: whole networks with training on the multi-threaded backend. *)
From Verif Require Import Base ListLemmas Messaging_Model Messaging_Spec Projection_Model Projection_Spec Projection_Proofs
  Delta_Model Delta_Spec Delta_Proofs Neuron_Model Pipeline_Model Pipeline_Spec Pipeline_Proofs Pipeline_Proofs2
  Stdp_Model Additive_Model Train_Model Train_Proofs Net_Model Net_Spec Net_Proofs Net_Proofs2 Net_Proofs3 Net_Proofs4 Net_Proofs5
  Props_Net Props_Net2 Props_Sched Mt_Model Mt_Spec Mt_Proofs Mt_Proofs2 Sched_Model Sched_Proofs MtNet_Model MtNet_Spec MtNet_Proofs MtNet_Proofs2 MtNet_Proofs3.

(** *** C90 *)
(** Who receives what and when, with training and with [start_learning] and
    [stop_learning] between the steps: as in C70. *)
Theorem c90_dataflow pow2f extra pops projs pp pj turns k tr :
  sound_network pops projs -> Forall loadable projs -> (0 < pp < two64)%N ->
  Forall (fun c => forallb outside (tu_ops (fst c)) = true /\ nsched_ok pp pj pops projs (snd c)) turns ->
  mt_net_run pow2f extra pops projs turns k tr ->
  length tr = length turns /\
  forall t r, nth_error tr t = Some r ->
    (forall i u a, nth_error pops i = Some (u, a) ->
       nth_error (r_pop_in (nr_msgs r)) i = Some (filter (to_population (map np_head projs) extra u) (late (map nr_msgs tr) t))) /\
    (forall j w, nth_error projs j = Some w ->
       nth_error (r_proj_in (nr_msgs r)) j = Some (filter (to_nproj extra w) (sent_msgs (r_pop_out (nr_msgs r)) ++ r_ext (nr_msgs r)))).
Proof.
  intros Hs Hl Hpp Hf Hr. destruct (mt_net_run_facts _ _ _ _ _ _ _ _ _ Hs Hl Hpp Hf Hr) as (L & _). split; [exact L|].
  intros t r Ht. destruct (mt_turn_at _ _ _ _ _ _ _ _ _ Hs Hl Hpp Hf Hr t r Ht) as (c & _ & _ & MF & _). split.
  - intros i u a Hi. rewrite (mf_pin _ _ _ _ _ _ _ _ _ MF), nth_error_map.
    pose proof (mf_us _ _ _ _ _ _ _ _ _ MF) as Hu. apply (f_equal (fun l => nth_error l i)) in Hu. rewrite !nth_error_map, Hi in Hu.
    destruct (nth_error (nr_pops r) i) as [[u' a']|]; cbn [option_map fst] in *; [|discriminate]. injection Hu as ->. reflexivity.
  - intros j w Hj. rewrite (mf_jin _ _ _ _ _ _ _ _ _ MF), nth_error_map.
    destruct (mt_col_at _ _ _ _ _ _ _ _ _ Hs Hl Hpp Hf Hr j w t r Hj Ht) as (_ & w1 & _ & _ & _ & _ & _ & E & _ & _ & _ & Bf & _).
    rewrite E. cbn [option_map]. unfold spikes_for. f_equal. apply filter_ext. intros m. apply fixed_to. now symmetry.
Qed.
Print Assumptions c90_dataflow.

(** What the populations do in a step, whatever the schedule: the states, the trained
    synapses and, up to the order of the neurons inside a message, the spikes are those
    of the populations taken one after the other, each trained before the next begins
    (what the single-threaded backend does with the same messages). *)
Theorem c90_populations pow2f extra pops projs pp pj turns k tr :
  sound_network pops projs -> Forall loadable projs -> (0 < pp < two64)%N ->
  Forall (fun c => forallb outside (tu_ops (fst c)) = true /\ nsched_ok pp pj pops projs (snd c)) turns ->
  mt_net_run pow2f extra pops projs turns k tr ->
  (nb_pops k, nb_projs k) = after tr pops projs (length tr) /\
  forall t r c, nth_error tr t = Some r -> nth_error turns t = Some c ->
    nr_pops r = fst (after tr pops projs t) /\ nr_projs r = learn_all (tu_learn (fst c)) (snd (after tr pops projs t)) /\
    exists projs1 outs, in_turn pow2f (N.of_nat t mod two64) (r_pop_in (nr_msgs r)) (nr_pops r) (nr_projs r) = Ret (nr_pops' r, projs1, outs) /\
      map forget projs1 = map forget (nr_trained r) /\ Forall2 same_spikes outs (r_pop_out (nr_msgs r)).
Proof.
  intros Hs Hl Hpp Hf Hr. destruct (mt_net_run_facts _ _ _ _ _ _ _ _ _ Hs Hl Hpp Hf Hr) as (L & F & E & _). split; [exact E|].
  intros t r c Ht Hc. destruct (F t r c Ht Hc) as (MF & H1 & H2). split; [exact H1|]. split; [exact H2|]. apply (mf_turn _ _ _ _ _ _ _ _ _ MF).
Qed.
Print Assumptions c90_populations.

Lemma same_spikes_sym a b : same_spikes a b -> same_spikes b a.
Proof. destruct a as [[]|], b as [[]|]; cbn; try tauto. intros (-> & -> & H). auto using Permutation_sym. Qed.
Lemma same_spikes_trans a b c : same_spikes a b -> same_spikes b c -> same_spikes a c.
Proof.
  destruct a as [[]|], b as [[]|], c as [[]|]; cbn; try tauto. intros (-> & -> & H) (-> & -> & H'). split; [reflexivity|]. split; [reflexivity|].
  eapply Permutation_trans; eauto.
Qed.
Lemma same_spikes_via l l1 l2 : Forall2 same_spikes l l1 -> Forall2 same_spikes l l2 -> Forall2 same_spikes l1 l2.
Proof.
  intros H. revert l2. induction H as [|a b t t' H _ IH]; intros l2 H2; inversion H2; subst; constructor; [|auto].
  eapply same_spikes_trans; [apply same_spikes_sym|]; eauto.
Qed.
(** The next step under two schedules, from any reachable state: both fail, in the same
    way, or both end with the same populations, the same trained synapses and the same
    spikes. *)
Theorem c90_schedules pow2f extra pops projs pp pj turns k tr u s s' :
  sound_network pops projs -> Forall loadable projs -> (0 < pp < two64)%N ->
  Forall (fun c => forallb outside (tu_ops (fst c)) = true /\ nsched_ok pp pj pops projs (snd c)) turns ->
  mt_net_run pow2f extra pops projs turns k tr ->
  forallb outside (tu_ops u) = true -> nsched_ok pp pj pops projs s -> nsched_ok pp pj pops projs s' ->
  match mt_nbackend_run pow2f [(u, s)] k, mt_nbackend_run pow2f [(u, s')] k with
  | Ret (_, [r]), Ret (_, [r']) => nr_pops' r = nr_pops' r' /\ map forget (nr_trained r) = map forget (nr_trained r') /\
      Forall2 same_spikes (r_pop_out (nr_msgs r)) (r_pop_out (nr_msgs r'))
  | Throw, Throw | UB, UB => True
  | _, _ => False
  end.
Proof.
  intros Hs Hl Hpp Hf Hr Ho S1 S2. destruct (mt_net_run_facts _ _ _ _ _ _ _ _ _ Hs Hl Hpp Hf Hr) as (L & F & E & R).
  cbn [mt_nbackend_run]. destruct (run (nb_bus k) (tu_ops u)) as [[b trb]| |] eqn:Er; cbn [obind fst snd]; auto.
  set (k1 := mkNB b (nb_pops k) (learn_all (tu_learn u) (nb_projs k)) (nb_step k)) in *.
  assert (R1 : mt_ready extra projs (map fst pops) pops (late (map nr_msgs tr) (length tr)) k1).
  { destruct R as (R & FF & Hll & Hz). destruct R as [G Ho' Hus Hsz Hhs Hok W0 W1]. destruct (outside_run _ (tu_ops u) (nb_bus k) b trb G Ho Er) as (G' & W & S').
    split; [|split; [|split]]; cbn [k1 nb_bus nb_pops nb_projs]; [split; cbn [k1 nb_bus nb_pops nb_projs]; auto; try congruence| | |exact Hz].
    - now rewrite learn_all_fixed.
    - now apply learn_all_ok.
    - intros w Hw. rewrite W. auto.
    - intros v Hv. rewrite W. auto.
    - exact (outside_run_front _ _ _ _ (g_ids _ _ G) FF Ho Er).
    - now apply learn_all_loadable. }
  change (pending b) with (pending (nb_bus k1)).
  pose proof (mt_nstep_eq pow2f extra projs (map fst pops) pops pp pj (sn_projs _ _ Hs) (sn_pops _ _ Hs) Hpp s _ k1 R1 S1) as X1.
  pose proof (mt_nstep_eq pow2f extra projs (map fst pops) pops pp pj (sn_projs _ _ Hs) (sn_pops _ _ Hs) Hpp s' _ k1 R1 S2) as X2.
  destruct (in_turn _ _ _ _ _) as [y| |] eqn:Ey; [|rewrite X1, X2; exact I|rewrite X1, X2; exact I].
  destruct X1 as (k2 & r & E1 & M1 & _ & _ & Q1 & Q2 & _). destruct X2 as (k2' & r' & E2 & M2 & _ & _ & Q3 & Q4 & _).
  rewrite E1, E2. cbn [obind fst snd].
  destruct (mf_turn _ _ _ _ _ _ _ _ _ M1) as (P1 & o1 & T1 & T2 & T3). destruct (mf_turn _ _ _ _ _ _ _ _ _ M2) as (P2 & o2 & U1 & U2 & U3).
  assert (Hin : r_pop_in (nr_msgs r) = r_pop_in (nr_msgs r')) by (rewrite (mf_pin _ _ _ _ _ _ _ _ _ M1), (mf_pin _ _ _ _ _ _ _ _ _ M2); congruence).
  rewrite Hin, Q1, Q2 in T1. rewrite Q3, Q4 in U1. rewrite T1 in U1.
  assert (Hx : (nr_pops' r, P1, o1) = (nr_pops' r', P2, o2)) by (injection U1 as -> -> ->; reflexivity).
  pose proof (f_equal (fun x => fst (fst x)) Hx) as H1. pose proof (f_equal (fun x => snd (fst x)) Hx) as H2. pose proof (f_equal snd Hx) as H3. cbn [fst snd] in *.
  split; [exact H1|]. split; [congruence|]. rewrite <- H3 in U3. eapply same_spikes_via; eauto.
Qed.
Print Assumptions c90_schedules.

(** What a step does to a projection after the training: the synapses keep their ends
    and weights, the lock stays, and of the resource-STDP synapses exactly those whose
    presynaptic neuron is in the first spike message get the number of the step (the
    single-threaded backend considers every message; C29). *)
Theorem c90_synapses pow2f extra pops projs pp pj turns k tr :
  sound_network pops projs -> Forall loadable projs -> (0 < pp < two64)%N -> (0 < pj < two64)%N ->
  Forall (fun c => forallb outside (tu_ops (fst c)) = true /\ nsched_ok pp pj pops projs (snd c)) turns ->
  mt_net_run pow2f extra pops projs turns k tr ->
  forall t r j w0, nth_error tr t = Some r -> nth_error projs j = Some w0 -> (N.of_nat (length (delta_synapses w0)) <= 2 ^ 63)%N ->
  exists w w', nth_error (nr_trained r) j = Some w /\ nth_error (nr_projs' r) j = Some w' /\
    delta_synapses w' = delta_synapses w /\ np_locked w' = np_locked w /\ fixed w' = fixed w0 /\
    resource_synapses w' = map (marked (N.of_nat t mod two64) (spikes_of (firstn 1 (spikes_for extra r w0)))) (resource_synapses w).
Proof.
  intros Hs Hl Hpp Hpj Hf Hr t r j w0 Ht Hj Hsz.
  destruct (mt_col_at _ _ _ _ _ _ _ _ _ Hs Hl Hpp Hf Hr j w0 t r Hj Ht) as (c & w & w' & o & ord & _ & (_ & _ & Hsc) & B1 & B2 & _ & B4 & Bf & _ & B5 & B6 & B7 & _).
  destruct (mt_nproj_spec (N.of_nat t mod two64) (spikes_for extra r w) ord w B5 B6) as (w2 & m & E & _ & _ & _ & D0 & D1 & D2 & _ & _ & D3).
  rewrite B7 in E. injection E as <- <-. exists w, w'. split; [exact B1|]. split; [exact B2|]. split; [exact D1|]. split; [exact D2|]. split; [congruence|].
  destruct (F2_nth _ _ _ Hsc j w0 Hj) as (ord' & B4' & Hany). rewrite B4 in B4'. injection B4' as <-.
  assert (El : length (delta_synapses w) = length (delta_synapses w0)).
  { destruct (fixed_ends _ _ Bf) as [X _]. apply (f_equal (@length _)) in X. unfold ends_of in X. now rewrite !map_length in X. }
  rewrite (D3 pj Hpj); [|now rewrite El|now rewrite El]. unfold spikes_for. do 4 f_equal. apply filter_ext. intros x. now apply fixed_to.
Qed.
Print Assumptions c90_synapses.

(** What a projection sends: in every step, up to the order of the impacts inside a
    message and the two population identifiers of it, what its single-threaded
    calculation over the first message of every step and the synapses as they were
    trained at that step sends, if no message from outside repeats a neuron.  Training
    never produces a weight that is not a [float], so this needs no condition on the
    trained weights. *)
Theorem c90_outputs pow2f extra pops projs pp pj turns k tr :
  sound_network pops projs -> Forall loadable projs -> (0 < pp < two64)%N -> (0 < pj < two64)%N ->
  Forall (fun c => forallb outside (tu_ops (fst c)) = true /\ nsched_ok pp pj pops projs (snd c)) turns ->
  mt_net_run pow2f extra pops projs turns k tr ->
  Forall numeric projs -> (N.of_nat (length tr) < two64)%N -> (forall r, In r tr -> Forall distinct_spikes (r_ext (nr_msgs r))) ->
  forall j w0, nth_error projs j = Some w0 -> np_queue w0 = [] -> (N.of_nat (length (delta_synapses w0)) <= 2 ^ 63)%N ->
  exists outs outs0, column j r_proj_out (map nr_msgs tr) = map Some outs /\
    run_projection (np_head w0) 0 (map (first_input extra j) tr) (mkProj (delta_synapses w0) [] false) [] = Ret outs0 /\ Forall2 same_output outs0 outs.
Proof.
  intros Hs Hl Hpp Hpj Hf Hr Hn Hlen Hd j w0 Hj Hq Hsz. unfold column. rewrite map_map.
  exact (mt_outputs _ _ _ _ _ _ _ _ _ Hs Hl Hpp Hf Hr j w0 Hj Hq Hpj Hn Hsz Hlen Hd).
Qed.
Print Assumptions c90_outputs.

(** The network of Props_Sched (two populations of two neurons with resource STDP fed by
    input channel 9), part size 1, every order reversed: at step 1 all four neurons fire
    and are trained, the messages list the neurons backwards, and at the end of step 0
    synapse 0 of both projections (from channel neuron 0) got its number, the weights
    changed at step 1. *)
Definition rv : list (nat * nat) := [(1, 2); (0, 1)]%nat.
Definition ex_sched : nsched := mkNSched [(rv, rv); (rv, rv)] [1; 0]%nat [rv; rv].
Definition mx_turns : list (turn * nsched) := map (fun u => (u, ex_sched)) sc_turns.
Lemma rv_ok : any_order 1 2 rv.
Proof. exists [(0, 1); (1, 2)]%N, 3. split; [reflexivity|]. apply perm_swap. Qed.
Lemma ex_sched_ok : nsched_ok 1 1 Props_Sched.sc_pops Props_Sched.sc_projs ex_sched.
Proof.
  split; [|split].
  - repeat constructor; exact rv_ok.
  - apply perm_swap.
  - repeat constructor; exact rv_ok.
Qed.
Definition mx_run := obind (nbackend_init sc_extra Props_Sched.sc_pops Props_Sched.sc_projs) (mt_nbackend_run one1 mx_turns).
Definition mx_view (o : outcome (nbackend * list nrecord)) := match o with
  | Ret (k, tr) => match nth_error tr 1 with
    | Some r => Some (r_pop_out (nr_msgs r), list_eqb (list_eqb f_same) (weights (nr_trained r)) (weights (nr_projs r)))
    | None => None end
  | _ => None end.
Lemma mx_view_inv o x : mx_view o = Some (x, false) -> exists k tr r, o = Ret (k, tr) /\ nth_error tr 1 = Some r /\
    r_pop_out (nr_msgs r) = x /\ weights (nr_trained r) <> weights (nr_projs r).
Proof.
  intros H. destruct o as [[k tr]| |]; cbn [mx_view] in H; try discriminate H.
  destruct (nth_error tr 1) as [r|] eqn:Er; [|discriminate H]. exists k, tr, r. injection H as H1 H3.
  split; [reflexivity|]. split; [exact Er|]. split; [exact H1|]. intros Hx. rewrite Hx, weights_same in H3. discriminate.
Qed.
Lemma mx_view_is : mx_view mx_run = Some ([Some (SpikeMsg 1 1 [1; 0]%N); Some (SpikeMsg 2 1 [1; 0]%N)], false).
Proof. vm_compute. reflexivity. Qed.
Lemma mx_net k tr : mx_run = Ret (k, tr) -> mt_net_run one1 sc_extra Props_Sched.sc_pops Props_Sched.sc_projs mx_turns k tr.
Proof. unfold mx_run, mt_net_run. intros H. destruct (nbackend_init _ _ _) as [k0| |] eqn:E; cbn [obind] in H; try discriminate. eauto. Qed.
Example c90_case : exists k tr r,
  sound_network Props_Sched.sc_pops Props_Sched.sc_projs /\ Forall loadable Props_Sched.sc_projs /\ Forall numeric Props_Sched.sc_projs /\
  Forall (fun c => forallb outside (tu_ops (fst c)) = true /\ nsched_ok 1 1 Props_Sched.sc_pops Props_Sched.sc_projs (snd c)) mx_turns /\
  mt_net_run one1 sc_extra Props_Sched.sc_pops Props_Sched.sc_projs mx_turns k tr /\ nth_error tr 1 = Some r /\
  r_pop_out (nr_msgs r) = [Some (SpikeMsg 1 1 [1; 0]%N); Some (SpikeMsg 2 1 [1; 0]%N)] /\ weights (nr_trained r) <> weights (nr_projs r).
Proof.
  destruct (mx_view_inv _ _ mx_view_is) as (k & tr & r & E & Er & H1 & H2). exists k, tr, r.
  split; [apply sc_sound|]. split; [repeat constructor|]. split; [repeat constructor|]. split; [repeat (constructor; [split; [reflexivity|exact ex_sched_ok]|]); constructor|].
  split; [now apply mx_net|]. auto.
Qed.
