(** Property theorem C44: the step pipeline of the single-threaded backend. *)
From Verif Require Import Base ListLemmas Messaging_Model Messaging_Spec Projection_Model Projection_Spec Delta_Model Delta_Spec
  Delta_Proofs Neuron_Model Pipeline_Model Pipeline_Spec Pipeline_Proofs Pipeline_Proofs2 Props_Delta.

(** *** C44 *)
(** Every network (populations and projections with distinct identifiers, empty
    queues), every list of subscriptions made before the start, every sequence of calls made from outside between the steps: in every
    step, every population takes in exactly, and in this order, the impact
    messages meant for it among those sent by the projections in the previous
    step and those waiting at the start of the step; every projection takes in
    exactly the spike messages meant for it among those waiting at the start of
    the step and those sent by the populations in the same step. *)
Theorem c44_dataflow extra pops projs calls k0 k tr :
  NoDup (map fst pops) -> NoDup (map (fun w => ph_uid (wp_head w)) projs) ->
  Forall (fun w => wp_queue w = []) projs ->
  Forall (fun ops => forallb outside ops = true) calls ->
  backend_init extra pops projs = Ret k0 -> backend_run calls k0 = Ret (k, tr) ->
  length tr = length calls /\
  forall t r, nth_error tr t = Some r ->
    (forall i u a, nth_error pops i = Some (u, a) ->
       nth_error (r_pop_in r) i = Some (filter (to_population (map wp_head projs) extra u) (sent_before tr t ++ r_ext r))) /\
    (forall j w, nth_error projs j = Some w ->
       nth_error (r_proj_in r) j = Some (filter (to_projection extra (wp_head w)) (r_ext r ++ sent_msgs (r_pop_out r)))).
Proof.
  intros Hu Hp Hq Hc Hi Hr. destruct (backend_init_ready extra pops projs Hq) as (k1 & E & E1 & E2 & E3 & R).
  rewrite Hi in E. injection E as <-.
  destruct (backend_run_ind extra projs (map fst pops) Hp Hu calls [] k0 k tr R Hc Hr) as (L & IP & IJ & _).
  rewrite E1 in *. rewrite E2 in *.
  split; [exact L|]. intros t r Ht. split.
  - intros i u a Ha. rewrite (IP t r i u a Ht Ha). unfold pop_box, heads. destruct t; reflexivity.
  - intros j w Hj. exact (IJ t r j w Ht Hj).
Qed.
Print Assumptions c44_dataflow.

(** What a population or projection does depends on nothing else: its column of
    the record is its run on its own over the messages it took in. *)
Theorem c44_alone extra pops projs calls k0 k tr :
  NoDup (map fst pops) -> NoDup (map (fun w => ph_uid (wp_head w)) projs) ->
  Forall (fun w => wp_queue w = []) projs ->
  Forall (fun ops => forallb outside ops = true) calls ->
  backend_init extra pops projs = Ret k0 -> backend_run calls k0 = Ret (k, tr) ->
  (forall i u a, nth_error pops i = Some (u, a) -> exists ins outs a',
     column i r_pop_in tr = map Some ins /\ column i r_pop_out tr = map Some outs /\
     apop_run u 0 ins a = Ret (a', outs) /\ nth_error (k_pops k) i = Some (u, a')) /\
  (forall j w, nth_error projs j = Some w -> exists ins outs,
     column j r_proj_in tr = map Some ins /\ column j r_proj_out tr = map Some outs /\
     run_projection (wp_head w) 0 (map (mkIn (p_syn (wp_proj w))) ins) (wp_proj w) [] = Ret outs).
Proof.
  intros Hu Hp Hq Hc Hi Hr. destruct (backend_init_ready extra pops projs Hq) as (k1 & E & E1 & E2 & E3 & R).
  rewrite Hi in E. injection E as <-.
  destruct (backend_run_ind extra projs (map fst pops) Hp Hu calls [] k0 k tr R Hc Hr) as (_ & _ & _ & CP & CJ).
  rewrite E1, E3 in *. rewrite E2 in *. split; [exact CP|].
  intros j w Hj. destruct (CJ j w Hj) as (ins & outs & w' & C1 & C2 & C3 & _). exists ins, outs.
  rewrite Forall_forall in Hq. rewrite (Hq w (nth_error_In _ _ Hj)) in C3. auto.
Qed.
Print Assumptions c44_alone.

(** The header of an impact message that a projection sends. *)
Lemma column_map {A} i (f : record -> list A) tr l t r : column i f tr = map Some l -> nth_error tr t = Some r ->
  nth_error (f r) i = nth_error l t.
Proof.
  revert l t. unfold column. induction tr as [|r0 tr IH]; intros l t H Ht; [destruct t; discriminate|].
  destruct l as [|x l]; [discriminate|]. cbn [map] in H. injection H as H1 H2. destruct t as [|t]; cbn [nth_error] in *.
  - injection Ht as <-. exact H1.
  - eauto.
Qed.
Lemma In_sent o (l : list (option message)) m : In o l -> o = Some m -> In m (sent_msgs l).
Proof. intros H ->. unfold sent_msgs. apply in_flat_map. exists (Some m). split; [exact H|now left]. Qed.

(** The latency of a signal.  If, in step [n], a spike message with neuron [x]
    that is meant for the projection is sent (by a population in step [n], or from
    outside before it), then for every synapse number [s] from
    [x] to [y] with delay [d] >= 1, the postsynaptic population takes in the impact
    (weight, type, x, y) of that synapse at step [n + d], if the run is that long. *)
Theorem c44_latency extra pops projs calls k0 k tr n d rn rd i u a j w sender time idx x s syn :
  NoDup (map fst pops) -> NoDup (map (fun w => ph_uid (wp_head w)) projs) ->
  Forall (fun w => wp_queue w = []) projs ->
  Forall (fun ops => forallb outside ops = true) calls ->
  backend_init extra pops projs = Ret k0 -> backend_run calls k0 = Ret (k, tr) ->
  (N.of_nat (length tr) + two32 <= two64)%N ->
  nth_error projs j = Some w -> sound_projection (wp_proj w) -> Forall syn_ok (p_syn (wp_proj w)) ->
  nth_error pops i = Some (u, a) -> u <> 0%N -> ph_post (wp_head w) = u ->
  nth_error tr n = Some rn ->
  In (SpikeMsg sender time idx) (r_ext rn ++ sent_msgs (r_pop_out rn)) ->
  to_projection extra (wp_head w) (SpikeMsg sender time idx) = true -> In x idx ->
  nth_error (p_syn (wp_proj w)) s = Some syn -> sy_from syn = x ->
  d_delay (sy_params syn) = N.of_nat d -> d >= 1 ->
  nth_error tr (n + d) = Some rd ->
  exists ms time' imps, nth_error (r_pop_in rd) i = Some ms /\
    In (ImpactMsg (ph_uid (wp_head w)) time' (ph_pre (wp_head w)) u (ph_forced (wp_head w)) imps) ms /\
    In (mkImpact (N.of_nat s) (d_weight (sy_params syn)) (d_type (sy_params syn)) x (sy_to syn)) imps.
Proof.
  intros Hu Hp Hq Hc Hi Hr Hlen Hj Hsound Hok Ha Hu0 Hpost Hn Hin Hsend Hx Hsyn Hfrom Hd Hd1 Hrd.
  destruct (c44_dataflow extra pops projs calls k0 k tr Hu Hp Hq Hc Hi Hr) as (_ & Hflow).
  destruct (c44_alone extra pops projs calls k0 k tr Hu Hp Hq Hc Hi Hr) as (_ & Halone).
  destruct (Halone j w Hj) as (ins & outs & C1 & C2 & C3).
  assert (Ht : exists rt, nth_error tr (n + d - 1) = Some rt).
  { destruct (nth_error tr (n + d - 1)) eqn:E; [eauto|]. apply nth_error_None in E.
    assert (nth_error tr (n + d) <> None) as H by congruence. apply nth_error_Some in H. lia. }
  destruct Ht as (rt & Ht).
  assert (Hll : length ins = length tr).
  { rewrite <- (map_length Some ins), <- C1. unfold column. now rewrite map_length. }
  destruct (c24_exactly_once (wp_head w) 0 (map (mkIn (p_syn (wp_proj w))) ins) (wp_proj w) (ends_of (p_syn (wp_proj w))) Hsound eq_refl)
    as (outs' & Ho & Hlo & Hgood).
  - apply Forall_forall. intros y Hy. apply in_map_iff in Hy as (z & <- & _). reflexivity.
  - apply Forall_forall. intros y Hy. apply in_map_iff in Hy as (z & <- & _). exact Hok.
  - rewrite map_length, Hll. lia.
  - rewrite C3 in Ho. injection Ho as <-. rewrite map_length in Hlo.
    set (t := n + d - 1) in *.
    assert (Hto : exists o, nth_error outs t = Some o).
    { destruct (nth_error outs t) eqn:E; [eauto|]. apply nth_error_None in E.
      assert (nth_error tr t <> None) as H by congruence. apply nth_error_Some in H. lia. }
    destruct Hto as (o & Hto). destruct (Hgood t o Hto) as (Hnone & Hsome).
    set (imp := mkImpact (N.of_nat s) (d_weight (sy_params syn)) (d_type (sy_params syn)) x (sy_to syn)).
    assert (Hdue : In imp (due (map (mkIn (p_syn (wp_proj w))) ins) t)).
    { unfold due. apply in_flat_map. exists n. split; [apply in_seq; lia|].
      rewrite nth_error_map, <- (column_map j r_proj_in tr ins n rn C1 Hn).
      destruct (Hflow n rn Hn) as (_ & Hj'). rewrite (Hj' j w Hj). cbn [option_map in_syn in_msgs].
      apply in_flat_map. exists x. split.
      - unfold spikes_of. apply in_flat_map. exists (SpikeMsg sender time idx). split; [|exact Hx].
        apply filter_In. split; [exact Hin|]. exact Hsend.
      - unfold impacts_with_delay. apply in_map_iff. exists (s, syn). cbn [fst snd]. split; [unfold imp; now rewrite Hfrom|].
        apply filter_In. cbn [snd]. split.
        + unfold numbered. assert (Hnth : nth_error (combine (seq 0 (length (p_syn (wp_proj w)))) (p_syn (wp_proj w))) s = Some (s, syn)).
          { assert (Hlt : s < length (p_syn (wp_proj w))) by (apply nth_error_Some; congruence).
            clear -Hsyn Hlt. revert s Hsyn Hlt. generalize (p_syn (wp_proj w)) as l. intros l.
            assert (forall b s, nth_error l s = Some syn -> s < length l -> nth_error (combine (seq b (length l)) l) s = Some (b + s, syn)).
            { induction l as [|y l IH]; intros b s Hs Hlt; [destruct s; discriminate|]. cbn [length seq combine].
              destruct s as [|s]; cbn [nth_error] in *; [injection Hs as ->; now rewrite Nat.add_0_r|].
              rewrite (IH (S b) s Hs) by (cbn [length] in Hlt; lia). now replace (S b + s) with (b + S s) by lia. }
            intros s Hs Hlt. apply (H 0 s Hs Hlt). }
          eapply nth_error_In; exact Hnth.
        + rewrite Hfrom, N.eqb_refl, Hd. cbn [andb]. apply N.eqb_eq. unfold t. lia. }
    destruct o as [m|]; [|exfalso; rewrite (proj1 Hnone eq_refl) in Hdue; contradiction].
    destruct (Hsome m eq_refl) as (time' & imps & Em & Hperm & _).
    exists (filter (to_population (map wp_head projs) extra u) (sent_before tr (n + d) ++ r_ext rd)), time', imps.
    split; [|split].
    + destruct (Hflow (n + d) rd Hrd) as (Hpin & _). exact (Hpin i u a Ha).
    + apply filter_In. split.
      * apply in_or_app. left. replace (n + d) with (S t) by (unfold t; lia). cbn [sent_before]. rewrite Ht.
        eapply In_sent; [|reflexivity]. eapply nth_error_In.
        rewrite (column_map j r_proj_out tr outs t rt C2 Ht). rewrite Hto, Em, Hpost. reflexivity.
      * cbn [to_population]. apply N.eqb_neq in Hu0. rewrite Hu0. cbn [negb andb].
        apply orb_true_iff. left. apply existsb_exists. exists (wp_head w). split; [apply in_map; eapply nth_error_In; eauto|].
        now rewrite Hpost, !N.eqb_refl.
    + eapply Permutation_in; [apply Permutation_sym; exact Hperm|exact Hdue].
Qed.
Print Assumptions c44_latency.

(** A network of two LIF populations, the first behind an input projection that is
    subscribed to input channel 9; a spike from the channel at step 0 makes
    neuron 0 of population 1 fire in step 1 and reaches population 2 in step 3,
    through a synapse with delay 2. *)
Definition ex_lif : lif_par * lif := (mkLifPar (f_of_Z 0) (f_of_Z 1) (f_of_Z 1) 0, mkLif (f_of_Z 0) 0).
Definition ex_p1 : wproj := mkWP (mkPH 11 0 1 true) (proj_generated (fun i => nth_error [ex_syn 1 0 0] i) 1) [].
Definition ex_p2 : wproj := mkWP (mkPH 12 1 2 true) (proj_generated (fun i => nth_error [ex_syn 2 0 1] i) 1) [].
Definition ex_pops : list (uid * apop) := [(1%N, PopLif [ex_lif]); (2%N, PopLif [ex_lif; ex_lif])].
Example c44_case :
  exists k0 k tr, backend_init [mkSubscr 0 11 [9]%N] ex_pops [ex_p1; ex_p2] = Ret k0 /\
  backend_run [[OCreate; OSend 1 (SpikeMsg 9 0 [0]%N)]; []; []; []] k0 = Ret (k, tr) /\
  map r_pop_out tr = [[None; None]; [Some (SpikeMsg 1 1 [0]%N); None]; [None; None]; [None; Some (SpikeMsg 2 3 [1]%N)]] /\
  map r_pop_in tr = [[[]; []]; [[ImpactMsg 11 0 0 1 true [mkImpact 0 (f_of_Z 3) EXCITATORY 0 0]]; []]; [[]; []];
                     [[]; [ImpactMsg 12 1 1 2 true [mkImpact 0 (f_of_Z 3) EXCITATORY 0 1]]]] /\
  forallb (fun ops => forallb outside ops) [[OCreate; OSend 1 (SpikeMsg 9 0 [0]%N)]; []; []; []] = true.
Proof. do 3 eexists. split; [reflexivity|]. split; [vm_compute; reflexivity|]. split; [reflexivity|]. split; reflexivity. Qed.

(** A step fails only where one of its populations or projections fails on its
    own messages: the bus calls never do. *)
Theorem c44_failures extra pops projs calls k0 k tr ops :
  NoDup (map fst pops) -> NoDup (map (fun w => ph_uid (wp_head w)) projs) ->
  Forall (fun w => wp_queue w = []) projs ->
  Forall (fun ops => forallb outside ops = true) calls -> forallb outside ops = true ->
  backend_init extra pops projs = Ret k0 -> backend_run calls k0 = Ret (k, tr) ->
  forall b trb, run (k_bus k) ops = Ret (b, trb) ->
  (exists k' r, backend_step (pending b) (mkBackend b (k_pops k) (k_projs k) (k_step k)) = Ret (k', r)) \/
  (exists i u a, nth_error (k_pops k) i = Some (u, a) /\
     forall x, apop_step u (k_step k)
       (filter (to_population (map wp_head projs) extra u) (sent_before tr (length tr) ++ pending b)) a <> Ret x) \/
  (exists j w spikes, nth_error (k_projs k) j = Some w /\
     forall x, calculate_projection (wp_head w) (k_step k)
       (filter (to_projection extra (wp_head w)) (pending b ++ spikes)) (wp_proj w) (wp_queue w) <> Ret x).
Proof.
  intros Hu Hp Hq Hc Hops Hi Hr b trb Hb.
  destruct (backend_init_ready extra pops projs Hq) as (k1 & E & E1 & E2 & E3 & R). rewrite Hi in E. injection E as <-.
  assert (HR : forall calls prev k0 k tr, ready extra projs (map fst pops) prev k0 ->
            Forall (fun ops => forallb outside ops = true) calls -> backend_run calls k0 = Ret (k, tr) ->
            ready extra projs (map fst pops) (before prev tr (length tr)) k).
  { clear -Hu Hp. induction calls as [|ops calls IH]; intros prev k0 k tr R Hf H; cbn [backend_run] in H.
    - injection H as <- <-. exact R.
    - inversion Hf as [|? ? Hops Hf']; subst.
      destruct (run (k_bus k0) ops) as [[b trb]| |] eqn:Er; cbn [obind fst] in H; try discriminate.
      pose proof (outside_ready extra projs (map fst pops) prev k0 ops b trb R Hops Er) as R1.
      pose proof (step_eq extra projs (map fst pops) Hp Hu prev _ R1) as HS. cbn [k_bus k_pops k_projs k_step] in HS.
      destruct (pops_alone _ _ _) as [[pops' pout]| |] eqn:EP in HS;
        [|rewrite HS in H; discriminate|rewrite HS in H; discriminate].
      destruct (projs_heads _ _ _) as [[projs' jout]| |] eqn:EQ in HS;
        [|rewrite HS in H; discriminate|rewrite HS in H; discriminate].
      destruct HS as (b' & Es & R'). cbv zeta in Es. rewrite Es in H. cbn [obind fst snd] in H.
      destruct (backend_run calls _) as [[k2 tr2]| |] eqn:Eb in H; cbn [obind fst snd] in H; try discriminate.
      injection H as <- <-. specialize (IH _ _ _ _ R' Hf' Eb). cbn [length before].
      cbn [sent_before]. destruct (length tr2) as [|n]; exact IH. }
  pose proof (HR calls [] k0 k tr R Hc Hr) as Rk.
  set (prev := before [] tr (length tr)) in *.
  assert (Hprev : prev = sent_before tr (length tr)) by (unfold prev; destruct (length tr); reflexivity).
  pose proof (outside_ready extra projs (map fst pops) prev k ops b trb Rk Hops Hb) as R1.
  pose proof (step_eq extra projs (map fst pops) Hp Hu prev _ R1) as HS. cbn [k_bus k_pops k_projs k_step] in HS.
  destruct (pops_alone _ _ (k_pops k)) as [[pops' pout]| |] eqn:EP in HS.
  - destruct (projs_heads _ _ (k_projs k)) as [[projs' jout]| |] eqn:EQ in HS.
    + destruct HS as (b' & Es & _). left. eauto.
    + right. right. enough (H : exists j w, nth_error (k_projs k) j = Some w /\ forall x, calculate_projection (wp_head w) (k_step k) (filter (to_projection extra (wp_head w)) (pending b ++ sent_msgs pout)) (wp_proj w) (wp_queue w) <> Ret x) by (destruct H as (j & w & H); exists j, w, (sent_msgs pout); exact H). clear -EQ. revert EQ. generalize (k_projs k) as l. induction l as [|w l IH]; cbn [projs_heads]; [discriminate|].
      destruct (calculate_projection _ _ _ _ _) as [y| |] eqn:E; cbn [obind].
      * destruct (projs_heads _ _ l) as [z| |] eqn:El; cbn [obind]; try discriminate. intros _.
        destruct (IH eq_refl) as (j & w' & H1 & H2). exists (S j), w'. auto.
      * intros _. exists 0, w. split; [reflexivity|]. intros x. unfold proj_box in E. rewrite E. discriminate.
      * discriminate.
    + right. right. enough (H : exists j w, nth_error (k_projs k) j = Some w /\ forall x, calculate_projection (wp_head w) (k_step k) (filter (to_projection extra (wp_head w)) (pending b ++ sent_msgs pout)) (wp_proj w) (wp_queue w) <> Ret x) by (destruct H as (j & w & H); exists j, w, (sent_msgs pout); exact H). clear -EQ. revert EQ. generalize (k_projs k) as l. induction l as [|w l IH]; cbn [projs_heads]; [discriminate|].
      destruct (calculate_projection _ _ _ _ _) as [y| |] eqn:E; cbn [obind].
      * destruct (projs_heads _ _ l) as [z| |] eqn:El; cbn [obind]; try discriminate. intros _.
        destruct (IH eq_refl) as (j & w' & H1 & H2). exists (S j), w'. auto.
      * discriminate.
      * intros _. exists 0, w. split; [reflexivity|]. intros x. unfold proj_box in E. rewrite E. discriminate.
  - right. left. rewrite <- Hprev. clear -EP. revert EP. generalize (k_pops k) as l. induction l as [|[u a] l IH]; cbn [pops_alone]; [discriminate|].
    destruct (apop_step _ _ _ _) as [y| |] eqn:E; cbn [obind].
    + destruct (pops_alone _ _ l) as [z| |] eqn:El; cbn [obind]; try discriminate. intros _.
      destruct (IH eq_refl) as (j & u' & a' & H1 & H2). exists (S j), u', a'. auto.
    + intros _. exists 0, u, a. split; [reflexivity|]. intros x. unfold pop_box, heads in E. rewrite E. discriminate.
    + discriminate.
  - right. left. rewrite <- Hprev. clear -EP. revert EP. generalize (k_pops k) as l. induction l as [|[u a] l IH]; cbn [pops_alone]; [discriminate|].
    destruct (apop_step _ _ _ _) as [y| |] eqn:E; cbn [obind].
    + destruct (pops_alone _ _ l) as [z| |] eqn:El; cbn [obind]; try discriminate. intros _.
      destruct (IH eq_refl) as (j & u' & a' & H1 & H2). exists (S j), u', a'. auto.
    + discriminate.
    + intros _. exists 0, u, a. split; [reflexivity|]. intros x. unfold pop_box, heads in E. rewrite E. discriminate.
Qed.
Print Assumptions c44_failures.
