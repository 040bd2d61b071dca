(** Property theorem C88: switching learning; and runs that meet the hypotheses of
    C84-C89. *)
From Verif Require Import Base ListLemmas Messaging_Model Messaging_Spec Projection_Model Projection_Spec Projection_Proofs
  Delta_Model Delta_Spec Delta_Proofs Neuron_Model Pipeline_Model Pipeline_Spec Pipeline_Proofs Pipeline_Proofs2
  Stdp_Model Additive_Model Additive_Spec Additive_Proofs Train_Model Train_Proofs Net_Model Net_Spec Net_Proofs Net_Proofs2 Net_Proofs3 Net_Proofs4 Net_Proofs5
  Props_Net.

(** *** C88 *)
Lemma relock_locked bs : forall w, np_locked w = true -> ~ In true bs -> np_locked (relock bs w) = true.
Proof.
  unfold relock. induction bs as [|b bs IH]; intros w H Hn; cbn [fold_left]; [exact H|]. apply IH; [|intros Hx; apply Hn; now right].
  destruct b; [exfalso; apply Hn; now left|reflexivity].
Qed.
Lemma relock_resource bs w : resource_synapses (relock bs w) = resource_synapses w.
Proof. unfold resource_synapses. now rewrite (proj1 (relock_same bs w)). Qed.
(** A projection that is locked when a step begins keeps its resource synapses, but for
    the steps of their last spikes, until learning is started again. *)
Theorem c88_locked pow2f expf extra pops projs turns k tr t0 t1 r0 r1 j w :
  sound_network pops projs -> Forall (fun u => forallb outside (tu_ops u) = true) turns ->
  net_run pow2f expf extra pops projs turns k tr ->
  nth_error tr t0 = Some r0 -> nth_error (nr_projs r0) j = Some w -> np_locked w = true ->
  t0 <= t1 -> nth_error tr t1 = Some r1 ->
  (forall t u, t0 < t <= t1 -> nth_error turns t = Some u -> ~ In true (tu_learn u)) ->
  exists w', nth_error (nr_projs' r1) j = Some w' /\ np_locked w' = true /\
    map unstamped (resource_synapses w') = map unstamped (resource_synapses w).
Proof.
  intros Hs Hf Hr Ht0 Hw Hl Hle. revert r1. induction Hle as [|t1 Hle IH]; intros r1 Ht1 Hn.
  - rewrite Ht0 in Ht1. injection Ht1 as <-.
    destruct (c85_frame _ _ _ _ _ _ _ _ t0 r0 j w Hs Hf Hr Ht0 Hw) as (w1 & w' & H1 & H2 & H3 & H4 & H5 & H6 & _ & _ & H9).
    exists w'. split; [exact H2|]. split; [congruence|]. specialize (H6 Hl). subst w1. destruct (is_resource w) eqn:Er; [auto|].
    assert (Hnr : forall v, is_resource v = false -> resource_synapses v = []).
    { intros v. unfold is_resource, resource_synapses. destruct (np_kind v); [reflexivity|reflexivity|discriminate]. }
    rewrite (Hnr w Er). destruct (fixed_column _ _ _ _ _ _ _ _ Hs Hf Hr t0 r0 Ht0) as (_ & F1 & F2).
    destruct (turn_at _ _ _ _ _ _ _ _ Hs Hf Hr t0 r0 Ht0) as (u & Hu). destruct (c84_dataflow _ _ _ _ _ _ _ _ Hs Hf Hr) as (_ & _ & F).
    destruct (F t0 r0 u Ht0 Hu) as (_ & _ & _ & _ & Fp). destruct (Fp j w H1) as (ms & v & o & _ & _ & Ev & _ & Es). rewrite H2 in Ev. injection Ev as <-.
    assert (Er' : is_resource w' = false).
    { unfold nproj_step in Es. unfold is_resource in *. destruct (np_kind w) as [p|l p|l p]; [| |discriminate].
      - destruct (calculate_projection _ _ _ _ _) as [[[p' q'] o']| |]; cbn [obind] in Es; try discriminate. injection Es as <- _. reflexivity.
      - destruct (additive_step _ _ _ _ _ _ _) as [[[p' q'] o']| |]; cbn [obind] in Es; try discriminate. injection Es as <- _. reflexivity. }
    now rewrite (Hnr w' Er').
  - destruct (nth_error tr t1) as [r|] eqn:Er.
    2:{ apply nth_error_None in Er. assert (nth_error tr (S t1) <> None) as Hx by congruence. apply nth_error_Some in Hx. lia. }
    destruct (IH r eq_refl) as (w' & H1 & H2 & H3). { intros t u Ht. apply Hn. lia. }
    destruct (turn_at _ _ _ _ _ _ _ _ Hs Hf Hr (S t1) r1 Ht1) as (u & Hu). destruct (c84_dataflow _ _ _ _ _ _ _ _ Hs Hf Hr) as (_ & _ & F).
    destruct (F (S t1) r1 u Ht1 Hu) as (_ & Ep & _ & _ & Fp). rewrite (after_S pops projs tr t1 r Er) in Ep. cbn [snd] in Ep. rewrite learn_all_map in Ep.
    set (v := relock (tu_learn u) w').
    assert (Hv : nth_error (nr_projs r1) j = Some v) by (rewrite Ep, nth_error_map, H1; reflexivity).
    assert (Hvl : np_locked v = true) by (apply relock_locked; [exact H2|]; apply (Hn (S t1)); [lia|exact Hu]).
    destruct (c85_frame _ _ _ _ _ _ _ _ (S t1) r1 j v Hs Hf Hr Ht1 Hv) as (w1 & w2 & K1 & K2 & K3 & K4 & K5 & K6 & _ & _ & K9).
    exists w2. split; [exact K2|]. split; [congruence|]. specialize (K6 Hvl). subst w1.
    rewrite <- H3, <- (relock_resource (tu_learn u) w'). fold v. destruct (is_resource v) eqn:Ev; [auto|].
    assert (Hnr : forall x, is_resource x = false -> resource_synapses x = []).
    { intros x. unfold is_resource, resource_synapses. destruct (np_kind x); [reflexivity|reflexivity|discriminate]. }
    rewrite (Hnr v Ev). destruct (Fp j v K1) as (ms & x & o & _ & _ & Ex & _ & Es). rewrite K2 in Ex. injection Ex as <-.
    assert (Er' : is_resource w2 = false).
    { unfold nproj_step in Es. unfold is_resource in *. destruct (np_kind v) as [p|l p|l p]; [| |discriminate].
      - destruct (calculate_projection _ _ _ _ _) as [[[p' q'] o']| |]; cbn [obind] in Es; try discriminate. injection Es as <- _. reflexivity.
      - destruct (additive_step _ _ _ _ _ _ _) as [[[p' q'] o']| |]; cbn [obind] in Es; try discriminate. injection Es as <- _. reflexivity. }
    now rewrite (Hnr w2 Er').
Qed.
Print Assumptions c88_locked.
(** After stop_learning, until start_learning, no synaptic resource and no weight of a
    resource synapse changes. *)
Theorem c88_stop_learning pow2f expf extra pops projs turns k tr t0 t1 r0 r1 u0 bs j w :
  sound_network pops projs -> Forall (fun u => forallb outside (tu_ops u) = true) turns ->
  net_run pow2f expf extra pops projs turns k tr ->
  nth_error turns t0 = Some u0 -> tu_learn u0 = bs ++ [false] ->
  nth_error tr t0 = Some r0 -> nth_error (nr_projs r0) j = Some w ->
  t0 <= t1 -> nth_error tr t1 = Some r1 ->
  (forall t u, t0 < t <= t1 -> nth_error turns t = Some u -> ~ In true (tu_learn u)) ->
  exists w', nth_error (nr_projs' r1) j = Some w' /\
    map unstamped (resource_synapses w') = map unstamped (resource_synapses w).
Proof.
  intros Hs Hf Hr Hu0 Hbs Ht0 Hw Hle Ht1 Hn.
  assert (Hl : np_locked w = true).
  { destruct (c84_dataflow _ _ _ _ _ _ _ _ Hs Hf Hr) as (_ & _ & F). destruct (F t0 r0 u0 Ht0 Hu0) as (_ & Ep & _).
    rewrite learn_all_map, Hbs in Ep. rewrite Ep, nth_error_map in Hw. destruct (nth_error (snd _) j) as [v|]; [|discriminate].
    cbn [option_map] in Hw. injection Hw as <-. rewrite fold_left_app. reflexivity. }
  destruct (c88_locked _ _ _ _ _ _ _ _ t0 t1 r0 r1 j w Hs Hf Hr Ht0 Hw Hl Hle Ht1 Hn) as (w' & H1 & _ & H2). eauto.
Qed.
Print Assumptions c88_stop_learning.
(** A projection is locked when it is made (projection.h:432), so nothing is learned
    before the first call of start_learning (or of unlock_weights by the user). *)
Theorem c88_nothing_before_start pow2f expf extra pops projs turns k tr t r j w :
  sound_network pops projs -> Forall (fun u => forallb outside (tu_ops u) = true) turns ->
  net_run pow2f expf extra pops projs turns k tr ->
  nth_error projs j = Some w -> np_locked w = true -> nth_error tr t = Some r ->
  (forall t' u, t' <= t -> nth_error turns t' = Some u -> ~ In true (tu_learn u)) ->
  exists w', nth_error (nr_projs' r) j = Some w' /\
    map unstamped (resource_synapses w') = map unstamped (resource_synapses w).
Proof.
  intros Hs Hf Hr Hj Hl Ht Hn. destruct (nth_error tr 0) as [r0|] eqn:E0.
  2:{ apply nth_error_None in E0. assert (nth_error tr t <> None) as Hx by congruence. apply nth_error_Some in Hx. lia. }
  destruct (turn_at _ _ _ _ _ _ _ _ Hs Hf Hr 0 r0 E0) as (u & Hu). destruct (c84_dataflow _ _ _ _ _ _ _ _ Hs Hf Hr) as (_ & _ & F).
  destruct (F 0 r0 u E0 Hu) as (_ & Ep & _). cbn [after snd] in Ep. rewrite learn_all_map in Ep.
  assert (Hv : nth_error (nr_projs r0) j = Some (relock (tu_learn u) w)) by (rewrite Ep, nth_error_map, Hj; reflexivity).
  destruct (c88_locked _ _ _ _ _ _ _ _ 0 t r0 r j _ Hs Hf Hr E0 Hv) as (w' & H1 & _ & H2); auto.
  - apply relock_locked; [exact Hl|]. apply (Hn 0); [lia|exact Hu].
  - lia.
  - intros t' u' Ht'. apply Hn. lia.
  - exists w'. split; [exact H1|]. now rewrite H2, relock_resource.
Qed.
Print Assumptions c88_nothing_before_start.
(** But stopping learning is not without effect on what the network does: the additional
    threshold of a neuron with resource STDP becomes 0 when it fires, if no unlocked
    resource projection leads to it. *)
Lemma spiking_no_synapses pow2f step b v : b = true ->
  v_add (fst (train_n pow2f step b v [])) = d_mul d_zero (d_of_f (t_coef (v_x v))).
Proof.
  intros ->. unfold train_n. cbv zeta.
  assert (Hd : forall n, v_add (fst (dopamine_n pow2f step n [])) = v_add n).
  { intros n. unfold dopamine_n. destruct (_ || _); [|reflexivity]. cbn [fm fst snd]. unfold stability_change_f. cbv zeta. now destruct (_ || _). }
  assert (Hrn : forall n l, l = [] -> v_add (fst (renorm_n step n l)) = v_add n).
  { intros n l ->. unfold renorm_n. cbv zeta. destruct (_ && _); [reflexivity|]. now destruct (f_lt _ _). }
  assert (Hdl : forall n, snd (dopamine_n pow2f step n []) = []).
  { intros n. unfold dopamine_n. now destruct (_ || _). }
  assert (Hsl : snd (spiking_n pow2f step v []) = []).
  { unfold spiking_n. cbv zeta. cbn [fm fst snd]. now repeat (destruct (negb _); cbn [fm fst snd]). }
  rewrite Hsl in *. rewrite Hrn by apply Hdl. rewrite Hd. unfold spiking_n. cbv zeta. cbn [fm fst snd].
  assert (Hx : forall n, t_coef (v_x (update_isi_f step n)) = t_coef (v_x n)).
  { intros n. unfold update_isi_f, on_x. cbn [v_x]. destruct (t_forced (v_x n)); [reflexivity|]. destruct (t_status (v_x n)); try reflexivity.
    - now destruct (_ <? _)%N.
    - now destruct (_ || _). }
  repeat (destruct (negb _); cbn [fm fst snd]); cbn [with_add v_add v_x]; destruct (isi_eqb _ _); unfold on_x; cbn [v_x with_stab t_coef]; now rewrite Hx.
Qed.
Theorem c88_locked_threshold pow2f expf extra pops projs turns k tr t r i u l time fired n p s x :
  sound_network pops projs -> Forall (fun u => forallb outside (tu_ops u) = true) turns ->
  net_run pow2f expf extra pops projs turns k tr ->
  nth_error tr t = Some r -> nth_error (nr_pops r) i = Some (u, NStdpBlifat l) ->
  nth_error (r_pop_out (nr_msgs r)) i = Some (Some (SpikeMsg u time fired)) -> In (N.of_nat n) fired ->
  incoming u (N.of_nat n) (nr_projs r) = [] ->
  nth_error l n = Some (p, s, x) -> is_finite (d_of_f (t_coef x)) = true ->
  exists l' p' s' x' sg, nth_error (nr_pops' r) i = Some (u, NStdpBlifat l') /\ nth_error l' n = Some (p', s', x') /\ bp_add p' = S754_zero sg.
Proof.
  intros Hs Hf Hr Ht Hi Ho Hn Hinc Hl Hfin. destruct (turn_at _ _ _ _ _ _ _ _ Hs Hf Hr t r Ht) as (tu & Hu). destruct (net_run_facts _ _ _ _ _ _ _ _ Hs Hf Hr) as (_ & F & _).
  destruct (F t r tu Ht Hu) as (SF & _). destruct (sf_pops _ _ _ _ _ _ _ _ SF i u _ Hi) as (a' & o & _ & H2 & H3 & H4).
  rewrite Ho in H3. injection H3 as <-. destruct a' as [|l'|]; cbn [pop_result] in H4; try contradiction.
  destruct H4 as (ns & spikes & E & Em & L & H4 & _).
  assert (spikes = fired) as -> by (destruct spikes; cbn [spike_message] in Em; [discriminate|congruence]).
  assert (exists s1 x1, nth_error ns n = Some (p, s1, x1) /\ t_coef x1 = t_coef x) as (s1 & x1 & Hns & Hc).
  { clear -E Hl. unfold bl_front, stdp_front in E.
    set (same := fun m : sneuron bl_par bl => fst (fst m) = p /\ t_coef (snd m) = t_coef x).
    rewrite (Neuron_Proofs2.pre_part_all (s_pre (bl_prestep true)) (s_impact bl_impact true) (s_post bl_post)) in E.
    assert (H0 : exists m, nth_error (map (s_pre (bl_prestep true)) l) n = Some m /\ same m).
    { rewrite nth_error_map, Hl. cbn [option_map]. eexists. split; [reflexivity|]. split; reflexivity. }
    destruct (impact_flagged (s_impact bl_impact) (flagged _) (map (s_pre (bl_prestep true)) l)) as [n1| |] eqn:E1; cbn [obind] in E; try discriminate.
    assert (H1 : exists m, nth_error n1 n = Some m /\ same m).
    { revert H0 E1. generalize (map (s_pre (bl_prestep true)) l) as ns0. generalize (flagged (npop_box extra projs (sent_before (map nr_msgs tr) t) (r_ext (nr_msgs r)) u)) as fl.
      induction fl as [|[f im] fl IH]; intros ns0 H0 E1; cbn [impact_flagged] in E1; [injection E1 as <-; exact H0|].
      destruct (update_at _ _ ns0) as [ns2| |] eqn:E2; cbn [obind] in E1; try discriminate. apply (IH ns2); [|exact E1]. clear IH E1 fl.
      revert H0 E2. generalize (N.to_nat (i_post im)) as q. clear. revert n ns2. induction ns0 as [|m ns0 IH]; intros n ns2 q (m0 & Hm & Hsm) E2; [destruct n; discriminate|].
      destruct q as [|q]; cbn [update_at] in E2.
      - destruct (s_impact bl_impact f m im) as [m'| |] eqn:E3; cbn [obind] in E2; try discriminate. injection E2 as <-.
        destruct n as [|n]; cbn [nth_error] in *; [|eauto]. injection Hm as <-. exists m'. split; [reflexivity|].
        unfold s_impact in E3. destruct m as [[p0 s0] x0]. destruct (bl_impact s0 im) as [s2| |]; cbn [obind] in E3; try discriminate.
        injection E3 as <-. unfold same in *. cbn [fst snd] in *. destruct (i_type im); exact Hsm.
      - destruct (update_at q _ ns0) as [ns3| |] eqn:E3; cbn [obind] in E2; try discriminate. injection E2 as <-.
        destruct n as [|n]; cbn [nth_error] in *; [eauto|]. eapply IH; eauto. }
    pose proof (Neuron_Proofs2.post_part_all_states (s_pre (bl_prestep true)) (s_impact bl_impact true) (s_post bl_post) n1) as E3.
    destruct (post_part (s_post bl_post) 0 0 (length n1) n1) as [n2 idx]. cbn [fst] in E3. injection E as <- _.
    destruct H1 as ([[p0 s0] x0] & Hm & Hp & Hc). cbn [fst snd] in *. subst p0.
    exists (fst (bl_post p s0)), x0. split; [|exact Hc]. rewrite E3, nth_error_map, Hm. cbn [option_map s_post].
    now destruct (bl_post p s0). }
  destruct (H4 n _ Hns) as (v & Hv & Ev). rewrite Hinc in Ev. apply (f_equal (fun q => v_add (fst q))) in Ev. cbn [fst] in Ev.
  rewrite spiking_no_synapses in Ev by (apply existsb_exists; exists (N.of_nat n); split; [exact Hn|apply N.eqb_refl]).
  cbn [bl_view v_x] in Ev. rewrite Hc in Ev. unfold d_zero in Ev.
  exists l'. unfold bl_write in Hv. do 3 eexists. 
  assert (exists sg, v_add v = S754_zero sg) as (sg & Hsg).
  { rewrite Ev. destruct (d_of_f (t_coef x)); try discriminate; eexists; reflexivity. }
  exists sg. split; [exact H2|]. split; [exact Hv|]. cbn [bp_add]. exact Hsg.
Qed.
Print Assumptions c88_locked_threshold.

(** ** Runs *)
(** Population 1: a BLIFAT neuron with resource STDP; population 2: a LIF neuron.
    Projection 21 (resource STDP) and 23 (additive STDP) bring spikes of input channel
    9 to populations 1 and 2, projection 22 (delta) connects 1 to 2. *)
Definition one1 (_ : flt) : flt := f_of_Z 1.
Definition z0 := d_of_Z 0.
Definition ex_neuron : sneuron bl_par bl :=
  (mkBlPar (d_of_Z 1) z0 z0 z0 z0 z0 z0 z0 0 z0 z0 0 z0 z0, mkBl 5 z0 z0 z0 z0 z0 0 int64_max z0,
   mkTn (f_of_Z 1) 3 (f_of_Z 0) (f_of_Z 1) 0 (f_of_Z 0) (f_of_Z 0) (f_of_Z 0) 10 (f_of_Z 0) not_in_period 0 0 0 false).
Definition ex_lif2 : lif_par * lif := (mkLifPar (f_of_Z 0) (f_of_Z 1) (f_of_Z 1) 0, mkLif (f_of_Z 0) 0).
Definition ex_rsyn (dh : Z) : rsyn :=
  mkSyn (mkRP (mkDP (f_of_Z 3) 1 EXCITATORY) (mkRR (f_of_Z 6) (f_of_Z 0) (f_of_Z 6) (f_of_Z dh) 3 0 false false)) 0 0.
Definition ex_asyn : asyn := mkSyn (mkAP (mkDP (f_of_Z 3) 1 EXCITATORY) (f_of_Z 1) (f_of_Z 1) [] []) 0 0.
Definition ex_dsyn : dsyn := mkSyn (mkDP (f_of_Z 3) 1 EXCITATORY) 0 0.
Definition gen1 {P} (s : synapse P) : proj P := proj_generated (fun i => nth_error [s] i) 1.
Definition net_pops : list (uid * npop) := [(1%N, NStdpBlifat [ex_neuron]); (2%N, NPlain (PopLif [ex_lif2]))].
Definition net_projs (dh : Z) : list nproj :=
  [mkNP 21 0 1 true (NResource [] (gen1 (ex_rsyn dh))) []; mkNP 22 1 2 true (NDelta (gen1 ex_dsyn)) [];
   mkNP 23 0 2 true (NAdditive [(9%N, STDPAndSpike)] (gen1 ex_asyn)) []].
Definition net_extra : list subscr := [mkSubscr 0 21 [9]%N].
Definition net_turns (on : bool) : list turn :=
  [mkTurn [OCreate; OSend 1 (SpikeMsg 9 0 [0]%N)] [on]; mkTurn [] []; mkTurn [OSend 1 (SpikeMsg 9 2 [0]%N)] []; mkTurn [] []].
Lemma net_sound dh : sound_network net_pops (net_projs dh).
Proof.
  split; cbn [net_pops net_projs map fst np_uid].
  - repeat constructor; cbn; intuition discriminate.
  - repeat constructor; cbn; intuition discriminate.
  - repeat constructor; cbn [np_kind sound_kind]; (eexists _, true, [], []; split; [right; split; [unfold gen1; eauto|reflexivity]|]; split; [reflexivity|exact I]).
  - repeat constructor.
  - repeat constructor; cbn; discriminate.
Qed.
Lemma net_outside on : Forall (fun u => forallb outside (tu_ops u) = true) (net_turns on).
Proof. repeat constructor. Qed.
Definition weights (l : list nproj) : list (list flt) := map (fun w => map (fun s => d_weight (sy_params s)) (delta_synapses w)) l.
Definition run_of (dh : Z) (on : bool) : outcome (nbackend * list nrecord) :=
  obind (nbackend_init net_extra net_pops (net_projs dh)) (nbackend_run one1 one1 (net_turns on)).
Lemma run_of_net dh on k tr : run_of dh on = Ret (k, tr) -> net_run one1 one1 net_extra net_pops (net_projs dh) (net_turns on) k tr.
Proof.
  unfold run_of, net_run. intros H. destruct (nbackend_init _ _ _) as [k0| |] eqn:E; cbn [obind] in H; try discriminate. eauto.
Qed.
Definition shown (dh : Z) (on : bool) : outcome (list (list (option message)) * list (list flt) * list (list (list flt))) :=
  obind (run_of dh on) (fun x => Ret (map (fun r => r_pop_out (nr_msgs r)) (snd x), weights (nb_projs (fst x)), map (fun r => weights (nr_trained r)) (snd x))).
(** stop_learning does not stop additive STDP: a run in which learning is stopped
    before the first step and never started, and the weight of projection 23 goes from
    3 to 7. *)
Theorem c88_additive_not_stopped : exists k tr, net_run one1 one1 net_extra net_pops (net_projs 0) (net_turns false) k tr /\
  sound_network net_pops (net_projs 0) /\ Forall (fun u => forallb outside (tu_ops u) = true) (net_turns false) /\
  (forall u, In u (net_turns false) -> ~ In true (tu_learn u)) /\
  nth_error (weights (net_projs 0)) 2 = Some [f_of_Z 3] /\ nth_error (weights (nb_projs k)) 2 = Some [f_of_Z 7].
Proof.
  assert (H : exists k tr, run_of 0 false = Ret (k, tr) /\ nth_error (weights (nb_projs k)) 2 = Some [f_of_Z 7]).
  { do 2 eexists. split; [vm_compute; reflexivity|vm_compute; reflexivity]. }
  destruct H as (k & tr & E & Ew). exists k, tr. split; [now apply run_of_net|]. split; [apply net_sound|]. split; [apply net_outside|].
  split; [|split; [vm_compute; reflexivity|exact Ew]].
  intros u Hu H. cbn in Hu. destruct Hu as [<-|[<-|[<-|[<-|[]]]]]; cbn in H; intuition discriminate.
Qed.
Print Assumptions c88_additive_not_stopped.
(** stop_learning changes what the network does even if learning would change nothing:
    two runs with the same input in which the weights of projections 21 and 22 stay 3;
    with learning population 1 fires only at step 1, without it also at step 3. *)
Theorem c88_inference_changed : exists k k' tr tr',
  net_run one1 one1 net_extra net_pops (net_projs 0) (net_turns true) k tr /\
  net_run one1 one1 net_extra net_pops (net_projs 0) (net_turns false) k' tr' /\
  Forall (fun r => firstn 2 (weights (nr_trained r)) = [[f_of_Z 3]; [f_of_Z 3]]) (tr ++ tr') /\
  map (fun r => nth_error (r_pop_out (nr_msgs r)) 0) tr = [Some None; Some (Some (SpikeMsg 1 1 [0]%N)); Some None; Some None] /\
  map (fun r => nth_error (r_pop_out (nr_msgs r)) 0) tr' =
    [Some None; Some (Some (SpikeMsg 1 1 [0]%N)); Some None; Some (Some (SpikeMsg 1 3 [0]%N))].
Proof.
  assert (H : exists k tr, run_of 0 true = Ret (k, tr) /\ Forall (fun r => firstn 2 (weights (nr_trained r)) = [[f_of_Z 3]; [f_of_Z 3]]) tr /\
    map (fun r => nth_error (r_pop_out (nr_msgs r)) 0) tr = [Some None; Some (Some (SpikeMsg 1 1 [0]%N)); Some None; Some None]).
  { do 2 eexists. split; [vm_compute; reflexivity|]. split; [repeat constructor; vm_compute; reflexivity|reflexivity]. }
  assert (H' : exists k tr, run_of 0 false = Ret (k, tr) /\ Forall (fun r => firstn 2 (weights (nr_trained r)) = [[f_of_Z 3]; [f_of_Z 3]]) tr /\
    map (fun r => nth_error (r_pop_out (nr_msgs r)) 0) tr = [Some None; Some (Some (SpikeMsg 1 1 [0]%N)); Some None; Some (Some (SpikeMsg 1 3 [0]%N))]).
  { do 2 eexists. split; [vm_compute; reflexivity|]. split; [repeat constructor; vm_compute; reflexivity|reflexivity]. }
  destruct H as (k & tr & E & H1 & H2), H' as (k' & tr' & E' & H1' & H2'). exists k, k', tr, tr'.
  split; [now apply run_of_net|]. split; [now apply run_of_net|]. split; [apply Forall_app; auto|auto].
Qed.
Print Assumptions c88_inference_changed.

(** The hypotheses of C84-C89 are met by a run in which the resource synapse loses
    resource at step 1, its weight follows, and the impact sent at step 2 has the new
    weight. *)
Definition consistent_all (l : list nproj) : Prop := forall w s, In w l -> In s (resource_synapses w) -> consistent (sy_params s).
Example c84_c89_case : exists k tr,
  sound_network net_pops (net_projs 2) /\ Forall (fun u => forallb outside (tu_ops u) = true) (net_turns true) /\
  net_run one1 one1 net_extra net_pops (net_projs 2) (net_turns true) k tr /\
  Forall (fun w => Forall syn_ok (delta_synapses w)) (net_projs 2) /\ consistent_all (net_projs 2) /\
  (N.of_nat (length tr) + two32 <= two64)%N /\
  map (fun r => nth_error (weights (nr_trained r)) 0) tr =
    [Some [f_of_Z 3]; Some [S754_finite false 10066330 (-22)]; Some [S754_finite false 10066330 (-22)]; Some [S754_finite false 10066330 (-22)]] /\
  map (fun r => nth_error (r_proj_out (nr_msgs r)) 0) tr =
    [Some (Some (ImpactMsg 21 0 0 1 false [mkImpact 0 (f_of_Z 3) EXCITATORY 0 0])); Some None;
     Some (Some (ImpactMsg 21 2 0 1 false [mkImpact 0 (S754_finite false 10066330 (-22)) EXCITATORY 0 0])); Some None] /\
  map (fun r => length (incoming 1 0 (nr_projs r))) tr = [1; 1; 1; 1].
Proof.
  assert (H : exists k tr, run_of 2 true = Ret (k, tr) /\ length tr = 4 /\ map (fun r => nth_error (weights (nr_trained r)) 0) tr =
    [Some [f_of_Z 3]; Some [S754_finite false 10066330 (-22)]; Some [S754_finite false 10066330 (-22)]; Some [S754_finite false 10066330 (-22)]] /\
    map (fun r => nth_error (r_proj_out (nr_msgs r)) 0) tr =
    [Some (Some (ImpactMsg 21 0 0 1 false [mkImpact 0 (f_of_Z 3) EXCITATORY 0 0])); Some None;
     Some (Some (ImpactMsg 21 2 0 1 false [mkImpact 0 (S754_finite false 10066330 (-22)) EXCITATORY 0 0])); Some None] /\
    map (fun r => length (incoming 1 0 (nr_projs r))) tr = [1; 1; 1; 1]).
  { do 2 eexists. split; [vm_compute; reflexivity|]. split; [reflexivity|]. split; [vm_compute; reflexivity|]. split; [vm_compute; reflexivity|reflexivity]. }
  destruct H as (k & tr & E & L & H1 & H2 & H3). exists k, tr. split; [apply net_sound|]. split; [apply net_outside|]. split; [now apply run_of_net|].
  split; [repeat constructor|]. split; [|split; [rewrite L; vm_compute; discriminate|auto]].
  intros w s Hw Hin. cbn in Hw. destruct Hw as [<-|[<-|[<-|[]]]]; cbn in Hin; try contradiction. destruct Hin as [<-|[]]. vm_compute. reflexivity.
Qed.
(** Learning is stopped at step 0 and not started again: the hypotheses of
    c88_stop_learning; the neuron that fires at step 1 has no unlocked projection: those
    of c88_locked_threshold; projections are locked at the start: those of
    c88_nothing_before_start. *)
Example c88_case : exists k tr, net_run one1 one1 net_extra net_pops (net_projs 2) (net_turns false) k tr /\
  option_map tu_learn (nth_error (net_turns false) 0) = Some ([] ++ [false]) /\
  Forall (fun w => np_locked w = true) (net_projs 2) /\
  map (fun r => (incoming 1 0 (nr_projs r), nth_error (r_pop_out (nr_msgs r)) 0)) tr =
    [([], Some None); ([], Some (Some (SpikeMsg 1 1 [0]%N))); ([], Some None); ([], Some (Some (SpikeMsg 1 3 [0]%N)))].
Proof.
  assert (H : exists k tr, run_of 2 false = Ret (k, tr) /\ map (fun r => (incoming 1 0 (nr_projs r), nth_error (r_pop_out (nr_msgs r)) 0)) tr =
    [([], Some None); ([], Some (Some (SpikeMsg 1 1 [0]%N))); ([], Some None); ([], Some (Some (SpikeMsg 1 3 [0]%N)))]).
  { do 2 eexists. split; [vm_compute; reflexivity|reflexivity]. }
  destruct H as (k & tr & E & H). exists k, tr. split; [now apply run_of_net|]. split; [reflexivity|]. split; [repeat constructor|exact H].
Qed.
