(** Property theorem C86, continued: what a neuron with resource STDP does before the
    training. *)
From Verif Require Import Base ListLemmas Messaging_Model Messaging_Spec Projection_Model Projection_Spec
  Delta_Model Delta_Spec Neuron_Model Neuron_Spec Neuron_Proofs2 Pipeline_Model Pipeline_Spec Pipeline_Proofs Pipeline_Proofs2 Stdp_Model Additive_Model Train_Model Train_Proofs
  Net_Model Net_Spec Net_Proofs Net_Proofs2 Net_Proofs3 Net_Proofs4 Net_Proofs5 Props_Net Props_Net2 Props_Sched Front_Spec.

Section Flagged.
Context {A : Type}.
Variable imp : bool -> A -> impact -> outcome A.
Fixpoint fimpacts (n : A) (l : list (bool * impact)) : outcome A :=
  match l with [] => Ret n | (f, i) :: t => obind (imp f n i) (fun n' => fimpacts n' t) end.
Definition for_neuron (i : nat) (l : list (bool * impact)) : list (bool * impact) := filter (fun e => N.eqb (i_post (snd e)) (N.of_nat i)) l.
Lemma flagged_spec : forall l ns ns', impact_flagged imp l ns = Ret ns' -> length ns' = length ns /\
  forall i n, nth_error ns i = Some n -> exists n', nth_error ns' i = Some n' /\ fimpacts n (for_neuron i l) = Ret n'.
Proof.
  induction l as [|[f x] l IH]; intros ns ns' H; cbn [impact_flagged] in H.
  - injection H as <-. split; [reflexivity|]. intros i n Hi. exists n. auto.
  - destruct (update_at (N.to_nat (i_post x)) (fun n => imp f n x) ns) as [n1| |] eqn:E; cbn [obind] in H; try discriminate.
    apply (update_at_spec (fun x => x) (fun a _ => Ret a) (fun a => (a, true))) in E. destruct E as (y & y' & E1 & E2 & E3 & E4 & E5).
    destruct (IH n1 ns' H) as [L Hall]. split; [congruence|]. intros i n Hi. cbn [for_neuron filter snd].
    destruct (N.eqb_spec (i_post x) (N.of_nat i)) as [Ei|Ei].
    + assert (Hn : N.to_nat (i_post x) = i) by lia. rewrite Hn in *. assert (y = n) by congruence. subst y.
      destruct (Hall i y' E4) as (n' & H1 & H2). exists n'. split; [exact H1|]. cbn [fimpacts]. rewrite E2. exact H2.
    + destruct (Hall i n) as (n' & H1 & H2); [rewrite E5 by lia; exact Hi|]. eauto.
Qed.
End Flagged.
Lemma for_neuron_impacts i ms : map snd (for_neuron i (flagged ms)) = addressed i (impacts_of ms).
Proof.
  unfold for_neuron, addressed, flagged, impacts_of. induction ms as [|m ms IH]; cbn [flat_map]; [reflexivity|].
  rewrite !filter_app, map_app, IH. f_equal. destruct m as [|? ? ? ? f l]; [reflexivity|]. clear. induction l as [|x l IH]; [reflexivity|].
  cbn [map filter snd]. destruct (N.eqb _ _); cbn [map snd]; now rewrite IH.
Qed.
Definition exc (i : impact) : bool := match i_type i with EXCITATORY => true | _ => false end.
Lemma for_neuron_forced i ms : existsb (fun e => fst e && exc (snd e)) (for_neuron i (flagged ms)) = forced_by i ms.
Proof.
  unfold for_neuron, flagged, forced_by. induction ms as [|m ms IH]; cbn [flat_map existsb]; [reflexivity|].
  rewrite filter_app, existsb_app, IH. f_equal. destruct m as [|? ? ? ? f l]; [reflexivity|]. clear. induction l as [|x l IH]; cbn [map filter existsb snd]; [now rewrite andb_false_r|].
  destruct (N.eqb _ _); cbn [existsb fst snd andb]; rewrite IH; unfold exc; destruct f; reflexivity.
Qed.
Lemma s_impacts {P S} (imp : S -> impact -> outcome S) (p : P) : forall l s x n', fimpacts (s_impact imp) (p, s, x) l = Ret n' ->
  exists s', impacts imp s (map snd l) = Ret s' /\ n' = (p, s', with_forced (t_forced x || existsb (fun e => fst e && exc (snd e)) l) x).
Proof.
  induction l as [|[f i] l IH]; intros s x n' H; cbn [fimpacts] in H.
  - injection H as <-. exists s. split; [reflexivity|]. cbn [existsb]. rewrite orb_false_r. destruct x; reflexivity.
  - cbn [s_impact] in H. cbn [map snd impacts existsb fst]. destruct (imp s i) as [s1| |]; cbn [obind] in H |- *; try discriminate.
    apply IH in H as (s' & H1 & ->). exists s'. split; [exact H1|]. unfold exc at 2. destruct (i_type i); rewrite ?andb_true_r, ?andb_false_r; cbn [orb]; try reflexivity.
    rewrite orb_assoc. reflexivity.
Qed.
(** The part of the step before the training, neuron by neuron. *)
Lemma front_neurons {P S} (pre : P -> S -> S) (imp : S -> impact -> outcome S) (post : P -> S -> S * bool) ms (l ns : list (sneuron P S)) spikes :
  stdp_front (s_pre pre) (s_impact imp) (s_post post) ms l = Ret (ns, spikes) -> (N.of_nat (length l) <= two32)%N ->
  length ns = length l /\
  forall i p s x, nth_error l i = Some (p, s, x) -> exists s' fired,
    neuron_step (pre p) imp (post p) s (addressed i (impacts_of ms)) = Ret (s', fired) /\
    nth_error ns i = Some (p, s', with_forced (forced_by i ms) x) /\ existsb (N.eqb (N.of_nat i)) spikes = fired.
Proof.
  unfold stdp_front. intros H Hl. rewrite (pre_part_all (s_pre pre) (s_impact imp true) (s_post post)) in H.
  destruct (impact_flagged (s_impact imp) (flagged ms) (map (s_pre pre) l)) as [n1| |] eqn:E; cbn [obind] in H; try discriminate.
  apply flagged_spec in E as [L Hall]. rewrite map_length in L.
  pose proof (post_part_all_states (s_pre pre) (s_impact imp true) (s_post post) n1) as E1.
  pose proof (post_part_all_idx (s_pre pre) (s_impact imp true) (s_post post) n1) as E2.
  destruct (post_part (s_post post) 0 0 (length n1) n1) as [n2 idx]. cbn [fst snd] in *. injection H as <- <-.
  split; [subst n2; rewrite map_length; exact L|]. intros i p s x Hi.
  destruct (Hall i (s_pre pre (p, s, x))) as (n' & H1 & H2); [rewrite nth_error_map, Hi; reflexivity|].
  cbn [s_pre] in H2. apply s_impacts in H2 as (s1 & H2 & ->). rewrite for_neuron_impacts in H2. rewrite for_neuron_forced in H1. cbn [orb] in H1. change (t_forced (with_forced false x)) with false in H1. cbn [orb] in H1. change (with_forced (forced_by i ms) (with_forced false x)) with (with_forced (forced_by i ms) x) in H1.
  unfold neuron_step. rewrite H2. cbn [obind]. destruct (post p s1) as [s' fired] eqn:Ep. exists s', fired. split; [reflexivity|].
  assert (Hil : i < length n1) by (apply nth_error_Some; congruence). split.
  - subst n2. rewrite nth_error_map, H1. cbn [option_map s_post]. rewrite Ep. reflexivity.
  - assert (Hf : nth i (map snd (map (s_post post) n1)) false = fired).
    { rewrite map_map. apply nth_error_nth. rewrite nth_error_map, H1. cbn [option_map s_post]. rewrite Ep. reflexivity. }
    assert (Hw : forall j, In j idx -> w32 (N.of_nat j) = N.of_nat j).
    { intros j Hj. rewrite E2 in Hj. destruct (positions_facts (map snd (map (s_post post) n1))) as [_ Hb]. specialize (Hb j Hj). rewrite !map_length in Hb.
      unfold w32. apply N.mod_small. change (2 ^ 32)%N with two32 in *. lia. }
    rewrite (map_ext_in _ N.of_nat) by exact Hw. subst idx.
    match goal with |- ?b = _ => destruct b eqn:Eb end.
    + apply existsb_exists in Eb as (y & Hy & Ey). apply N.eqb_eq in Ey. subst y. apply in_map_iff in Hy as (j & Ej & Hj). apply Nat2N.inj in Ej. subst j.
      unfold positions in Hj. apply filter_In in Hj as [_ Hj]. congruence.
    + destruct fired; [|reflexivity]. exfalso. assert (Hin : In i (positions (map snd (map (s_post post) n1)))).
      { unfold positions. apply filter_In. split; [apply in_seq; rewrite !map_length; lia|exact Hf]. }
      assert (Hx : existsb (N.eqb (N.of_nat i)) (map N.of_nat (positions (map snd (map (s_post post) n1)))) = true).
      { apply existsb_exists. exists (N.of_nat i). split; [now apply in_map|apply N.eqb_refl]. }
      congruence.
Qed.

(** In a step of a run, neuron [n] of a population with resource STDP makes the step of
    the plain neuron with the impacts addressed to it; it counts as forced in this step
    iff a forcing message held an excitatory impact for it; and the training sees
    exactly that: the state after the step, whether it is forced, whether it fired. *)
Theorem c86_neuron_step pow2f : exists F : N -> bool -> tview -> list rparams -> tview * list rparams,
  forall expf extra pops projs turns k tr t r i u ms o fired,
  sound_network pops projs -> Forall (fun u => forallb outside (tu_ops u) = true) turns ->
  net_run pow2f expf extra pops projs turns k tr -> nth_error tr t = Some r ->
  nth_error (r_pop_in (nr_msgs r)) i = Some ms -> nth_error (r_pop_out (nr_msgs r)) i = Some o ->
  fired = match o with Some (SpikeMsg _ _ l) => l | _ => [] end ->
  (forall l n p s x, nth_error (nr_pops r) i = Some (u, NStdpBlifat l) -> nth_error l n = Some (p, s, x) ->
     exists l' s' v, nth_error (nr_pops' r) i = Some (u, NStdpBlifat l') /\
       neuron_step (bl_prestep true p) bl_impact (bl_post p) s (addressed n (impacts_of ms)) = Ret (s', existsb (N.eqb (N.of_nat n)) fired) /\
       nth_error l' n = Some (bl_write (p, s', x) v) /\
       (v, incoming u (N.of_nat n) (nr_trained r)) = F (N.of_nat t mod two64)%N (existsb (N.eqb (N.of_nat n)) fired)
         (mkV (with_forced (forced_by n ms) x) (b_dopa s') (bp_add p)) (incoming u (N.of_nat n) (nr_projs r))) /\
  (forall l n p s x, nth_error (nr_pops r) i = Some (u, NStdpAltai l) -> nth_error l n = Some (p, s, x) ->
     exists l' s' v, nth_error (nr_pops' r) i = Some (u, NStdpAltai l') /\
       neuron_step (al_prestep true p) al_impact (al_post p) s (addressed n (impacts_of ms)) = Ret (s', existsb (N.eqb (N.of_nat n)) fired) /\
       nth_error l' n = Some (al_write (p, s', x) v) /\
       (v, incoming u (N.of_nat n) (nr_trained r)) = F (N.of_nat t mod two64)%N (existsb (N.eqb (N.of_nat n)) fired)
         (mkV (with_forced (forced_by n ms) x) (a_dopa s') (ap_add p)) (incoming u (N.of_nat n) (nr_projs r))).
Proof.
  exists (train_n pow2f). intros expf extra pops projs turns k tr t r i u ms o fired Hs Hf Hr Ht Hms Ho ->. destruct (turn_at _ _ _ _ _ _ _ _ Hs Hf Hr t r Ht) as (tu & Hu).
  destruct (net_run_facts _ _ _ _ _ _ _ _ Hs Hf Hr) as (_ & F & _). destruct (F t r tu Ht Hu) as (SF & Epops & _).
  assert (Hsz : forall v a, nth_error (nr_pops r) i = Some (v, a) -> (N.of_nat (size a) <= two32)%N).
  { intros v a Hi. assert (Hlt : t < length tr) by (apply nth_error_Some; congruence).
    pose proof (sizes_after _ _ _ _ _ _ _ _ Hs Hf Hr t (Nat.lt_le_incl _ _ Hlt)) as Hzz. rewrite <- Epops in Hzz.
    rewrite Forall_forall in Hzz. exact (Hzz _ (nth_error_In _ _ Hi)). }
  split.
  - intros l n p s x Hi Hn. destruct (sf_pops _ _ _ _ _ _ _ _ SF i u _ Hi) as (a' & o' & H1 & H2 & H3 & H4).
    rewrite Hms in H1. injection H1 as ->. rewrite Ho in H3. injection H3 as <-. specialize (Hsz _ _ Hi). cbn [size] in Hsz.
    destruct a' as [x'|l'|l']; cbn [pop_result] in H4; try contradiction. destruct H4 as (ns & spikes & E & -> & L & Hall & _).
    destruct (front_neurons _ _ _ _ _ _ _ E Hsz) as [_ Hfn]. destruct (Hfn n p s x Hn) as (s' & b & E1 & E2 & E3).
    destruct (Hall n _ E2) as (v & E4 & E5). exists l', s', v. split; [exact H2|].
    assert (Hsp : match spike_message u (N.of_nat t mod two64) spikes with Some (SpikeMsg _ _ l) => l | _ => [] end = spikes) by (destruct spikes; reflexivity).
    rewrite Hsp, E3. split; [exact E1|]. split; [rewrite E4; reflexivity|]. rewrite E3 in E5. exact E5.
  - intros l n p s x Hi Hn. destruct (sf_pops _ _ _ _ _ _ _ _ SF i u _ Hi) as (a' & o' & H1 & H2 & H3 & H4).
    rewrite Hms in H1. injection H1 as ->. rewrite Ho in H3. injection H3 as <-. specialize (Hsz _ _ Hi). cbn [size] in Hsz.
    destruct a' as [x'|l'|l']; cbn [pop_result] in H4; try contradiction. destruct H4 as (ns & spikes & E & -> & L & Hall & _).
    destruct (front_neurons _ _ _ _ _ _ _ E Hsz) as [_ Hfn]. destruct (Hfn n p s x Hn) as (s' & b & E1 & E2 & E3).
    destruct (Hall n _ E2) as (v & E4 & E5). exists l', s', v. split; [exact H2|].
    assert (Hsp : match spike_message u (N.of_nat t mod two64) spikes with Some (SpikeMsg _ _ l) => l | _ => [] end = spikes) by (destruct spikes; reflexivity).
    rewrite Hsp, E3. split; [exact E1|]. split; [rewrite E4; reflexivity|]. rewrite E3 in E5. exact E5.
Qed.
Print Assumptions c86_neuron_step.
(** A run that meets the hypotheses: a neuron with STDP reached by a resource synapse
    and by a (forcing) delta synapse. *)
Definition front_pops : list (uid * npop) := [(1%N, NStdpBlifat [ex_neuron])].
Definition front_projs : list nproj := [mkNP 21 9 1 true (NResource [] (gen1 (ex_rsyn 0))) []; mkNP 24 8 1 true (NDelta (gen1 ex_dsyn)) []].
Definition front_turns : list turn :=
  [mkTurn [OCreate; OSend 1 (SpikeMsg 9 0 [0]%N)] []; mkTurn [OSend 1 (SpikeMsg 8 1 [0]%N)] []; mkTurn [] []; mkTurn [] []].
Definition front_run : outcome (nbackend * list nrecord) := obind (nbackend_init [] front_pops front_projs) (nbackend_run one1 one1 front_turns).
Definition forced_flags (l : list (uid * npop)) : list bool :=
  flat_map (fun e => match snd e with NStdpBlifat l => map (fun n : sneuron bl_par bl => t_forced (snd n)) l | _ => [] end) l.
Example c86_neuron_case : sound_network front_pops front_projs /\ Forall (fun u => forallb outside (tu_ops u) = true) front_turns /\
  exists k tr, front_run = Ret (k, tr) /\
    map (fun r => map (fun ms => (length (impacts_of ms), forced_by 0 ms)) (r_pop_in (nr_msgs r))) tr =
      [[(0, false)]; [(1, false)]; [(1, true)]; [(0, false)]] /\
    map (fun r => map (fun o => match o with Some _ => true | None => false end) (r_pop_out (nr_msgs r))) tr = [[false]; [true]; [true]; [false]] /\
    map (fun r => forced_flags (nr_pops' r)) tr = [[false]; [false]; [true]; [false]].
Proof.
  split; [|split; [repeat constructor|]].
  - split; cbn [front_pops front_projs map fst np_uid].
    + repeat constructor; cbn; intuition discriminate.
    + repeat constructor; cbn; intuition discriminate.
    + repeat constructor; cbn [np_kind sound_kind]; (eexists _, true, [], []; split; [right; split; [unfold gen1; eauto|reflexivity]|]; split; [reflexivity|exact I]).
    + repeat constructor.
    + repeat constructor; cbn; discriminate.
  - do 2 eexists. split; [vm_compute; reflexivity|]. split; [vm_compute; reflexivity|]. split; vm_compute; reflexivity.
Qed.
