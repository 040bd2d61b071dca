(** Proofs about a step of the multi-threaded backend with training. *)
From Verif Require Import Base ListLemmas Messaging_Model Messaging_Spec Projection_Model Projection_Spec Projection_Proofs
  Delta_Model Delta_Spec Delta_Proofs Delta_Proofs2 Neuron_Model Neuron_Spec Neuron_Proofs Neuron_Proofs2 Pipeline_Model Pipeline_Spec Pipeline_Proofs Pipeline_Proofs2
  Stdp_Model Additive_Model Additive_Spec Additive_Proofs Train_Model Train_Proofs Net_Model Net_Spec Net_Proofs Net_Proofs2 Net_Proofs3 Net_Proofs4 Net_Proofs5
  Props_Net Props_Sched Mt_Model Mt_Spec Mt_Proofs Mt_Proofs2 Sched_Model Sched_Proofs MtNet_Model MtNet_Spec Handlers_Proofs.

(** ** Parts in any order *)
Lemma any_order_facts pp n o : (0 < pp < two64)%N -> (N.of_nat n <= 2 ^ 63)%N -> any_order pp (N.of_nat n) o ->
  (forall i, cnt i o = if i <? n then 1 else 0) /\ Forall (fun p : nat * nat => fst p <= snd p <= n) o /\
  exists ps, tiles 0 (N.of_nat n) ps /\ Permutation o (map to_nat_part ps).
Proof.
  intros Hp Hn (ps & fuel & E & P). assert (Ht : tiles 0 (N.of_nat n) ps) by (eapply parts_tiles; eauto; lia).
  split; [|split; [|eauto]].
  - intros i. rewrite (cnt_perm i _ _ P), (tiles_cnt ps 0 _ Ht). cbn [N.to_nat Nat.leb andb]. now rewrite Nat2N.id.
  - eapply Permutation_Forall; [symmetry; exact P|]. pose proof (tiles_le ps _ Ht) as X. now rewrite Nat2N.id in X.
Qed.
Lemma mt_pre_order {A} (pre : A -> A) pp o (ns : list A) : (0 < pp < two64)%N -> (N.of_nat (length ns) <= 2 ^ 63)%N ->
  any_order pp (N.of_nat (length ns)) o ->
  fold_left (fun ns part => pre_part pre (fst part) (snd part - fst part) ns) o ns = map pre ns.
Proof.
  intros Hp Hn Ho. destruct (any_order_facts pp _ o Hp Hn Ho) as (C & B & _). apply (mt_pre_all pre (fun a _ => Ret a) (fun a => (a, false))); [|exact C].
  eapply Forall_impl; [|exact B]. intros p H. cbn beta in H. lia.
Qed.
Lemma mt_post_order {A} (post : A -> A * bool) pp o (ns : list A) : (0 < pp < two64)%N -> (N.of_nat (length ns) <= 2 ^ 63)%N ->
  any_order pp (N.of_nat (length ns)) o -> exists idx,
  mt_post post o ns = (map (fun x => fst (post x)) ns, idx) /\ Permutation (positions (map snd (map post ns))) idx.
Proof.
  intros Hp Hn Ho. destruct (any_order_facts pp _ o Hp Hn Ho) as (C & B & ps & Ht & P).
  pose proof (mt_post_gen (fun a => a) (fun a _ => Ret a) post o ns []) as G. cbn zeta in G.
  destruct G as [G1 G2]; [exact B|intros i; rewrite C; destruct (i <? length ns); lia|].
  unfold mt_post. destruct (fold_left _ o (ns, [])) as [n2 idx]. cbn [fst snd] in *. exists idx. split.
  - f_equal. apply nth_error_ext. intros i. rewrite G1, C, nth_error_map.
    destruct (Nat.ltb_spec i (length ns)); [reflexivity|].
    assert (X : nth_error ns i = None) by (apply nth_error_None; lia). now rewrite X.
  - rewrite G2. cbn [app]. transitivity (flat_map (part_idx post ns) (map to_nat_part ps)).
    + unfold part_idx at 1. rewrite (filter_flat_map_seq (spikes_at post ns) ps 0 _ Ht). cbn [N.to_nat]. rewrite Nat2N.id, Nat.sub_0_r.
      now rewrite filter_spikes.
    + apply Permutation_flat_map. now symmetry.
Qed.

(** ** A population up to its spike message *)
Definition same_front (x y : outcome (npop * list N)) : Prop :=
  match x, y with
  | Ret (b, f), Ret (b', f') => b = b' /\ Permutation f f'
  | Throw, Throw => True | UB, UB => True | _, _ => False
  end.
Lemma two32_63 n : (n <= two32)%N -> (n <= 2 ^ 63)%N.
Proof. intros H. change two32 with 4294967296%N in H. change (2 ^ 63)%N with 9223372036854775808%N. lia. Qed.
Lemma stdp_front_same {A} (pre : A -> A) imp post ms pp o (ns : list A) : (0 < pp < two64)%N -> (N.of_nat (length ns) <= two32)%N ->
  any_order pp (N.of_nat (length ns)) (fst o) -> any_order pp (N.of_nat (length ns)) (snd o) ->
  match stdp_front pre imp post ms ns, mt_stdp_front pre imp post ms o ns with
  | Ret (b, f), Ret (b', f') => b = b' /\ Permutation f f'
  | Throw, Throw => True | UB, UB => True | _, _ => False
  end.
Proof.
  intros Hp Hn H1 H2. apply two32_63 in Hn. unfold stdp_front, mt_stdp_front. rewrite (pre_part_all pre (imp true) post).
  rewrite (mt_pre_order pre pp (fst o) ns Hp Hn H1).
  destruct (impact_flagged imp (flagged ms) (map pre ns)) as [n1| |] eqn:E; cbn [obind]; auto.
  apply impact_flagged_len in E. rewrite map_length in E. rewrite <- E in Hn, H2.
  destruct (mt_post_order post pp (snd o) n1 Hp Hn H2) as (idx & -> & P).
  pose proof (post_part_all_states pre (imp true) post n1) as E1. pose proof (post_part_all_idx pre (imp true) post n1) as E2.
  destruct (post_part post 0 0 (length n1) n1) as [n2 idx2]. cbn [fst snd] in *. split; [exact E1|]. rewrite E2. now apply Permutation_map.
Qed.
Lemma front_same pp u step ms o a : (0 < pp < two64)%N -> (N.of_nat (size a) <= two32)%N ->
  any_order pp (N.of_nat (size a)) (fst o) -> any_order pp (N.of_nat (size a)) (snd o) ->
  same_front (Sched_Model.front u step ms a) (mt_front u step ms o a).
Proof.
  intros Hp Hn H1 H2. destruct a as [x|l|l]; cbn [Sched_Model.front mt_front].
  - assert (Hx : apop_size x = N.of_nat (size (NPlain x))) by (destruct x; reflexivity).
    pose proof (mt_apop_step_same pp u step ms o x Hp) as H. rewrite Hx in H. specialize (H Hn H1 H2).
    destruct (apop_step u step ms x) as [[a1 m1]| |], (mt_apop_step u step ms o x) as [[a2 m2]| |]; cbn [obind fst snd same_front]; auto.
    destruct H as [-> H]. split; [reflexivity|]. unfold same_spikes in H. destruct m1 as [[]|], m2 as [[]|]; try contradiction; try apply Permutation_refl. apply H.
  - pose proof (stdp_front_same (s_pre (bl_prestep true)) (s_impact bl_impact) (s_post bl_post) ms pp o l Hp Hn H1 H2) as H.
    destruct (stdp_front _ _ _ _ _) as [[b f]| |], (mt_stdp_front _ _ _ _ _ _) as [[b' f']| |]; cbn [obind fst snd same_front]; auto.
    destruct H as [-> H]. auto.
  - pose proof (stdp_front_same (s_pre (al_prestep true)) (s_impact al_impact) (s_post al_post) ms pp o l Hp Hn H1 H2) as H.
    destruct (stdp_front _ _ _ _ _) as [[b f]| |], (mt_stdp_front _ _ _ _ _ _) as [[b' f']| |]; cbn [obind fst snd same_front]; auto.
    destruct H as [-> H]. auto.
Qed.
(** What comes out before training is a proper task. *)
Lemma front_ok u step ms a b f : (N.of_nat (size a) <= two32)%N -> Sched_Model.front u step ms a = Ret (b, f) ->
  job_ok (mkJob u b f) /\ size b = size a /\ stdp_pop b = stdp_pop a.
Proof.
  intros Hs H. destruct a as [x|l|l]; cbn [Sched_Model.front] in H.
  - destruct (apop_step u step ms x) as [[x' o]| |] eqn:E; cbn [obind fst snd] in H; try discriminate. injection H as <- <-.
    destruct (apop_fired u step ms x x' o Hs E) as (_ & E2 & E3). split; [split; assumption|]. split; [eapply Net_Proofs3.apop_step_size; eauto|reflexivity].
  - destruct (stdp_front _ _ _ _ _) as [[ns sp]| |] eqn:E; cbn [obind fst snd] in H; try discriminate. injection H as <- <-. cbn [size] in *.
    destruct (stdp_front_spec _ _ _ _ _ _ _ E Hs) as (L' & E2 & E3). split; [split; assumption|]. auto.
  - destruct (stdp_front _ _ _ _ _) as [[ns sp]| |] eqn:E; cbn [obind fst snd] in H; try discriminate. injection H as <- <-. cbn [size] in *.
    destruct (stdp_front_spec _ _ _ _ _ _ _ E Hs) as (L' & E2 & E3). split; [split; assumption|]. auto.
Qed.
(** All populations, with one part each. *)
Fixpoint fronts (step : N) (ins : list (list message)) (pops : list (uid * npop)) : outcome (list job) :=
  match pops, ins with
  | (u, a) :: t, ms :: ins' =>
      obind (Sched_Model.front u step ms a) (fun y => obind (fronts step ins' t) (fun z => Ret (mkJob u (fst y) (snd y) :: z)))
  | _, _ => Ret []
  end.
Lemma fronts_same pp step : (0 < pp < two64)%N -> forall pops ins os, length ins = length pops ->
  Forall (fun e => (N.of_nat (size (snd e)) <= two32)%N) pops ->
  Forall2 (fun p o => any_order pp (N.of_nat (size (snd p))) (fst o) /\ any_order pp (N.of_nat (size (snd p))) (snd o)) pops os ->
  match fronts step ins pops, mt_fronts step ins os pops with
  | Ret jobs, Ret jobs' => Forall2 alike jobs jobs'
  | Throw, Throw => True | UB, UB => True | _, _ => False
  end.
Proof.
  intros Hp. induction pops as [|[u a] pops IH]; intros ins os L Hs Ho.
  - destruct ins, os; constructor.
  - destruct ins as [|ms ins]; [discriminate|]. inversion Ho as [|? o ? os' [H1 H2] Ho']; subst. apply Forall_cons_iff in Hs as [Hs1 Hs2].
    cbn [fronts mt_fronts snd] in *. pose proof (front_same pp u step ms o a Hp Hs1 H1 H2) as H.
    destruct (Sched_Model.front u step ms a) as [[b f]| |], (mt_front u step ms o a) as [[b' f']| |]; cbn [obind fst snd same_front] in *; try contradiction; auto.
    destruct H as [-> H]. cbn [length] in L. specialize (IH ins os' ltac:(lia) Hs2 Ho').
    destruct (fronts step ins pops), (mt_fronts step ins os' pops); cbn [obind]; try contradiction; auto. constructor; [|exact IH]. repeat split; auto.
Qed.
Lemma fronts_facts step : forall pops ins jobs, length ins = length pops ->
  Forall (fun e => (N.of_nat (size (snd e)) <= two32)%N) pops -> fronts step ins pops = Ret jobs ->
  Forall job_ok jobs /\ map jb_uid jobs = map fst pops /\ map (fun jb => size (jb_pop jb)) jobs = map (fun e => size (snd e)) pops /\
  job_uids jobs = stdp_uids pops.
Proof.
  induction pops as [|[u a] pops IH]; intros ins jobs L Hs H.
  - destruct ins; cbn [fronts] in H; injection H as <-; repeat split; constructor.
  - destruct ins as [|ms ins]; [discriminate|]. apply Forall_cons_iff in Hs as [Hs1 Hs2]. cbn [fronts snd length] in *.
    destruct (Sched_Model.front u step ms a) as [[b f]| |] eqn:E; cbn [obind fst snd] in H; try discriminate.
    destruct (fronts step ins pops) as [z| |] eqn:Ez; cbn [obind] in H; try discriminate. injection H as <-.
    destruct (IH ins z ltac:(lia) Hs2 Ez) as (I1 & I2 & I3 & I4). destruct (front_ok _ _ _ _ _ _ Hs1 E) as (F1 & F2 & F3).
    split; [now constructor|]. cbn [map jb_uid jb_pop fst snd]. split; [congruence|]. split; [congruence|].
    unfold job_uids, stdp_uids in *. cbn [filter jb_pop snd]. rewrite F3. destruct (stdp_pop a); cbn [map jb_uid fst]; congruence.
Qed.
(** Training after all populations or after each: the same. *)
Lemma npop_step_split pow2f u step ms a projs : npop_step pow2f u step ms a projs =
  obind (Sched_Model.front u step ms a) (fun y => obind (finalize pow2f step (mkJob u (fst y) (snd y)) projs) (fun r =>
    Ret (fst r, snd r, match a, snd y with NPlain _, _ => match apop_step u step ms (match a with NPlain x => x | _ => PopLif [] end) with Ret (_, o) => o | _ => None end | _, f => spike_message u step f end))).
Proof.
  destruct a as [x|l|l]; cbn [npop_step Sched_Model.front].
  - destruct (apop_step u step ms x) as [[x' o]| |]; reflexivity.
  - destruct (stdp_front _ _ _ _ _) as [[ns sp]| |]; cbn [obind fst snd finalize jb_pop jb_uid jb_fired]; try reflexivity.
    destruct (stdp_train _ _ _ _ _ _ _ _) as [[]| |]; reflexivity.
  - destruct (stdp_front _ _ _ _ _) as [[ns sp]| |]; cbn [obind fst snd finalize jb_pop jb_uid jb_fired]; try reflexivity.
    destruct (stdp_train _ _ _ _ _ _ _ _) as [[]| |]; reflexivity.
Qed.
Lemma npop_step_front pow2f u step ms a projs : (N.of_nat (size a) <= two32)%N -> npop_step pow2f u step ms a projs =
  obind (Sched_Model.front u step ms a) (fun y => obind (finalize pow2f step (mkJob u (fst y) (snd y)) projs) (fun r =>
    Ret (fst r, snd r, spike_message u step (snd y)))).
Proof.
  intros Hs. rewrite npop_step_split. destruct a as [x|l|l]; try reflexivity. cbn [Sched_Model.front].
  destruct (apop_step u step ms x) as [[x' o]| |] eqn:E; cbn [obind fst snd]; try reflexivity.
  destruct (finalize _ _ _ _) as [[]| |]; cbn [obind fst snd]; try reflexivity.
  destruct (apop_fired u step ms x x' o Hs E) as (E1 & _). cbv zeta in E1. now rewrite <- E1.
Qed.
Lemma in_turn_split pow2f step : forall pops ins projs, length ins = length pops ->
  Forall (fun e => (N.of_nat (size (snd e)) <= two32)%N) pops -> kinds_ok projs ->
  match fronts step ins pops with
  | Ret jobs => in_turn pow2f step ins pops projs =
      obind (train_jobs pow2f step jobs projs) (fun z => Ret (fst z, snd z, map (job_message step) jobs))
  | Throw => in_turn pow2f step ins pops projs = Throw
  | UB => in_turn pow2f step ins pops projs = UB
  end.
Proof.
  induction pops as [|[u a] pops IH]; intros ins projs L Hs Hk.
  - destruct ins; reflexivity.
  - destruct ins as [|ms ins]; [discriminate|]. apply Forall_cons_iff in Hs as [Hs1 Hs2]. cbn [fronts in_turn snd length] in *.
    rewrite (npop_step_front pow2f u step ms a projs Hs1).
    destruct (Sched_Model.front u step ms a) as [[b f]| |] eqn:E; cbn [obind fst snd]; try reflexivity.
    destruct (front_ok _ _ _ _ _ _ Hs1 E) as (F1 & _).
    destruct (finalize_spec pow2f step _ projs Hk F1) as (a' & projs1 & E1 & _ & K1 & _). rewrite E1. cbn [obind fst snd].
    specialize (IH ins projs1 ltac:(lia) Hs2 K1). destruct (fronts step ins pops) as [z| |]; cbn [obind]; try (rewrite IH; reflexivity).
    rewrite IH. cbn [train_jobs map jb_uid]. rewrite E1. cbn [obind fst snd]. destruct (train_jobs pow2f step z projs1) as [[]| |]; reflexivity.
Qed.

(** ** Training tasks in place *)
Section Train.
Variable pow2f : flt -> flt.
Definition nth_jobs (jobs : list job) (order : list nat) : list job :=
  flat_map (fun i => match nth_error jobs i with Some jb => [jb] | None => [] end) order.
Lemma nth_jobs_put jobs i x order : ~ In i order -> nth_jobs (put i x jobs) order = nth_jobs jobs order.
Proof.
  intros H. unfold nth_jobs. induction order as [|k order IH]; cbn [flat_map]; [reflexivity|]. rewrite IH by (intros Hx; apply H; now right).
  f_equal. rewrite put_nth. destruct (Nat.eqb_spec k i) as [->|]; [exfalso; apply H; now left|reflexivity].
Qed.
Lemma train_at_spec step : forall order jobs projs res projs', NoDup order -> (forall i, In i order -> i < length jobs) ->
  train_jobs pow2f step (nth_jobs jobs order) projs = Ret (res, projs') ->
  exists jobs', train_at pow2f step order jobs projs = Ret (jobs', projs') /\ length jobs' = length jobs /\
    map jb_uid jobs' = map jb_uid jobs /\ map jb_fired jobs' = map jb_fired jobs /\
    (forall i, ~ In i order -> nth_error jobs' i = nth_error jobs i) /\
    (forall k i, nth_error order k = Some i -> exists e jb', nth_error res k = Some e /\ nth_error jobs' i = Some jb' /\ jb_pop jb' = snd e).
Proof.
  induction order as [|i order IH]; intros jobs projs res projs' Hn Hi H; cbn [nth_jobs flat_map train_jobs train_at] in *.
  - injection H as <- <-. exists jobs. repeat split; auto. intros k i Hk. destruct k; discriminate.
  - apply NoDup_cons_iff in Hn as [Hni Hn]. fold (nth_jobs jobs order) in H.
    destruct (nth_error jobs i) as [jb|] eqn:E; [|apply nth_error_None in E; specialize (Hi i (or_introl eq_refl)); lia].
    cbn [app train_jobs] in H. destruct (finalize pow2f step jb projs) as [[a' projs1]| |] eqn:E1; cbn [obind fst snd] in *; try discriminate.
    destruct (train_jobs pow2f step (nth_jobs jobs order) projs1) as [[res1 projs2]| |] eqn:E2; cbn [obind fst snd] in *; try discriminate.
    injection H as <- <-. set (jobs1 := put i (mkJob (jb_uid jb) a' (jb_fired jb)) jobs).
    assert (Hlen : length jobs1 = length jobs) by apply put_len.
    destruct (IH jobs1 projs1 res1 projs2 Hn) as (jobs' & I1 & I2 & I3 & I4 & I5 & I6).
    { intros k Hk. rewrite Hlen. apply Hi. now right. }
    { unfold jobs1. rewrite nth_jobs_put by exact Hni. exact E2. }
    exists jobs'. split; [exact I1|]. split; [congruence|].
    assert (Hm : forall B (f : job -> B), f (mkJob (jb_uid jb) a' (jb_fired jb)) = f jb -> map f jobs1 = map f jobs).
    { intros B f Hf. unfold jobs1. rewrite map_put, Hf. apply put_same. rewrite nth_error_map, E. reflexivity. }
    split; [rewrite I3; now apply Hm|]. split; [rewrite I4; now apply Hm|]. split.
    + intros k Hk. rewrite I5 by (intros Hx; apply Hk; now right). unfold jobs1. rewrite put_nth.
      destruct (Nat.eqb_spec k i) as [->|]; [exfalso; apply Hk; now left|reflexivity].
    + intros k i0 Hk. destruct k as [|k]; cbn [nth_error] in *; [|eauto]. injection Hk as <-.
      exists (jb_uid jb, a'), (mkJob (jb_uid jb) a' (jb_fired jb)). split; [reflexivity|]. split; [|reflexivity].
      rewrite I5 by exact Hni. unfold jobs1. rewrite put_nth, Nat.eqb_refl.
      destruct (Nat.ltb_spec i (length jobs)); [reflexivity|specialize (Hi i (or_introl eq_refl)); lia].
Qed.
Lemma nth_jobs_perm jobs order : Permutation order (seq 0 (length jobs)) -> Permutation jobs (nth_jobs jobs order).
Proof.
  intros P. assert (E : jobs = nth_jobs jobs (seq 0 (length jobs))).
  { clear. unfold nth_jobs. assert (forall pre l, jobs = pre ++ l -> flat_map (fun i => match nth_error jobs i with Some jb => [jb] | None => [] end) (seq (length pre) (length l)) = l) as H.
    { intros pre l. revert pre. induction l as [|x l IH]; intros pre E; [reflexivity|]. cbn [length seq flat_map].
      rewrite E at 1. rewrite nth_error_app2, Nat.sub_diag by lia. cbn [nth_error app]. f_equal.
      specialize (IH (pre ++ [x])). rewrite app_length in IH. cbn [length] in IH. rewrite Nat.add_1_r in IH. apply IH. rewrite <- app_assoc. exact E. }
    symmetry. apply (H []). reflexivity. }
  rewrite E at 1. unfold nth_jobs. apply Permutation_flat_map. now symmetry.
Qed.
Lemma train_phase step jobs jobs' projs order : kinds_ok projs -> Forall job_ok jobs -> NoDup (map jb_uid jobs) ->
  Forall2 alike jobs jobs' -> Permutation order (seq 0 (length jobs)) ->
  exists res P jobs2 projs2, train_jobs pow2f step jobs projs = Ret (res, P) /\ train_at pow2f step order jobs' projs = Ret (jobs2, projs2) /\
    res = map (fun jb => (jb_uid jb, jb_pop jb)) jobs2 /\ map jb_uid jobs2 = map jb_uid jobs /\ map jb_fired jobs2 = map jb_fired jobs' /\
    map forget P = map forget projs2 /\ kinds_ok projs2 /\ Forall2 (projs_result (job_uids jobs)) projs projs2.
Proof.
  intros Hk Hj Hn Ha Ho.
  assert (Hu : map jb_uid jobs' = map jb_uid jobs) by (clear -Ha; induction Ha as [|a b t t' (H & _) _ IH]; cbn [map]; [reflexivity|now rewrite IH, H]).
  assert (Hl : length jobs' = length jobs) by (rewrite <- (map_length jb_uid jobs'), Hu; apply map_length).
  destruct (jobs_spec pow2f step jobs projs Hk Hj Hn) as (res & P & E1 & K1 & P1 & I1 & R1).
  assert (Hre : reordered jobs (nth_jobs jobs' order)).
  { exists (nth_jobs jobs order). split; [apply nth_jobs_perm; exact Ho|]. clear -Ha.
    unfold nth_jobs. induction order as [|i order IH]; cbn [flat_map]; [constructor|]. apply Forall2_app; [|exact IH].
    destruct (nth_error jobs i) as [jb|] eqn:E.
    - destruct (F2_nth _ _ _ Ha i jb E) as (jb' & -> & H). repeat constructor; apply H.
    - assert (nth_error jobs' i = None) as ->; [|constructor]. apply nth_error_None. apply nth_error_None in E. apply Forall2_len in Ha. lia. }
  destruct (jobs_reordered pow2f step jobs _ projs res P Hk Hj Hn Hre P1 R1) as (res' & projs2 & E2 & Hp & Hf).
  assert (Hj' : Forall job_ok (nth_jobs jobs' order)).
  { destruct Hre as (js & X1 & X2). assert (Hj1 : Forall job_ok js) by (eapply Permutation_Forall; eauto). change (Forall2 alike js (nth_jobs jobs' order)) in X2.
    clear -X2 Hj1. induction X2; [constructor|]. apply Forall_cons_iff in Hj1 as [H1 H2]. constructor; [eapply alike_ok; eauto|auto]. }
  assert (Hn' : NoDup (map jb_uid (nth_jobs jobs' order))).
  { eapply Permutation_NoDup; [apply Permutation_map, nth_jobs_perm; rewrite Hl; exact Ho|]. now rewrite Hu. }
  destruct (jobs_spec pow2f step _ projs Hk Hj' Hn') as (res2 & projs3 & E3 & K3 & P3 & I3 & R3).
  rewrite E2 in E3. injection E3 as <- <-.
  assert (Hno : NoDup order) by (eapply Permutation_NoDup; [symmetry; exact Ho|apply seq_NoDup]).
  assert (Hin : forall i, In i order <-> i < length jobs).
  { intros i. split; intros H; [apply (Permutation_in _ Ho) in H; apply in_seq in H; lia|].
    apply (Permutation_in _ (Permutation_sym Ho)). apply in_seq. lia. }
  destruct (train_at_spec step order jobs' projs res' projs2 Hno) as (jobs2 & T1 & T2 & T3 & T4 & _ & T6); [intros i; rewrite Hl; apply Hin|exact E2|].
  exists res, P, jobs2, projs2. split; [exact E1|]. split; [exact T1|]. split; [|split; [congruence|]; split; [exact T4|]; split; [exact Hf|]; split; [exact K3|]].
  - (* every population *)
    apply nth_error_ext. intros i. rewrite nth_error_map.
    destruct (nth_error jobs i) as [jb|] eqn:Ei.
    2:{ apply nth_error_None in Ei. rewrite (proj2 (nth_error_None jobs2 i)) by lia. cbn [option_map]. apply nth_error_None. apply Forall2_len in R1. lia. }
    destruct (F2_nth _ _ _ R1 i jb Ei) as ([u a] & Hres & Hu1 & Hr1). cbn [fst snd] in *. rewrite Hres.
    destruct (F2_nth _ _ _ Ha i jb Ei) as (jb' & Ei' & Hal).
    assert (Hio : In i order) by (apply Hin; apply nth_error_Some; congruence).
    apply In_nth_error in Hio as (k & Hk').
    destruct (T6 k i Hk') as (e & jb2 & Q1 & Q2 & Q3). rewrite Q2. cbn [option_map].
    assert (Hjk : nth_error (nth_jobs jobs' order) k = Some jb').
    { clear -Hk' Ei' Hin Hl. assert (Hall : forall i, In i order -> i < length jobs') by (intros x Hx; rewrite Hl; now apply Hin). clear Hin Hl.
      revert k Hk'. induction order as [|x order IH]; intros [|k] Hk; cbn [nth_error nth_jobs flat_map] in *; try discriminate.
      - injection Hk as ->. now rewrite Ei'.
      - destruct (nth_error jobs' x) as [y|] eqn:Ex; [|exfalso; apply nth_error_None in Ex; specialize (Hall x (or_introl eq_refl)); lia].
        cbn [app nth_error]. apply IH; auto. intros z Hz. apply Hall. now right. }
    destruct (F2_nth _ _ _ R3 k jb' Hjk) as (e' & Q4 & Q5 & Q6). rewrite Q1 in Q4. injection Q4 as <-.
    destruct Hal as (A1 & A2 & A3). destruct (job_determined pow2f step projs P projs2 jb jb' a (snd e) A1 A2 A3 Hr1 Q6) as [-> _].
    rewrite <- Q3. f_equal. f_equal. rewrite Hu1. assert (H : nth_error (map jb_uid jobs2) i = nth_error (map jb_uid jobs) i) by congruence.
    rewrite !nth_error_map, Q2, Ei in H. now injection H as ->.
  - assert (Hju : Permutation (job_uids (nth_jobs jobs' order)) (job_uids jobs)).
    { transitivity (job_uids jobs').
      - unfold job_uids. apply Permutation_map. apply Permutation_filter'. symmetry. apply nth_jobs_perm. rewrite Hl. exact Ho.
      - apply Permutation_refl'. unfold job_uids. clear -Ha. induction Ha as [|a b t t' (H1 & H2 & _) _ IH]; [reflexivity|].
        cbn [filter]. rewrite <- H2. destruct (stdp_pop (jb_pop a)); cbn [map]; congruence. }
    clear -P3 Hju. induction P3 as [|w w' t t' [H1 H2] _ IH]; constructor; [|exact IH]. split; [exact H1|]. intros Hw. apply H2.
    eapply Permutation_Forall; [symmetry; exact Hju|exact Hw].
Qed.
End Train.
