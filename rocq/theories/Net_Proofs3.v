(** The populations of a network in one step, and the bus. *)
From Verif Require Import Base ListLemmas Messaging_Model Messaging_Spec Messaging_Proofs Messaging_Proofs2 Projection_Model Projection_Spec Projection_Proofs
  Delta_Model Delta_Spec Delta_Proofs Neuron_Model Pipeline_Model Pipeline_Spec Pipeline_Proofs Pipeline_Proofs2
  Stdp_Model Additive_Model Additive_Spec Additive_Proofs Train_Model Train_Proofs Net_Model Net_Spec Net_Proofs Net_Proofs2.

Section Net.
Variables pow2f expf : flt -> flt.

(** ** One population *)
Definition neurons_result {A} (view : A -> tview) (write : A -> tview -> A) (u : uid) (step : N) (spikes : list N)
    (projs projs' : list nproj) (ns ns' : list A) : Prop :=
  length ns' = length ns /\
  (forall i n, nth_error ns i = Some n -> exists v, nth_error ns' i = Some (write n v) /\
     (v, incoming u (N.of_nat i) projs') =
       train_n pow2f step (existsb (N.eqb (N.of_nat i)) spikes) (view n) (incoming u (N.of_nat i) projs)) /\
  (forall j, (N.of_nat (length ns) <= j)%N -> incoming u j projs' = incoming u j projs).
Definition bl_front := stdp_front (s_pre (bl_prestep true)) (s_impact bl_impact) (s_post bl_post).
Definition al_front := stdp_front (s_pre (al_prestep true)) (s_impact al_impact) (s_post al_post).
Definition pop_result (u : uid) (step : N) (ms : list message) (projs projs' : list nproj) (a a' : npop) (o : option message) : Prop :=
  match a, a' with
  | NPlain x, NPlain x' => apop_step u step ms x = Ret (x', o)
  | NStdpBlifat l, NStdpBlifat l' => exists ns spikes, bl_front ms l = Ret (ns, spikes) /\ o = spike_message u step spikes /\
      neurons_result bl_view bl_write u step spikes projs projs' ns l'
  | NStdpAltai l, NStdpAltai l' => exists ns spikes, al_front ms l = Ret (ns, spikes) /\ o = spike_message u step spikes /\
      neurons_result al_view al_write u step spikes projs projs' ns l'
  | _, _ => False
  end.
Definition projs_result (us : list uid) (w w' : nproj) : Prop :=
  kept w w' /\ (Forall (fun u => working u w = None) us -> w' = w).
Definition kinds_ok (projs : list nproj) : Prop := Forall (fun w => kind_ok (np_kind w)) projs.

Lemma spike_message_type u step spikes : spike_only (sent_msgs [spike_message u step spikes]).
Proof. destruct spikes; cbn; repeat constructor. Qed.
Lemma apop_step_size u step ms a a' o : apop_step u step ms a = Ret (a', o) -> size (NPlain a') = size (NPlain a).
Proof.
  assert (Hg : forall P S (pre : (P*S) -> (P*S)) imp post (l : list (P*S)) r, population_step pre imp post u step ms l = Ret r ->
     length (fst (fst r)) = length l).
  { intros P S pre imp post l r H. unfold population_step in H. rewrite (Neuron_Proofs2.pre_part_all pre imp post) in H.
    destruct (impact_population imp (impacts_of ms) (map pre l)) as [n1| |] eqn:E; cbn [obind] in H; try discriminate.
    assert (L : length n1 = length l).
    { rewrite <- (map_length pre l). revert E. generalize (map pre l). generalize (impacts_of ms).
      induction l0 as [|i t IH]; intros l1 E; cbn [impact_population] in E; [now injection E as <-|].
      destruct (update_at _ _ _) as [n2| |] eqn:E2; cbn [obind] in E; try discriminate. rewrite (IH _ E). eapply update_at_len; eauto. }
    pose proof (Neuron_Proofs2.post_part_length post n1 0 0 (length n1)) as L2. destruct (post_part post 0 0 (length n1) n1) as [n2 idx].
    injection H as <-. cbn [fst] in *. congruence. }
  intros H. unfold apop_step in H. destruct a as [l|l|l]; match type of H with obind ?e _ = _ => destruct e as [r| |] eqn:E end;
    cbn [obind] in H; try discriminate; injection H as <- <-; cbn [size]; exact (Hg _ _ _ _ _ _ _ E).
Qed.

Lemma npop_step_spec u step ms a projs a' projs' o : kinds_ok projs -> (N.of_nat (size a) <= two32)%N ->
  npop_step pow2f u step ms a projs = Ret (a', projs', o) ->
  pop_result u step ms projs projs' a a' o /\ size a' = size a /\ spike_only (sent_msgs [o]) /\ kinds_ok projs' /\
  Forall2 (projs_result (if stdp_pop a then [u] else [])) projs projs' /\
  (forall v n, v <> u -> incoming v n projs' = incoming v n projs).
Proof.
  intros Hk Hs H. destruct a as [x|l|l]; cbn [npop_step] in H.
  - destruct (apop_step u step ms x) as [[x' o']| |] eqn:E; cbn [obind fst snd] in H; try discriminate. injection H as <- <- <-.
    split; [exact E|]. split; [eapply apop_step_size; eauto|]. split; [eapply apop_step_type; eauto|]. split; [exact Hk|].
    split; [|auto]. clear. induction projs; constructor; auto. split; [apply kept_refl|reflexivity].
  - destruct (stdp_front _ _ _ ms l) as [[ns spikes]| |] eqn:E; cbn [obind fst snd] in H; try discriminate.
    destruct (stdp_front_spec _ _ _ _ _ _ _ E Hs) as (L & Hn & Hr).
    destruct (stdp_train_spec pow2f bl_view bl_write u step spikes ns projs Hk Hn Hr) as (ns' & projs1 & Et & L' & Hk' & Hkept & Hall & Hout).
    rewrite Et in H. cbn [obind fst snd] in H. injection H as <- <- <-.
    split; [|split; [cbn [size]; congruence|split; [apply spike_message_type|split; [exact Hk'|split]]]].
    + cbn [pop_result]. exists ns, spikes. split; [exact E|]. split; [reflexivity|]. split; [exact L'|]. auto.
    + cbn [stdp_pop]. clear -Hkept. induction Hkept as [|w w' t t' [K Hw] _ IH]; constructor; auto. split; [exact K|].
      intros Hf. apply Hw. now inversion Hf.
    + intros v n Hv. eapply incoming_other; eauto.
  - destruct (stdp_front _ _ _ ms l) as [[ns spikes]| |] eqn:E; cbn [obind fst snd] in H; try discriminate.
    destruct (stdp_front_spec _ _ _ _ _ _ _ E Hs) as (L & Hn & Hr).
    destruct (stdp_train_spec pow2f al_view al_write u step spikes ns projs Hk Hn Hr) as (ns' & projs1 & Et & L' & Hk' & Hkept & Hall & Hout).
    rewrite Et in H. cbn [obind fst snd] in H. injection H as <- <- <-.
    split; [|split; [cbn [size]; congruence|split; [apply spike_message_type|split; [exact Hk'|split]]]].
    + cbn [pop_result]. exists ns, spikes. split; [exact E|]. split; [reflexivity|]. split; [exact L'|]. auto.
    + cbn [stdp_pop]. clear -Hkept. induction Hkept as [|w w' t t' [K Hw] _ IH]; constructor; auto. split; [exact K|].
      intros Hf. apply Hw. now inversion Hf.
    + intros v n Hv. eapply incoming_other; eauto.
Qed.

(** ** All populations, each with its messages *)
Fixpoint npops_alone (step : N) (inbox : uid -> list message) (pops : list (uid * npop)) (projs : list nproj)
  : outcome (list (uid * npop) * list nproj * list (option message)) :=
  match pops with
  | [] => Ret ([], projs, [])
  | (u, a) :: t =>
      obind (npop_step pow2f u step (inbox u) a projs) (fun y =>
      let '(a', projs1, o) := y in
      obind (npops_alone step inbox t projs1) (fun z =>
        let '(t', projs2, outs) := z in Ret ((u, a') :: t', projs2, o :: outs)))
  end.
Definition stdp_uids (pops : list (uid * npop)) : list uid := map fst (filter (fun e => stdp_pop (snd e)) pops).

Lemma working_kept u w w' : kept w w' -> working u w = None -> working u w' = None.
Proof.
  intros (_ & _ & K3 & K4 & _ & K6). unfold working. rewrite K3, K4.
  destruct (np_kind w), (np_kind w'); try contradiction; try reflexivity. destruct (_ && _); [discriminate|reflexivity].
Qed.
Lemma projs_result_trans us vs a b c : projs_result us a b -> projs_result vs b c -> projs_result (us ++ vs) a c.
Proof.
  intros [K1 H1] [K2 H2]. split; [eapply kept_trans; eauto|]. intros Hf. apply Forall_app in Hf as [Hu Hv].
  rewrite H2; [now apply H1|]. eapply Forall_impl; [|exact Hv]. intros u. now apply working_kept.
Qed.
(** What a population finds before and leaves after its own training is what is
    there before and after the training of all. *)
Lemma pop_result_ext u step ms p1 p2 q1 q2 a a' o :
  (forall n, incoming u n q1 = incoming u n p1) -> (forall n, incoming u n q2 = incoming u n p2) ->
  pop_result u step ms p1 p2 a a' o -> pop_result u step ms q1 q2 a a' o.
Proof.
  intros H1 H2. destruct a as [x|l|l], a' as [x'|l'|l']; cbn [pop_result]; auto.
  - intros (ns & spikes & E & Eo & L & Hall & Hout). exists ns, spikes. split; [exact E|]. split; [exact Eo|]. split; [exact L|]. split.
    + intros i n Hi. rewrite H1, H2. auto.
    + intros j Hj. rewrite H1, H2. auto.
  - intros (ns & spikes & E & Eo & L & Hall & Hout). exists ns, spikes. split; [exact E|]. split; [exact Eo|]. split; [exact L|]. split.
    + intros i n Hi. rewrite H1, H2. auto.
    + intros j Hj. rewrite H1, H2. auto.
Qed.

Lemma npops_facts step inbox : forall pops projs pops' projs' outs,
  NoDup (map fst pops) -> Forall (fun e => (N.of_nat (size (snd e)) <= two32)%N) pops -> kinds_ok projs ->
  npops_alone step inbox pops projs = Ret (pops', projs', outs) ->
  map fst pops' = map fst pops /\ map (fun e => size (snd e)) pops' = map (fun e => size (snd e)) pops /\
  stdp_uids pops' = stdp_uids pops /\
  spike_only (sent_msgs outs) /\ kinds_ok projs' /\
  Forall2 (projs_result (stdp_uids pops)) projs projs' /\
  (forall v n, ~ In v (map fst pops) -> incoming v n projs' = incoming v n projs) /\
  (forall i u a, nth_error pops i = Some (u, a) -> exists a' o, nth_error pops' i = Some (u, a') /\ nth_error outs i = Some o /\
     pop_result u step (inbox u) projs projs' a a' o).
Proof.
  induction pops as [|[u a] t IH]; intros projs pops' projs' outs Hn Hs Hk H; cbn [npops_alone] in H.
  - injection H as <- <- <-. repeat split; auto.
    + constructor.
    + clear. induction projs; constructor; auto. split; [apply kept_refl|reflexivity].
    + intros i u a Hi. destruct i; discriminate.
  - cbn [map fst] in Hn. apply NoDup_cons_iff in Hn as [Hni Hn]. apply Forall_cons_iff in Hs as [Hsa Hs]. cbn [snd] in Hsa.
    destruct (npop_step pow2f u step (inbox u) a projs) as [[[a' projs1] o]| |] eqn:E; cbn [obind] in H; try discriminate.
    destruct (npops_alone step inbox t projs1) as [[[t' projs2] os]| |] eqn:E'; cbn [obind] in H; try discriminate.
    injection H as <- <- <-.
    destruct (npop_step_spec u step (inbox u) a projs a' projs1 o Hk Hsa E) as (R1 & Z1 & T1 & K1 & P1 & I1).
    destruct (IH projs1 t' projs2 os Hn Hs K1 E') as (F1 & F2 & F2' & F3 & F4 & F5 & F6 & F7).
    assert (Hst : stdp_pop a' = stdp_pop a) by (destruct a, a'; cbn [pop_result] in R1; try contradiction; reflexivity).
    split; [cbn [map fst]; congruence|]. split; [cbn [map snd]; congruence|]. split; [|split; [|split; [exact F4|split; [|split]]]].
    + unfold stdp_uids in *. cbn [filter snd]. rewrite Hst. destruct (stdp_pop a); cbn [map fst]; congruence.
    + rewrite sent_msgs_cons. apply Forall_app. auto.
    + assert (Hc : stdp_uids ((u, a) :: t) = (if stdp_pop a then [u] else []) ++ stdp_uids t).
      { unfold stdp_uids. cbn [filter snd]. destruct (stdp_pop a); reflexivity. }
      rewrite Hc. eapply Forall2_trans3; [|exact P1|exact F5]. intros x y z. apply projs_result_trans.
    + intros v n Hv. cbn [map fst In] in Hv. rewrite F6 by tauto. apply I1. intros ->. tauto.
    + intros i v b Hi. destruct i as [|i]; cbn [nth_error] in *.
      * injection Hi as <- <-. exists a', o. split; [reflexivity|]. split; [reflexivity|].
        eapply pop_result_ext; [| |exact R1]; [reflexivity|]. intros n. now apply F6.
      * destruct (F7 i v b Hi) as (b' & o' & H1 & H2 & H3). exists b', o'. split; [exact H1|]. split; [exact H2|].
        assert (Hv : v <> u). { intros ->. apply Hni. apply nth_error_In in Hi. apply (in_map fst) in Hi. exact Hi. }
        eapply pop_result_ext; [| |exact H3]; [|reflexivity]. intros n. symmetry. now apply I1.
Qed.
Lemma npops_alone_ext step inbox inbox' : forall pops projs, (forall u, In u (map fst pops) -> inbox u = inbox' u) ->
  npops_alone step inbox pops projs = npops_alone step inbox' pops projs.
Proof.
  induction pops as [|[u a] t IH]; intros projs H; [reflexivity|]. cbn [npops_alone map fst] in *.
  rewrite (H u) by now left. destruct (npop_step _ _ _ _ _ _) as [[[a' p1] o]| |]; cbn [obind]; try reflexivity.
  rewrite IH by (intros v Hv; apply H; now right). reflexivity.
Qed.

(** ** All projections *)
Fixpoint nprojs_alone (step : N) (inbox : nproj -> list message) (projs : list nproj)
  : outcome (list nproj * list (option message)) :=
  match projs with
  | [] => Ret ([], [])
  | w :: t =>
      obind (nproj_step expf step (inbox w) w) (fun y =>
      obind (nprojs_alone step inbox t) (fun z => Ret (fst y :: fst z, snd y :: snd z)))
  end.
Lemma nprojs_alone_ext step inbox inbox' : forall projs, (forall w, In w projs -> inbox w = inbox' w) ->
  nprojs_alone step inbox projs = nprojs_alone step inbox' projs.
Proof.
  induction projs as [|w t IH]; intros H; [reflexivity|]. cbn [nprojs_alone].
  rewrite (H w) by now left. rewrite IH by (intros v Hv; apply H; now right). reflexivity.
Qed.
Lemma nprojs_facts step inbox : forall projs, Forall nproj_ok projs ->
  exists projs' outs, nprojs_alone step inbox projs = Ret (projs', outs) /\
  Forall nproj_ok projs' /\ impact_only (sent_msgs outs) /\ map fixed projs' = map fixed projs /\
  forall j w, nth_error projs j = Some w -> exists w' o, nth_error projs' j = Some w' /\ nth_error outs j = Some o /\
    nproj_step expf step (inbox w) w = Ret (w', o).
Proof.
  induction projs as [|w t IH]; intros Hk; cbn [nprojs_alone].
  - exists [], []. repeat split; auto. + constructor. + intros j w Hj. destruct j; discriminate.
  - apply Forall_cons_iff in Hk as [Hw Hk]. destruct (IH Hk) as (projs' & outs & E & K & T & Fx & Hall).
    destruct (nproj_step_spec expf step (inbox w) w (proj1 Hw)) as (k' & q' & o & dp & Es & _).
    destruct (nproj_step_queue expf step (inbox w) w _ _ Hw Es) as [Ho Hi].
    exists (np_with w k' q' :: projs'), (o :: outs). rewrite Es, E. cbn [obind fst snd].
    split; [reflexivity|]. split; [constructor; assumption|]. split; [rewrite sent_msgs_cons; apply Forall_app; auto|]. split.
    + cbn [map]. rewrite Fx. f_equal. exact (nproj_step_fixed expf step (inbox w) w _ _ (proj1 Hw) Es).
    + intros j v Hj. destruct j as [|j]; cbn [nth_error] in *; [|now apply Hall]. injection Hj as <-. eauto.
Qed.

(** ** The two loops on the bus *)
Section Good.
Variable S_ : nat -> uid -> option (list uid).
Lemma npops_phase_eq step : forall pops projs b, good S_ b -> own_only b -> NoDup (map fst pops) ->
  match npops_alone step (waiting b 1) pops projs with
  | Ret (pops', projs', outs) => exists b',
      npops_phase pow2f step pops projs b = Ret (pops', projs', b', map (fun p => waiting b 1 (fst p)) pops, outs) /\
      good S_ b' /\ own_only b' /\ own_sent b' = own_sent b ++ sent_msgs outs /\
      (forall r, waiting b' 0 r = waiting b 0 r) /\
      (forall r, waiting b' 1 r = if mem r (map fst pops) then [] else waiting b 1 r)
  | Throw => npops_phase pow2f step pops projs b = Throw
  | UB => npops_phase pow2f step pops projs b = UB
  end.
Proof.
  induction pops as [|[u a] pops IH]; intros projs b G Ho Hn; cbn [npops_alone npops_phase map].
  - exists b. cbn [sent_msgs flat_map mem]. rewrite app_nil_r. split; [reflexivity|auto].
  - cbn [map fst] in Hn. inversion Hn as [|? ? Hni Hn']; subst.
    destruct (unload_good S_ b 1 u G) as (b1 & E1 & G1 & W1 & P1 & S1 & O1). specialize (O1 Ho).
    rewrite E1. cbn [obind fst snd].
    destruct (npop_step pow2f u step (waiting b 1 u) a projs) as [[[a' projs1] o]| |]; cbn [obind fst snd]; try reflexivity.
    destruct (send_good S_ b1 o G1) as (b2 & E2 & G2 & O2 & W2 & S2). specialize (O2 O1). rewrite E2. cbn [obind].
    specialize (IH projs1 b2 G2 O2 Hn').
    assert (Hin : forall r, In r (map fst pops) -> waiting b2 1 r = waiting b 1 r).
    { intros r Hr. rewrite W2, W1, key_same_ty. destruct (N.eqb_spec r u) as [E|E]; [|reflexivity]. subst. contradiction. }
    rewrite (npops_alone_ext step (waiting b2 1) (waiting b 1) pops projs1 Hin) in IH.
    destruct (npops_alone step (waiting b 1) pops projs1) as [[[pops' projs2] outs]| |]; cbn [obind fst snd].
    + destruct IH as (b' & E & G' & O' & S' & W0' & W1'). exists b'. rewrite E. cbn [obind].
      split; [|split; [exact G'|split; [exact O'|split; [|split]]]].
      * do 3 f_equal. cbn [fst]. f_equal. apply map_ext_in. intros p Hp. apply Hin. now apply in_map.
      * rewrite S', S2, S1, (sent_msgs_cons o outs), app_assoc. reflexivity.
      * intros r. rewrite W0', W2, W1. reflexivity.
      * intros r. rewrite W1', W2, W1, key_same_ty. cbn [fst]. unfold mem at 2. cbn [existsb]. fold (mem r (map fst pops)).
        destruct (mem r (map fst pops)); [now rewrite orb_true_r|]. rewrite orb_false_r. reflexivity.
    + rewrite IH. reflexivity.
    + rewrite IH. reflexivity.
Qed.
Lemma nprojs_phase_eq step : forall projs b, good S_ b -> own_only b -> NoDup (map np_uid projs) ->
  match nprojs_alone step (fun w => waiting b 0 (np_uid w)) projs with
  | Ret (projs', outs) => exists b',
      nprojs_phase expf step projs b = Ret (projs', b', map (fun w => waiting b 0 (np_uid w)) projs, outs) /\
      good S_ b' /\ own_only b' /\ own_sent b' = own_sent b ++ sent_msgs outs /\
      (forall r, waiting b' 1 r = waiting b 1 r) /\
      (forall r, waiting b' 0 r = if mem r (map np_uid projs) then [] else waiting b 0 r)
  | Throw => nprojs_phase expf step projs b = Throw
  | UB => nprojs_phase expf step projs b = UB
  end.
Proof.
  induction projs as [|w projs IH]; intros b G Ho Hn; cbn [nprojs_alone nprojs_phase map].
  - exists b. cbn [sent_msgs flat_map mem]. rewrite app_nil_r. split; [reflexivity|auto].
  - cbn [map] in Hn. inversion Hn as [|? ? Hni Hn']; subst.
    destruct (unload_good S_ b 0 (np_uid w) G) as (b1 & E1 & G1 & W1 & P1 & S1 & O1). specialize (O1 Ho).
    rewrite E1. cbn [obind fst snd].
    destruct (nproj_step expf step (waiting b 0 (np_uid w)) w) as [[w' o]| |]; cbn [obind fst snd]; try reflexivity.
    destruct (send_good S_ b1 o G1) as (b2 & E2 & G2 & O2 & W2 & S2). specialize (O2 O1). rewrite E2. cbn [obind].
    specialize (IH b2 G2 O2 Hn').
    assert (Hin : forall v, In v projs -> waiting b2 0 (np_uid v) = waiting b 0 (np_uid v)).
    { intros v Hv. rewrite W2, W1, key_same_ty. destruct (N.eqb_spec (np_uid v) (np_uid w)) as [E|E]; [|reflexivity].
      exfalso. apply Hni. rewrite <- E. now apply in_map. }
    rewrite (nprojs_alone_ext step _ (fun w => waiting b 0 (np_uid w)) projs Hin) in IH.
    destruct (nprojs_alone step (fun w => waiting b 0 (np_uid w)) projs) as [[projs' outs]| |]; cbn [obind fst snd].
    + destruct IH as (b' & E & G' & O' & S' & W0' & W1'). exists b'. rewrite E. cbn [obind].
      split; [|split; [exact G'|split; [exact O'|split; [|split]]]].
      * do 3 f_equal. f_equal. apply map_ext_in. exact Hin.
      * rewrite S', S2, S1, (sent_msgs_cons o outs), app_assoc. reflexivity.
      * intros r. rewrite W0', W2, W1. reflexivity.
      * intros r. rewrite W1', W2, W1, key_same_ty. unfold mem at 2. cbn [existsb].
        fold (mem r (map np_uid projs)). destruct (mem r (map _ projs)); [now rewrite orb_true_r|]. rewrite orb_false_r. reflexivity.
    + rewrite IH. reflexivity.
    + rewrite IH. reflexivity.
Qed.
End Good.
End Net.

(** ** Initial subscriptions *)
Definition ninit_from (projs : list nproj) (ty : nat) (r x : uid) : Prop :=
  exists w, In w projs /\
    ((ty = 0 /\ np_uid w = r /\ x <> 0%N /\ (np_pre w = x \/ In x (map fst (stdp_pops w)))) \/
     (ty = 1 /\ np_post w <> 0%N /\ np_post w = r /\ np_uid w = x)).
Lemma stdp_senders ty r x u : forall l acc,
  In x (sender_list (fold_left (hist_step 0 ty r)
    (flat_map (fun e : uid * processing => if N.eqb (fst e) 0 then [] else [OSubscribe 0 0 u [fst e]]) l) acc)) <->
  In x (sender_list acc) \/ (ty = 0 /\ u = r /\ x <> 0%N /\ In x (map fst l)).
Proof.
  induction l as [|e l IH]; intros acc; cbn [flat_map]; [cbn [fold_left map In]; tauto|].
  rewrite fold_left_app, IH. cbn [map In]. destruct (N.eqb_spec (fst e) 0) as [E|E]; cbn [fold_left].
  - split; [intuition|]. intros [H|(H1 & H2 & H3 & [H4|H4])]; [auto|exfalso; congruence|tauto].
  - rewrite sub_step_senders. cbn [In]. split.
    + intros [[H|(H1 & H2 & [H3|[]])]|H]; [auto| |tauto]. right. subst x. auto.
    + intros [H|(H1 & H2 & H3 & [H4|H4])]; [auto|left; right; auto|tauto].
Qed.
Lemma ninit_senders ty r x : forall projs acc,
  In x (sender_list (fold_left (hist_step 0 ty r) (ninit_ops projs) acc)) <->
  In x (sender_list acc) \/ ninit_from projs ty r x.
Proof.
  unfold ninit_ops. induction projs as [|w t IH]; intros acc; cbn [flat_map].
  - cbn [fold_left]. unfold ninit_from. firstorder.
  - rewrite fold_left_app, IH. unfold ninit_proj. rewrite !fold_left_app.
    assert (Hc : ninit_from (w :: t) ty r x <->
      ((ty = 0 /\ np_uid w = r /\ x <> 0%N /\ (np_pre w = x \/ In x (map fst (stdp_pops w)))) \/
       (ty = 1 /\ np_post w <> 0%N /\ np_post w = r /\ np_uid w = x)) \/ ninit_from t ty r x).
    { unfold ninit_from. split.
      - intros (w' & [<-|Hin] & H); [now left|right; eauto].
      - intros [H|(w' & Hin & H)]; [exists w; split; [now left|exact H]|exists w'; split; [now right|exact H]]. }
    rewrite Hc. clear Hc IH.
    destruct (N.eqb_spec (np_pre w) 0) as [E|E]; destruct (N.eqb_spec (np_post w) 0) as [E'|E'];
      cbn [fold_left]; rewrite ?sub_step_senders, stdp_senders; cbn [In]; intuition congruence.
Qed.
Definition nS0 (extra : list subscr) (projs : list nproj) (ty : nat) (r : uid) : option (list uid) :=
  hist_senders (OCreate :: extra_ops extra ++ ninit_ops projs) 0 ty r.
Lemma nS0_mem extra projs ty r x : mem x (sender_list (nS0 extra projs ty r)) = true <->
  ninit_from projs ty r x \/ subscribed extra ty r x = true.
Proof.
  rewrite mem_In. unfold nS0, hist_senders. cbn [fold_left hist_step]. rewrite fold_left_app, ninit_senders, extra_senders, subscribed_iff.
  cbn [sender_list In]. intuition.
Qed.
Lemma nS0_population extra projs u m : wanted 1 (sender_list (nS0 extra projs 1 u)) m = to_population (map np_head projs) extra u m.
Proof.
  destruct m as [s t idx|s t pre post f imps]; unfold wanted; cbn [msg_type msg_sender to_population Nat.eqb andb]; [reflexivity|].
  apply bool_ext. rewrite nS0_mem, orb_true_iff, andb_true_iff, negb_true_iff, N.eqb_neq, existsb_exists. unfold ninit_from. split.
  - intros [(w & Hin & [[H _]|(_ & H1 & H2 & H3)])|H]; [discriminate| |now right]. left. split; [congruence|].
    exists (np_head w). split; [now apply in_map|]. cbn [np_head ph_uid ph_post]. rewrite H2, H3, !N.eqb_refl. reflexivity.
  - intros [(Hu & h & Hin & Hb)|H]; [left|now right]. apply in_map_iff in Hin as (w & <- & Hin). exists w. split; [exact Hin|]. right.
    apply andb_true_iff in Hb as [H1 H2]. apply N.eqb_eq in H1, H2. cbn [np_head ph_uid ph_post] in *. rewrite H2. auto.
Qed.
Lemma nS0_projection extra projs w m : NoDup (map np_uid projs) -> In w projs ->
  wanted 0 (sender_list (nS0 extra projs 0 (np_uid w))) m = to_nproj extra w m.
Proof.
  intros Hn Hw. destruct m as [s t idx|s t pre post f imps]; unfold wanted; cbn [msg_type msg_sender to_nproj Nat.eqb andb]; [|reflexivity].
  apply bool_ext. rewrite nS0_mem, orb_true_iff, andb_true_iff, negb_true_iff, orb_true_iff, N.eqb_neq, N.eqb_eq, existsb_exists. unfold ninit_from. split.
  - intros [(w' & Hin & [(_ & H1 & H2 & H3)|[H _]])|H]; [|discriminate|now right]. left.
    assert (w' = w) by (apply (NoDup_map_inj np_uid projs); auto). subst w'. split; [exact H2|]. destruct H3 as [H3|H3]; [left; congruence|right].
    apply in_map_iff in H3 as (e & He & Hi). exists e. split; [exact Hi|]. apply N.eqb_eq. now symmetry.
  - intros [[H1 H2]|H]; [left|now right]. exists w. split; [exact Hw|]. left. split; [reflexivity|]. split; [reflexivity|]. split; [exact H1|].
    destruct H2 as [H2|(e & He & Hi)]; [left; congruence|right]. apply N.eqb_eq in Hi. apply in_map_iff. exists e. auto.
Qed.
