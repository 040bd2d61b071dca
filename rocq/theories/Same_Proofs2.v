(** Proofs about runs on the two CPU backends, continued: whole runs. *)
From Verif Require Import Base ListLemmas Messaging_Model Messaging_Spec Projection_Model Projection_Spec Projection_Proofs
  Delta_Model Delta_Spec Delta_Proofs Delta_Proofs2 Neuron_Model Neuron_Spec Pipeline_Model Pipeline_Spec Pipeline_Proofs Pipeline_Proofs2
  Stdp_Model Additive_Model Additive_Spec Additive_Proofs Train_Model Train_Proofs Net_Model Net_Spec Net_Proofs Net_Proofs2 Net_Proofs3 Net_Proofs4 Net_Proofs5
  Mt_Model Mt_Spec Mt_Proofs Mt_Proofs2 Sched_Model Sched_Proofs MtNet_Model MtNet_Spec MtNet_Proofs MtNet_Proofs2 MtNet_Proofs3 MtSafe_Proofs Same_Spec Same_Proofs.

(** ** Lengths *)
Lemma npops_len pow2f step : forall pops projs b x, npops_phase pow2f step pops projs b = Ret x -> length (snd x) = length pops.
Proof.
  induction pops as [|[u a] pops IH]; intros projs b x H; cbn [npops_phase] in H; [injection H as <-; reflexivity|].
  destruct (unload_own b 1 u) as [x0| |]; cbn [obind] in H; try discriminate.
  destruct (npop_step pow2f u step (snd x0) a projs) as [[[a' p1] o]| |]; cbn [obind] in H; try discriminate.
  destruct (send_own (fst x0) o) as [b2| |]; cbn [obind] in H; try discriminate.
  destruct (npops_phase pow2f step pops p1 b2) as [[[[[t' p2] b3] ins] outs]| |] eqn:E; cbn [obind] in H; try discriminate.
  injection H as <-. cbn [snd length]. f_equal. exact (IH _ _ _ E).
Qed.
Lemma nprojs_len expf step : forall projs b x, nprojs_phase expf step projs b = Ret x -> length (snd x) = length projs.
Proof.
  induction projs as [|w projs IH]; intros b x H; cbn [nprojs_phase] in H; [injection H as <-; reflexivity|].
  destruct (unload_own b 0 (np_uid w)) as [x0| |]; cbn [obind] in H; try discriminate.
  destruct (nproj_step expf step (snd x0) w) as [y| |]; cbn [obind] in H; try discriminate.
  destruct (send_own (fst x0) (snd y)) as [b2| |]; cbn [obind] in H; try discriminate.
  destruct (nprojs_phase expf step projs b2) as [[[[t' b3] ins] outs]| |] eqn:E; cbn [obind] in H; try discriminate.
  injection H as <-. cbn [snd length]. f_equal. exact (IH _ _ E).
Qed.
Lemma run_len pow2f expf : forall turns k k' tr, nbackend_run pow2f expf turns k = Ret (k', tr) -> forall r, In r tr ->
  length (r_pop_out (nr_msgs r)) = length (nr_pops r) /\ length (r_proj_out (nr_msgs r)) = length (nr_trained r).
Proof.
  induction turns as [|u turns IH]; intros k k' tr H r Hr; cbn [nbackend_run] in H; [injection H as _ <-; contradiction|].
  destruct (run (nb_bus k) (tu_ops u)) as [[b trb]| |]; cbn [obind fst] in H; try discriminate.
  destruct (nbackend_step pow2f expf (pending b) _) as [[k1 r1]| |] eqn:E; cbn [obind fst snd] in H; try discriminate.
  destruct (nbackend_run pow2f expf turns k1) as [[k2 tr2]| |] eqn:E2; cbn [obind fst snd] in H; try discriminate. injection H as _ <-.
  destruct Hr as [<-|Hr]; [|exact (IH _ _ _ E2 r Hr)].
  unfold nbackend_step in E. cbn [nb_bus nb_pops nb_projs nb_step] in E. destruct (route_receive_own b) as [b1| |]; cbn [obind] in E; try discriminate.
  destruct (npops_phase pow2f _ _ _ b1) as [[[[[pops' projs1] b2] pin] pout]| |] eqn:E3; cbn [obind] in E; try discriminate.
  destruct (route_receive_own b2) as [b3| |]; cbn [obind] in E; try discriminate.
  destruct (nprojs_phase expf _ projs1 b3) as [[[[projs' b4] jin] jout]| |] eqn:E4; cbn [obind] in E; try discriminate.
  destruct (route_receive_own b4) as [b5| |]; cbn [obind] in E; try discriminate. injection E as _ <-. cbn [nr_msgs r_pop_out r_proj_out nr_pops nr_trained].
  split; [exact (npops_len _ _ _ _ _ _ E3)|exact (nprojs_len _ _ _ _ _ E4)].
Qed.
Lemma mt_nprojs_len st : forall c a b v, mt_nprojs st a b c = Ret v -> length (fst v) = length (snd v).
Proof.
  induction c as [|w c IH]; intros [|ms a] [|o b] v H; cbn [mt_nprojs] in H; try (injection H as <-; reflexivity).
  destruct (mt_nproj st ms o w) as [q| |]; cbn [obind] in H; try discriminate. destruct (mt_nprojs st a b c) as [q2| |] eqn:E; cbn [obind] in H; try discriminate.
  injection H as <-. cbn [fst snd length]. f_equal. exact (IH _ _ _ E).
Qed.
Lemma mt_run_len pow2f : forall turns k k' tr, mt_nbackend_run pow2f turns k = Ret (k', tr) -> forall r, In r tr ->
  length (r_proj_out (nr_msgs r)) = length (nr_projs' r).
Proof.
  induction turns as [|[u s] turns IH]; intros k k' tr H r Hr; cbn [mt_nbackend_run] in H; [injection H as _ <-; contradiction|].
  destruct (run (nb_bus k) (tu_ops u)) as [[b trb]| |]; cbn [obind fst] in H; try discriminate.
  destruct (mt_nbackend_step pow2f s (pending b) _) as [[k1 r1]| |] eqn:Es; cbn [obind fst snd] in H; try discriminate.
  destruct (mt_nbackend_run pow2f turns k1) as [[k2 tr2]| |] eqn:E2; cbn [obind fst snd] in H; try discriminate. injection H as _ <-.
  destruct Hr as [<-|Hr]; [|exact (IH _ _ _ E2 r Hr)]. clear -Es. unfold mt_nbackend_step in Es. cbn [nb_bus nb_pops nb_projs nb_step] in Es.
  destruct (unload_all 1 _ _) as [x| |]; cbn [obind] in Es; try discriminate. destruct (mt_fronts _ _ _ _) as [jobs| |]; cbn [obind] in Es; try discriminate.
  destruct (train_at _ _ _ _ _) as [y| |]; cbn [obind] in Es; try discriminate. destruct (send_all _ _) as [b1| |]; cbn [obind] in Es; try discriminate.
  destruct (route_receive_own _) as [b2| |]; cbn [obind] in Es; try discriminate. destruct (unload_all 0 _ _) as [z| |]; cbn [obind] in Es; try discriminate.
  destruct (mt_nprojs _ _ _ _) as [v| |] eqn:Ev; cbn [obind] in Es; try discriminate. destruct (send_all (snd v) _) as [b3| |]; cbn [obind] in Es; try discriminate.
  destruct (route_receive_own b3) as [b4| |]; cbn [obind] in Es; try discriminate. injection Es as _ <-. cbn [nr_msgs r_proj_out nr_projs']. symmetry. exact (mt_nprojs_len _ _ _ _ _ Ev).
Qed.
Lemma alone_len pow2f step inbox : forall pops projs pops' projs' outs, npops_alone pow2f step inbox pops projs = Ret (pops', projs', outs) ->
  length pops' = length pops /\ length outs = length pops.
Proof.
  induction pops as [|[u a] pops IH]; intros projs pops' projs' outs H; cbn [npops_alone] in H; [injection H as <- _ <-; auto|].
  destruct (npop_step pow2f u step (inbox u) a projs) as [[[a' p1] o]| |]; cbn [obind] in H; try discriminate.
  destruct (npops_alone pow2f step inbox pops p1) as [[[t' p2] os]| |] eqn:E; cbn [obind] in H; try discriminate. injection H as <- _ <-.
  destruct (IH _ _ _ _ E) as [H1 H2]. cbn [length]. auto.
Qed.

(** ** Messages *)
Lemma sent_shuffled : forall outs outs', Forall2 same_output outs outs' -> Forall2 reshuffled (sent_msgs outs) (sent_msgs outs').
Proof.
  induction 1 as [|a b l l' H _ IH]; [constructor|]. unfold sent_msgs in *. cbn [flat_map].
  destruct a as [a|], b as [b|]; cbn [same_output] in H; try contradiction; cbn [app]; [|exact IH]. constructor; [|exact IH].
  destruct a, b; cbn [same_message] in H; try contradiction. destruct H as (-> & _ & -> & H). cbn. auto.
Qed.
Lemma shuffled_filter f l l' : (forall a b, reshuffled a b -> f a = f b) -> Forall2 reshuffled l l' -> Forall2 reshuffled (filter f l) (filter f l').
Proof. intros Hf. induction 1 as [|a b l l' H _ IH]; cbn [filter]; [constructor|]. rewrite (Hf a b H). destruct (f b); [constructor|]; auto. Qed.
Lemma to_population_shuffled heads extra u a b : reshuffled a b -> to_population heads extra u a = to_population heads extra u b.
Proof. destruct a, b; cbn [reshuffled to_population]; try contradiction; [reflexivity|]. now intros (-> & _). Qed.
Lemma spikes_dropped heads extra u l : Forall (fun m => exists s t l, m = SpikeMsg s t l /\ NoDup l) l -> filter (to_population heads extra u) l = [].
Proof. induction 1 as [|m l (s & t & x & -> & _) _ IH]; cbn [filter to_population]; auto. Qed.
Lemma sent_spikes f : (forall s t l t' l', f (SpikeMsg s t l) = f (SpikeMsg s t' l')) -> forall outs outs', Forall2 same_spikes outs outs' ->
  Forall2 (fun a b => exists s t l l', a = SpikeMsg s t l /\ b = SpikeMsg s t l' /\ Permutation l l') (filter f (sent_msgs outs)) (filter f (sent_msgs outs')).
Proof.
  intros Hf. induction 1 as [|a b l l' H _ IH]; [constructor|]. unfold sent_msgs in *. cbn [flat_map]. rewrite !filter_app. apply Forall2_app; [|exact IH].
  destruct a as [[s t x|]|], b as [[s' t' x'|]|]; cbn [same_spikes] in H; try contradiction; cbn [filter]; [|constructor].
  destruct H as (-> & -> & H). rewrite (Hf s' t' x t' x'). destruct (f (SpikeMsg s' t' x')); [|constructor]. constructor; [|constructor]. eauto 10.
Qed.
Lemma one_spikes f outs outs' ext : (forall s t l t' l', f (SpikeMsg s t l) = f (SpikeMsg s t' l')) -> Forall2 same_spikes outs outs' ->
  Forall (fun m => exists s t l, m = SpikeMsg s t l /\ NoDup l) ext -> Forall distinct_spikes (sent_msgs outs') ->
  length (filter f (ext ++ sent_msgs outs)) <= 1 ->
  let ms := filter f (ext ++ sent_msgs outs) in let ms' := filter f (sent_msgs outs' ++ ext) in
  ms = [] /\ ms' = [] \/ exists s t1 l s' t2 l', ms = [SpikeMsg s t1 l] /\ ms' = [SpikeMsg s' t2 l'] /\ Permutation l l' /\ NoDup l'.
Proof.
  intros Hf Ho He Hd Hl ms ms'. unfold ms, ms'. rewrite filter_app in *. rewrite filter_app. rewrite app_length in Hl.
  pose proof (sent_spikes f Hf _ _ Ho) as HS.
  assert (He' : Forall (fun m => exists s t l, m = SpikeMsg s t l /\ NoDup l) (filter f ext)) by (apply Forall_forall; intros m Hm; apply filter_In in Hm as [Hm _]; rewrite Forall_forall in He; auto).
  assert (Hd' : Forall distinct_spikes (filter f (sent_msgs outs'))) by (apply Forall_forall; intros m Hm; apply filter_In in Hm as [Hm _]; rewrite Forall_forall in Hd; auto).
  destruct (filter f ext) as [|a [|a2 A]]; cbn [length] in Hl; [| |lia].
  - destruct HS as [|b b' B B' H HS]; cbn [app length] in *; [left; auto|]. destruct HS as [|c c' C C' _ HS]; cbn [length] in Hl; [|lia].
    right. destruct H as (s & t & l & l' & -> & -> & H). apply Forall_cons_iff in Hd' as [Hd' _]. cbn in Hd'. exists s, t, l, s, t, l'. auto.
  - destruct HS as [|b b' B B' H HS]; cbn [length] in Hl; [|lia]. right. apply Forall_cons_iff in He' as [(s & t & l & -> & Hn) _]. exists s, t, l, s, t, l. cbn [app]. auto.
Qed.
Lemma to_nproj_sender extra w s t l t' l' : to_nproj extra w (SpikeMsg s t l) = to_nproj extra w (SpikeMsg s t' l').
Proof. reflexivity. Qed.

(** ** Runs *)
Lemma F2_same {A B C} (R : A -> B -> Prop) (f : A -> C) (g : B -> C) l l' : (forall a b, R a b -> f a = g b) -> Forall2 R l l' -> map f l = map g l'.
Proof. intros H. induction 1; cbn [map]; f_equal; auto. Qed.
Lemma F2_build {A B} (R : A -> B -> Prop) : forall l l', length l = length l' -> (forall j a b, nth_error l j = Some a -> nth_error l' j = Some b -> R a b) -> Forall2 R l l'.
Proof.
  induction l as [|a l IH]; intros [|b l'] E H; cbn [length] in E; try discriminate; constructor; [exact (H 0 a b eq_refl eq_refl)|].
  apply IH; [lia|]. intros j. exact (H (S j)).
Qed.
Section Runs.
Variables (pow2f expf : flt -> flt) (extra : list subscr) (pops : list (uid * npop)) (projs : list nproj) (pp pj : N)
  (turns0 : list turn) (turns : list (turn * nsched)) (k k' : nbackend) (tr tr' : list nrecord).
Hypothesis Hs : sound_network pops projs.
Hypothesis Hl : Forall loadable projs.
Hypothesis Hnum : Forall numeric projs.
Hypothesis Hsyn : Forall (fun w => (N.of_nat (length (delta_synapses w)) <= 2 ^ 63)%N) projs.
Hypothesis Hpp : (0 < pp < two64)%N.
Hypothesis Hpj : (0 < pj < two64)%N.
Hypothesis Hf : Forall (fun c => forallb outside (tu_ops (fst c)) = true /\ nsched_ok pp pj pops projs (snd c)) turns.
Hypothesis Hf0 : Forall (fun u => forallb outside (tu_ops u) = true) turns0.
Hypothesis Hlearn : map tu_learn turns0 = map (fun c => tu_learn (fst c)) turns.
Hypothesis Hr : net_run pow2f expf extra pops projs turns0 k tr.
Hypothesis Hr' : mt_net_run pow2f extra pops projs turns k' tr'.
Hypothesis Hlen : (N.of_nat (length tr) < two64)%N.
Hypothesis Hin : forall r, In r tr -> plain_input r.
Hypothesis Hfree : indifferent tr.
(** The same comes from outside in the first steps. *)
Definition same_until (t : nat) : Prop := forall t0 r r', t0 <= t -> nth_error tr t0 = Some r -> nth_error tr' t0 = Some r' ->
  r_ext (nr_msgs r') = r_ext (nr_msgs r).

Definition together (t : nat) : Prop :=
  fst (after tr' pops projs t) = fst (after tr pops projs t) /\
  Forall2 (linked t) (snd (after tr pops projs t)) (snd (after tr' pops projs t)) /\
  Forall2 reshuffled (sent_before (map nr_msgs tr) t) (sent_before (map nr_msgs tr') t) /\
  Forall nproj_ok (snd (after tr' pops projs t)).

Lemma together_step t r r' : nth_error tr t = Some r -> nth_error tr' t = Some r' -> same_until t -> together t -> same_record r r' /\ together (S t).
Proof using All.
  intros Ht Ht' He (Epops & Hlink & Hsent & Hokp). pose proof Hr' as Hrr'.
  destruct (net_run_facts _ _ _ _ _ _ _ _ Hs Hf0 Hr) as (L & F & _).
  destruct (mt_turn_at _ _ _ _ _ _ _ _ _ Hs Hl Hpp Hf Hr' t r' Ht') as (c & Hc & (_ & Hsc) & MF & Ep' & Ew').
  assert (Hu : exists u0, nth_error turns0 t = Some u0 /\ tu_learn u0 = tu_learn (fst c)).
  { pose proof (f_equal (fun l => nth_error l t) Hlearn) as H. cbv beta in H. rewrite !nth_error_map, Hc in H. cbn [option_map] in H.
    destruct (nth_error turns0 t) as [u0|]; [|discriminate]. exists u0. split; [reflexivity|]. cbn [option_map] in H. exact (f_equal (fun o => match o with Some x => x | None => [] end) H). }
  destruct Hu as (u0 & Hu & Elearn).
  destruct (F t r u0 Ht Hu) as (SF & Ep & Ew). rewrite Elearn in Ew.
  assert (Hlt : t < length tr) by (apply nth_error_Some; congruence).
  assert (Hn : (N.of_nat t mod two64 = N.of_nat t)%N) by (apply N.mod_small; lia). rewrite Hn in *.
  destruct (Hin r (nth_error_In _ _ Ht)) as [Hsp Hone].
  assert (Ext : r_ext (nr_msgs r') = r_ext (nr_msgs r)) by (apply (He t); auto).
  assert (Hpops : nr_pops r' = nr_pops r) by congruence.
  assert (Hlink0 : Forall2 (linked t) (nr_projs r) (nr_projs r')).
  { rewrite Ew, Ew', !learn_all_map. clear -Hlink. induction Hlink as [|w v a b H _ IH]; cbn [map]; [constructor|]. constructor; [|exact IH].
    fold (relock (tu_learn (fst c)) w) (relock (tu_learn (fst c)) v). destruct H as (H1 & H2 & H3 & H4).
    destruct (relock_same (tu_learn (fst c)) w) as (_ & Q1 & E1 & _), (relock_same (tu_learn (fst c)) v) as (_ & Q2 & _).
    unfold linked. rewrite Q1, Q2. unfold np_head in E1. injection E1 as -> -> -> ->. split; [now apply bare_relock|]. auto. }
  assert (Hbare0 : map bare (nr_projs r) = map bare (nr_projs r')) by (eapply F2_same; [|exact Hlink0]; intros a b H; apply H).
  (* populations *)
  destruct Hr as (k0 & _ & Hrun). destruct Hr' as (k0' & _ & Hrun').
  destruct (run_len _ _ _ _ _ _ Hrun r (nth_error_In _ _ Ht)) as [Lpo Ljo].
  pose proof (mt_run_len _ _ _ _ _ Hrun' r' (nth_error_In _ _ Ht')) as Ljo'.
  set (boxA := npop_box extra projs (sent_before (map nr_msgs tr) t) (r_ext (nr_msgs r))).
  set (boxB := mt_box extra projs (late (map nr_msgs tr') t)).
  assert (Hbox : forall u, Forall2 reshuffled (boxA u) (boxB u)).
  { intros u. unfold boxA, boxB, npop_box, mt_box. rewrite filter_app, (spikes_dropped _ _ _ _ Hsp), app_nil_r.
    assert (El : filter (to_population (map np_head projs) extra u) (late (map nr_msgs tr') t) = filter (to_population (map np_head projs) extra u) (sent_before (map nr_msgs tr') t)).
    { clear -Hin He Hlt. unfold late, sent_before. destruct t as [|t0]; [reflexivity|]. rewrite nth_error_map. destruct (nth_error tr' t0) as [r0'|] eqn:E; [|reflexivity]. cbn [option_map].
      rewrite filter_app. destruct (nth_error tr t0) as [r0|] eqn:E0; [|apply nth_error_None in E0; lia].
      rewrite (He t0 r0 r0' ltac:(lia) E0 E), (spikes_dropped _ _ _ _ (proj1 (Hin r0 (nth_error_In _ _ E0)))). reflexivity. }
    rewrite El. apply shuffled_filter; [intros a b; apply to_population_shuffled|exact Hsent]. }
  destruct (mf_turn _ _ _ _ _ _ _ _ _ MF) as (P & outs & HT & HPt & Houts).
  rewrite (mf_pin _ _ _ _ _ _ _ _ _ MF), (in_turn_alone pow2f (N.of_nat t) (mt_box extra projs (late (map nr_msgs tr') t))) in HT. fold boxB in HT.
  assert (Hndp : NoDup (map fst (nr_pops r))) by (rewrite (sf_us _ _ _ _ _ _ _ _ SF); exact (sn_pops _ _ Hs)).
  assert (Hszp : Forall (fun e => (N.of_nat (size (snd e)) <= two32)%N) (nr_pops r)).
  { rewrite <- Hpops. pose proof (mf_sizes _ _ _ _ _ _ _ _ _ MF) as E. pose proof (sn_sizes _ _ Hs) as HS. unfold npop_sizes in E.
    apply (proj1 (Forall_map (fun e : uid * npop => size (snd e)) (fun n => (N.of_nat n <= two32)%N) (nr_pops r'))). rewrite E. apply Forall_map. exact HS. }
  assert (Hok0 : Forall nproj_ok (nr_projs r')) by (rewrite Ew'; now apply learn_all_ok).
  assert (Hk0 : kinds_ok (nr_projs r')) by (eapply Forall_impl; [|exact Hok0]; intros w; apply proj1).
  rewrite Hpops in HT.
  destruct (npops_facts pow2f (N.of_nat t) boxB _ _ _ _ _ Hndp Hszp Hk0 HT) as (_ & _ & _ & _ & _ & FQ & _ & HB).
  destruct (alone_len _ _ _ _ _ _ _ _ HT) as [LB MB].
  assert (LA : length (nr_pops' r) = length (nr_pops r)).
  { pose proof (sf_us _ _ _ _ _ _ _ _ SF) as A. pose proof (sf_us' _ _ _ _ _ _ _ _ SF) as B. apply (f_equal (@length _)) in A, B. rewrite !map_length in A, B. congruence. }
  assert (HPtr : map bare P = map bare (nr_trained r')).
  { assert (G : forall l, map bare l = map bare (map forget l)).
    { intros l. rewrite map_map. apply map_ext. intros w. unfold bare, forget, np_with. cbn [np_kind np_uid np_pre np_post np_locked np_queue]. destruct (np_kind w); reflexivity. }
    now rewrite (G P), HPt, <- G. }
  destruct (pops_same pow2f (N.of_nat t) boxA boxB (stdp_uids (nr_pops r)) (nr_projs r) (nr_trained r) (nr_projs r') P (nr_pops r) (nr_pops' r) (nr_pops' r') (r_pop_out (nr_msgs r)) outs)
    as (EP' & EO & EB); auto.
  { apply (sf_train _ _ _ _ _ _ _ _ SF). }
  { intros i u a Hi. destruct (sf_pops _ _ _ _ _ _ _ _ SF i u a Hi) as (a' & o & _ & H1 & H2 & H3). exists a', o. auto. }
  { intros i u a Hi. destruct (sf_pops _ _ _ _ _ _ _ _ SF i u a Hi) as (a' & o & H0 & _). pose proof (Hfree t r i u a _ Ht Hi H0) as HH. rewrite Hn in HH. intros y. apply HH. apply Hbox. }
  rewrite HPtr in EB. subst outs.
  (* projections *)
  assert (HlenT : length (nr_trained r) = length (nr_trained r')) by (apply (f_equal (@length _)) in EB; rewrite !map_length in EB; lia).
  assert (Hone' : forall j w v, nth_error (nr_trained r) j = Some w -> nth_error (nr_trained r') j = Some v -> exists w' v' o o',
    nth_error (nr_projs' r) j = Some w' /\ nth_error (nr_projs' r') j = Some v' /\ nth_error (r_proj_out (nr_msgs r)) j = Some o /\ nth_error (r_proj_out (nr_msgs r')) j = Some o' /\
    linked (S t) w' v' /\ same_output o o' /\ nproj_ok v').
  { intros j w v Hw Hv.
    destruct (sf_projs _ _ _ _ _ _ _ _ SF j w Hw) as (w' & o & A0 & A1 & A2 & A3).
    destruct (mf_projs _ _ _ _ _ _ _ _ _ MF j v Hv) as (v' & o' & ord & B0 & B1 & B2 & B3).
    exists w', v', o, o'. split; [exact A1|]. split; [exact B1|]. split; [exact A2|]. split; [exact B2|].
    assert (Hbw : bare w = bare v).
    { pose proof (f_equal (fun l => nth_error l j) EB) as H. cbv beta in H. rewrite !nth_error_map, Hw, Hv in H. cbn [option_map] in H. symmetry.
      exact (f_equal (fun o => match o with Some x => x | None => bare w end) H). }
    assert (Hok1 : nproj_ok w) by (pose proof (sf_ok1 _ _ _ _ _ _ _ _ SF) as H; rewrite Forall_forall in H; apply H; eapply nth_error_In; eauto).
    assert (Hok1' : nproj_ok v) by (pose proof (mf_ok1 _ _ _ _ _ _ _ _ _ MF) as H; rewrite Forall_forall in H; apply H; eapply nth_error_In; eauto).
    assert (Hld : loadable v) by (pose proof (mf_load1 _ _ _ _ _ _ _ _ _ MF) as H; rewrite Forall_forall in H; apply H; eapply nth_error_In; eauto).
    assert (Hlw : linked t w v).
    { assert (H0 : exists w0 v0, nth_error (nr_projs r) j = Some w0 /\ nth_error (nr_projs r') j = Some v0 /\ kept w0 w /\ kept v0 v /\ linked t w0 v0).
      { pose proof (sf_train _ _ _ _ _ _ _ _ SF) as T1. pose proof (mf_train _ _ _ _ _ _ _ _ _ MF) as T2.
        pose proof (Forall2_len _ _ _ T1) as E1. assert (Hj : j < length (nr_projs r)) by (rewrite E1; apply nth_error_Some; congruence).
        destruct (nth_error (nr_projs r) j) as [w0|] eqn:Ew0; [|apply nth_error_None in Ew0; lia].
        destruct (F2_nth _ _ _ T1 j w0 Ew0) as (w2 & C1 & C2 & _). assert (w2 = w) by congruence. subst w2.
        destruct (F2_nth _ _ _ Hlink0 j w0 Ew0) as (v0 & C3 & C4).
        destruct (F2_nth _ _ _ T2 j v0 C3) as (v2 & C5 & C6 & _). assert (v2 = v) by congruence. subst v2.
        exists w0, v0. auto. }
      destruct H0 as (w0 & v0 & _ & _ & (K1 & K2 & K3 & _ & K5 & K6) & (_ & _ & _ & _ & K5' & _) & (_ & G1 & G2 & G3)).
      assert (Kf : np_forced w = np_forced w0) by (unfold np_forced; destruct (np_kind w0), (np_kind w); try contradiction; reflexivity).
      unfold linked. rewrite K1, K2, K3, K5, K5', Kf. auto. }
    assert (Hfx : exists w0, nth_error projs j = Some w0 /\ fixed w = fixed w0).
    { pose proof (sf_hs1 _ _ _ _ _ _ _ _ SF) as H. apply (f_equal (fun l => nth_error l j)) in H. rewrite !nth_error_map, Hw in H. cbn [option_map] in H.
      destruct (nth_error projs j) as [w0|]; [|discriminate]. exists w0. split; [reflexivity|]. cbn [option_map] in H.
      exact (f_equal (fun o => match o with Some x => x | None => fixed w end) H). }
    destruct Hfx as (w0 & Hw0 & Hfx).
    assert (El : length (delta_synapses w) = length (delta_synapses w0)).
    { destruct (fixed_ends _ _ Hfx) as [X _]. apply (f_equal (@length _)) in X. unfold ends_of in X. now rewrite !map_length in X. }
    assert (Hsz : (N.of_nat (length (delta_synapses w)) <= 2 ^ 63)%N).
    { rewrite El. rewrite Forall_forall in Hsyn. apply Hsyn. eapply nth_error_In; eauto. }
    assert (Hord : any_order pj (N.of_nat (length (delta_synapses w))) ord).
    { destruct Hsc as (_ & _ & Hsc). destruct (F2_nth _ _ _ Hsc j w0 Hw0) as (ord' & B4' & Hany). assert (ord' = ord) by congruence. subst ord'. now rewrite El. }
    assert (Hnv : numeric v).
    { destruct (mt_numeric _ _ _ _ _ _ _ _ _ Hs Hl Hpp Hf Hrr' Hnum t r' Ht') as [H _]. rewrite Forall_forall in H. apply H. eapply nth_error_In; eauto. }
    assert (Hms : let ms := nproj_box extra (r_ext (nr_msgs r)) (sent_msgs (r_pop_out (nr_msgs r))) w in let ms' := spikes_for extra r' v in
      ms = [] /\ ms' = [] \/ exists s t1 l s' t2 l', ms = [SpikeMsg s t1 l] /\ ms' = [SpikeMsg s' t2 l'] /\ Permutation l l' /\ NoDup l').
    { unfold nproj_box, spikes_for. rewrite Ext. rewrite (filter_ext (to_nproj extra v) (to_nproj extra w)) by (intros m; apply fixed_to; symmetry; now apply bare_fixed).
      apply one_spikes; auto; [apply (mf_distinct _ _ _ _ _ _ _ _ _ MF)|].
      rewrite Forall_forall in Hone. apply Hone. eapply nth_error_In. exact A0. }
    destruct (proj_same expf pj t _ _ ord w v w' o v' o' Hpj Hlw Hok1 Hok1' (bare_loadable _ _ (eq_sym Hbw) Hld) Hsz Hord Hnv Hms A3 B3) as [R1 R2].
    split; [exact R1|]. split; [exact R2|].
    destruct (mt_nproj_spec (N.of_nat t) (spikes_for extra r' v) ord v Hok1' Hld) as (v2 & m & E & Hv2 & _). rewrite B3 in E. injection E as <- _. exact Hv2. }
  assert (Hl1 : length (nr_projs' r) = length (nr_trained r)).
  { pose proof (sf_hs1 _ _ _ _ _ _ _ _ SF) as A. pose proof (sf_hs' _ _ _ _ _ _ _ _ SF) as B. apply (f_equal (@length _)) in A, B. rewrite !map_length in A, B. congruence. }
  assert (Hl2 : length (nr_projs' r') = length (nr_trained r')).
  { pose proof (mf_hs1 _ _ _ _ _ _ _ _ _ MF) as A. pose proof (mf_hs' _ _ _ _ _ _ _ _ _ MF) as B. apply (f_equal (@length _)) in A, B. rewrite !map_length in A, B. congruence. }
  assert (Hget : forall j, j < length (nr_trained r) -> exists w v, nth_error (nr_trained r) j = Some w /\ nth_error (nr_trained r') j = Some v).
  { intros j Hj. destruct (nth_error (nr_trained r) j) as [w|] eqn:E1; [|apply nth_error_None in E1; lia]. destruct (nth_error (nr_trained r') j) as [v|] eqn:E2; [|apply nth_error_None in E2; lia]. eauto. }
  assert (Hlink' : Forall2 (linked (S t)) (nr_projs' r) (nr_projs' r')).
  { apply F2_build; [congruence|]. intros j a b Ha Hb. destruct (Hget j) as (w & v & Hw & Hv); [rewrite <- Hl1; apply nth_error_Some; congruence|].
    destruct (Hone' j w v Hw Hv) as (w' & v' & o & o' & A1 & A2 & _ & _ & A3 & _). congruence. }
  assert (Houts' : Forall2 same_output (r_proj_out (nr_msgs r)) (r_proj_out (nr_msgs r'))).
  { apply F2_build; [congruence|]. intros j a b Ha Hb. destruct (Hget j) as (w & v & Hw & Hv); [rewrite <- Ljo; apply nth_error_Some; congruence|].
    destruct (Hone' j w v Hw Hv) as (w' & v' & o & o' & _ & _ & A1 & A2 & _ & A3 & _). congruence. }
  split; [|split; [|split; [|split]]].
  - unfold same_record. split; [exact Hpops|]. split; [exact EP'|]. split; [now symmetry|]. split; [exact EB|].
    split; [symmetry; eapply F2_same; [|exact Hlink']; intros a b H; apply H|]. split; [exact Houts|exact Houts'].
  - rewrite (after_S pops projs tr' t r' Ht'), (after_S pops projs tr t r Ht). exact EP'.
  - rewrite (after_S pops projs tr' t r' Ht'), (after_S pops projs tr t r Ht). exact Hlink'.
  - cbn [sent_before]. rewrite !nth_error_map, Ht, Ht'. cbn [option_map]. now apply sent_shuffled.
  - rewrite (after_S pops projs tr' t r' Ht'). cbn [snd]. apply Forall_forall. intros v' Hv'. apply In_nth_error in Hv' as (j & Hj).
    destruct (Hget j) as (w & v & Hw & Hv); [rewrite HlenT, <- Hl2; apply nth_error_Some; congruence|].
    destruct (Hone' j w v Hw Hv) as (w' & v2 & o & o' & _ & A1 & _ & _ & _ & _ & A2). congruence.
Qed.

Lemma together_0 : together 0.
Proof using Hs Hl extra.
  split; [reflexivity|]. split; [|split; [constructor|]].
  + cbn [after snd]. apply F2_build; [reflexivity|]. intros j a b Ha Hb. assert (b = a) by congruence. subst b.
    pose proof (sn_queues _ _ Hs) as Q. rewrite Forall_forall in Q. specialize (Q a (nth_error_In _ _ Ha)). unfold linked. rewrite Q.
    split; [reflexivity|]. split; [intros x; exact I|]. split; intros x m H; discriminate.
  + cbn [after snd]. destruct (mt_init_ready extra pops projs Hs Hl) as (k1 & _ & _ & E & _ & (R & _)). rewrite <- E. apply (nrd_ok _ _ _ _ _ R).
Qed.
(** If what comes from outside agrees as long as the runs do. *)
Lemma together_all : length tr' = length tr ->
  (forall t, t < length tr -> (forall t0 r r', t0 < t -> nth_error tr t0 = Some r -> nth_error tr' t0 = Some r' -> same_record r r') -> same_until t) ->
  (forall t, t <= length tr -> together t) /\
  forall t r r', nth_error tr t = Some r -> nth_error tr' t = Some r' -> same_record r r'.
Proof using All.
  intros L He.
  assert (G : forall t, t <= length tr -> together t /\ forall t0 r r', t0 < t -> nth_error tr t0 = Some r -> nth_error tr' t0 = Some r' -> same_record r r').
  { induction t as [|t IH]; intros Ht; [split; [apply together_0|intros; lia]|]. destruct (IH ltac:(lia)) as [I1 I2].
    destruct (nth_error tr t) as [r|] eqn:E1; [|apply nth_error_None in E1; lia]. destruct (nth_error tr' t) as [r'|] eqn:E2; [|apply nth_error_None in E2; lia].
    destruct (together_step t r r' E1 E2 (He t ltac:(lia) I2) I1) as [S1 S2]. split; [exact S2|]. intros t0 a b H Ha Hb.
    assert (D : t0 < t \/ t0 = t) by lia. destruct D as [D| ->]; [exact (I2 _ _ _ D Ha Hb)|]. congruence. }
  split; [intros t Ht; apply (G t Ht)|]. intros t r r' Ht Ht'. apply (proj2 (G (length tr) (le_n _)) t); auto. apply nth_error_Some. congruence.
Qed.
End Runs.
