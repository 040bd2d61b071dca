(** Proofs about a step of the multi-threaded backend with training: projections,
    steps and runs. *)
From Verif Require Import Base ListLemmas Messaging_Model Messaging_Spec Messaging_Proofs Messaging_Proofs2 Projection_Model Projection_Spec Projection_Proofs
  Delta_Model Delta_Spec Delta_Proofs Delta_Proofs2 Neuron_Model Neuron_Spec Neuron_Proofs Neuron_Proofs2 Pipeline_Model Pipeline_Spec Pipeline_Proofs Pipeline_Proofs2
  Stdp_Model Additive_Model Additive_Spec Additive_Proofs Train_Model Train_Proofs Net_Model Net_Spec Net_Proofs Net_Proofs2 Net_Proofs3 Net_Proofs4 Net_Proofs5
  Props_Net Props_Sched Mt_Model Mt_Spec Mt_Proofs Mt_Proofs2 Sched_Model Sched_Proofs MtNet_Model MtNet_Spec MtNet_Proofs.

(** ** A projection *)
Lemma stamp_delta step c s : r_delta (stamp step c s) = r_delta s.
Proof. unfold stamp. now destruct (count_find _ _). Qed.
Lemma pre_part_map {A B} (f : A -> A) (g : A -> B) : (forall x, g (f x) = g x) -> forall l a c, map g (pre_part f a c l) = map g l.
Proof.
  intros H. induction l as [|x l IH]; intros a c; [destruct a; reflexivity|]. destruct a as [|a]; cbn [pre_part]; [destruct c as [|c]; [reflexivity|]|];
  cbn [map]; rewrite IH; [now rewrite H|reflexivity].
Qed.
Lemma resource_parts h step counts : forall o l q,
  fold_left (mt_resource_part h step counts) o (l, q) =
  (fold_left (fun ns part => pre_part (stamp step counts) (fst part) (snd part - fst part) ns) o l, fold_left (mt_part h step counts (map r_delta l)) o q).
Proof.
  induction o as [|p o IH]; intros l q; cbn [fold_left]; [reflexivity|]. unfold mt_resource_part at 2. cbn [fst snd]. rewrite IH.
  now rewrite (pre_part_map (stamp step counts) r_delta (stamp_delta step counts)).
Qed.
Lemma pre_parts_map {A B} (f : A -> A) (g : A -> B) : (forall x, g (f x) = g x) -> forall (o : list (nat * nat)) l,
  map g (fold_left (fun ns part => pre_part f (fst part) (snd part - fst part) ns) o l) = map g l.
Proof. intros H. induction o as [|p o IH]; intros l; cbn [fold_left]; [reflexivity|]. rewrite IH. now apply pre_part_map. Qed.
Lemma count_found spikes n : match count_find n (convert_spikes spikes) with Some _ => true | None => false end = existsb (N.eqb n) spikes.
Proof.
  unfold convert_spikes.
  assert (G : forall m, match count_find n (fold_left (fun m n => count_insert n m) spikes m) with Some _ => true | None => false end =
                (match count_find n m with Some _ => true | None => false end || existsb (N.eqb n) spikes)).
  { induction spikes as [|x spikes IH]; intros m; cbn [fold_left existsb]; [now rewrite orb_false_r|]. rewrite IH, count_find_insert.
    destruct (N.eqb n x); cbn [orb]; [now rewrite orb_true_r|reflexivity]. }
  rewrite G. reflexivity.
Qed.
Lemma stamp_marked step spikes s : stamp step (convert_spikes spikes) s = marked step spikes s.
Proof. unfold stamp, marked. rewrite <- count_found. destruct (count_find _ _); reflexivity. Qed.

Lemma mt_nproj_spec step ms o w : nproj_ok w -> loadable w ->
  exists w' m, mt_nproj step ms o w = Ret (w', m) /\ nproj_ok w' /\ loadable w' /\ impact_only (sent_msgs [m]) /\ fixed w' = fixed w /\
    delta_synapses w' = delta_synapses w /\ np_locked w' = np_locked w /\ is_resource w' = is_resource w /\
    mt_calculate (np_head w) step ms (delta_synapses w) o (np_queue w) = (np_queue w', m) /\
    forall pj, (0 < pj < two64)%N -> (N.of_nat (length (delta_synapses w)) <= 2 ^ 63)%N -> any_order pj (N.of_nat (length (delta_synapses w))) o ->
      resource_synapses w' = map (marked step (spikes_of (firstn 1 ms))) (resource_synapses w).
Proof.
  intros [Hk Hq] Hl. unfold mt_nproj, loadable in *. destruct (np_kind w) as [p|l p|l p] eqn:E; [|contradiction|].
  - destruct (mt_calculate (np_head w) step ms (p_syn p) o (np_queue w)) as [q m] eqn:Ec.
    destruct (mt_calculate_ok _ _ _ _ _ _ _ _ Hq Ec) as [H1 H2].
    exists (np_with w (NDelta p) q), m. split; [reflexivity|]. unfold fixed, np_forced, stdp_pops, delta_synapses, resource_synapses, is_resource, nproj_ok. cbn [np_with np_uid np_pre np_post np_kind np_queue np_locked]. rewrite E. cbn [kind_ok] in *. repeat split; auto.
  - cbn [kind_ok] in Hk.
    set (x := match ms with [] => (p_syn p, np_queue w) | m :: _ => fold_left (mt_resource_part (np_head w) step (convert_spikes (spikes_of [m]))) o (p_syn p, np_queue w) end).
    assert (Hd : forall B (g : rsyn -> B), (forall s c, g (stamp step c s) = g s) -> map g (fst x) = map g (p_syn p)).
    { intros B g Hg. unfold x. destruct ms as [|m ms]; [reflexivity|]. rewrite resource_parts. cbn [fst]. apply pre_parts_map. intros s. apply Hg. }
    assert (Hx : mt_calculate (np_head w) step ms (map r_delta (p_syn p)) o (np_queue w) =
                 match q_find step (snd x) with Some m => (q_erase step (snd x), Some m) | None => (snd x, None) end).
    { unfold mt_calculate, x. destruct ms as [|m ms]; [reflexivity|]. rewrite resource_parts. reflexivity. }
    assert (Hend : map (fun s => (sy_from s, sy_to s)) (fst x) = map (fun s => (sy_from s, sy_to s)) (p_syn p)).
    { apply Hd. intros s c. unfold stamp. now destruct (count_find _ _). }
    assert (Hdel : map r_delta (fst x) = map r_delta (p_syn p)) by (apply Hd; intros; apply stamp_delta).
    assert (Hmark : forall pj, (0 < pj < two64)%N -> (N.of_nat (length (map r_delta (p_syn p))) <= 2 ^ 63)%N -> any_order pj (N.of_nat (length (map r_delta (p_syn p)))) o ->
      fst x = map (marked step (spikes_of (firstn 1 ms))) (p_syn p)).
    { intros pj Hp Hn Ho. rewrite map_length in *. unfold x. destruct ms as [|m ms]; cbn [firstn fst].
      - symmetry. rewrite <- (map_id (p_syn p)) at 2. apply map_ext. intros s. reflexivity.
      - rewrite resource_parts. cbn [fst]. rewrite (mt_pre_order _ pj o (p_syn p) Hp Hn Ho). apply map_ext. intros s. apply stamp_marked. }
    set (p' := mkProj (fst x) (p_index p) (p_updated p)).
    assert (Hok : index_ok p') by (apply index_ok_gen; [exact Hk|exact Hend]).
    destruct (mt_calculate (np_head w) step ms (map r_delta (p_syn p)) o (np_queue w)) as [q m] eqn:Ec.
    destruct (mt_calculate_ok _ _ _ _ _ _ _ _ Hq Ec) as [H1 H2].
    exists (np_with w (NResource l p') q), m. split.
    { destruct (q_find step (snd x)) as [m0|]; injection Hx as -> ->; reflexivity. }
    unfold fixed, np_forced, stdp_pops, delta_synapses, resource_synapses, is_resource, nproj_ok. cbn [np_with np_uid np_pre np_post np_kind np_queue np_locked]. rewrite E. cbn [kind_ok p' p_syn].
    split; [auto|]. split; [exact I|]. split; [exact H2|]. rewrite Hdel. split; [reflexivity|]. split; [reflexivity|]. split; [reflexivity|]. split; [reflexivity|]. split; [exact Ec|]. exact Hmark.
Qed.
(** All projections. *)
Lemma mt_nprojs_spec step : forall projs ins os, length ins = length projs -> length os = length projs ->
  Forall nproj_ok projs -> Forall loadable projs ->
  exists projs' outs, mt_nprojs step ins os projs = Ret (projs', outs) /\ impact_only (sent_msgs outs) /\
    Forall nproj_ok projs' /\ Forall loadable projs' /\ map fixed projs' = map fixed projs /\
    forall j w ms o, nth_error projs j = Some w -> nth_error ins j = Some ms -> nth_error os j = Some o ->
      exists w' m, nth_error projs' j = Some w' /\ nth_error outs j = Some m /\ mt_nproj step ms o w = Ret (w', m).
Proof.
  induction projs as [|w projs IH]; intros ins os L1 L2 Hok Hl.
  - destruct ins, os; try discriminate. exists [], []. split; [reflexivity|]. split; [constructor|]. split; [constructor|]. split; [constructor|]. split; [reflexivity|].
    intros [] w ms o H; discriminate.
  - destruct ins as [|ms ins]; [discriminate|]. destruct os as [|o os]; [discriminate|]. cbn [length mt_nprojs] in *.
    apply Forall_cons_iff in Hok as [H1 Hok]. apply Forall_cons_iff in Hl as [H2 Hl].
    destruct (mt_nproj_spec step ms o w H1 H2) as (w' & m & E & W1 & W2 & W3 & W4 & _).
    destruct (IH ins os ltac:(lia) ltac:(lia) Hok Hl) as (projs' & outs & E' & I1 & I2 & I3 & I4 & I5).
    rewrite E. cbn [obind fst snd]. rewrite E'. cbn [obind fst snd]. exists (w' :: projs'), (m :: outs). split; [reflexivity|].
    split; [rewrite sent_msgs_cons; apply Forall_app; auto|]. split; [auto|]. split; [auto|]. split; [cbn [map]; congruence|].
    intros j v ms' o' Hj Hm Ho. destruct j as [|j]; cbn [nth_error] in *; [|eauto].
    injection Hj as <-. injection Hm as <-. injection Ho as <-. eauto.
Qed.

(** ** One step *)
Definition npop_sizes (pops : list (uid * npop)) : list nat := map (fun e => size (snd e)) pops.
Definition nsyn_counts (projs : list nproj) : list nat := map (fun w => length (delta_synapses w)) projs.
Lemma nsched_ok_ext pp pj pops pops' projs projs' s : npop_sizes pops' = npop_sizes pops -> nsyn_counts projs' = nsyn_counts projs ->
  nsched_ok pp pj pops projs s -> nsched_ok pp pj pops' projs' s.
Proof.
  intros E1 E2 (H1 & H2 & H3). split; [|split].
  - clear -E1 H1. revert pops' E1. induction H1 as [|p o t t' H _ IH]; intros [|p' pops'] E; cbn [npop_sizes map] in E; try discriminate; constructor.
    + injection E as E _. now rewrite E.
    + apply IH. now injection E.
  - assert (length pops' = length pops) as -> by (apply (f_equal (@length _)) in E1; unfold npop_sizes in E1; now rewrite !map_length in E1). exact H2.
  - clear -E2 H3. revert projs' E2. induction H3 as [|p o t t' H _ IH]; intros [|p' pops'] E; cbn [nsyn_counts map] in E; try discriminate; constructor.
    + injection E as E _. now rewrite E.
    + apply IH. now injection E.
Qed.
Lemma fixed_counts l l' : map fixed l = map fixed l' -> nsyn_counts l = nsyn_counts l'.
Proof.
  intros H. apply map_eq_F2 in H. unfold nsyn_counts. induction H as [|w w' t t' H _ IH]; [reflexivity|]. cbn [map]. rewrite IH. f_equal.
  unfold fixed in H. apply (f_equal snd) in H. cbn [snd] in H. apply (f_equal (@length _)) in H. now rewrite !map_length in H.
Qed.
Lemma job_message_type step jobs : spike_only (sent_msgs (map (job_message step) jobs)).
Proof.
  induction jobs as [|jb jobs IH]; cbn [map]; [constructor|]. rewrite sent_msgs_cons. apply Forall_app. split; [apply spike_message_type|exact IH].
Qed.
Lemma kept_loadable us l l' : Forall2 (projs_result us) l l' -> Forall loadable l -> Forall loadable l'.
Proof.
  induction 1 as [|w w' t t' [K _] _ IH]; intros H; [constructor|]. apply Forall_cons_iff in H as [H1 H2]. constructor; [|auto].
  destruct K as (_ & _ & _ & _ & _ & K6). unfold loadable in *. destruct (np_kind w), (np_kind w'); try contradiction; auto.
Qed.
Lemma learn_all_loadable bs projs : Forall loadable projs -> Forall loadable (learn_all bs projs).
Proof.
  intros H0. pose proof (learn_all_spec (fun w w' => np_kind w' = np_kind w) (fun w => eq_refl) (fun w w' b H => H) bs projs) as H.
  induction H as [|w w' t t' H1 _ IH]; [constructor|]. apply Forall_cons_iff in H0 as [Ha Hb]. constructor; [|auto].
  unfold loadable in *. now rewrite H1.
Qed.
Lemma alike_spikes step jobs jobs2 : map jb_uid jobs2 = map jb_uid jobs -> Forall2 (fun a b => Permutation (jb_fired a) (jb_fired b)) jobs jobs2 ->
  Forall2 same_spikes (map (job_message step) jobs) (map (job_message step) jobs2).
Proof.
  intros E H. induction H as [|a b t t' H _ IH]; cbn [map] in *; constructor.
  - injection E as E _. unfold job_message, spike_message. rewrite E. destruct (jb_fired a) eqn:Ea.
    + apply Permutation_nil in H. rewrite H. exact I.
    + destruct (jb_fired b) eqn:Eb; [apply Permutation_sym, Permutation_nil in H; discriminate|]. cbn [same_spikes]. auto.
  - apply IH. now injection E.
Qed.

Section Run.
Variable pow2f : flt -> flt.
Variables (extra : list subscr) (projs0 : list nproj) (us : list uid) (pops0 : list (uid * npop)) (pp pj : N).
Hypothesis Hpd : NoDup (map np_uid projs0).
Hypothesis Hud : NoDup us.
Hypothesis Hpp : (0 < pp < two64)%N.
Local Notation S_ := (nS0 extra projs0).
Local Notation hs := (map np_head projs0).
Local Notation nready := (nready extra projs0 us).
Definition mt_ready (prev : list message) (k : nbackend) : Prop :=
  nready prev k /\ Mt_Proofs.front (nb_bus k) /\ Forall loadable (nb_projs k) /\ npop_sizes (nb_pops k) = npop_sizes pops0.
Definition mt_box (prev : list message) (u : uid) : list message := filter (to_population hs extra u) prev.

Record mt_facts (prev : list message) (n : N) (s : nsched) (r : nrecord) : Prop := mkMF {
  mf_us : map fst (nr_pops r) = us;
  mf_us' : map fst (nr_pops' r) = us;
  mf_sizes : npop_sizes (nr_pops r) = npop_sizes pops0;
  mf_sizes' : npop_sizes (nr_pops' r) = npop_sizes pops0;
  mf_hs : map fixed (nr_projs r) = map fixed projs0;
  mf_hs1 : map fixed (nr_trained r) = map fixed projs0;
  mf_hs' : map fixed (nr_projs' r) = map fixed projs0;
  mf_pin : r_pop_in (nr_msgs r) = map (fun e => mt_box prev (fst e)) (nr_pops r);
  mf_turn : exists P outs, in_turn pow2f n (r_pop_in (nr_msgs r)) (nr_pops r) (nr_projs r) = Ret (nr_pops' r, P, outs) /\
    map forget P = map forget (nr_trained r) /\ Forall2 same_spikes outs (r_pop_out (nr_msgs r));
  mf_distinct : Forall distinct_spikes (sent_msgs (r_pop_out (nr_msgs r)));
  mf_train : Forall2 (projs_result (stdp_uids (nr_pops r))) (nr_projs r) (nr_trained r);
  mf_ok1 : Forall nproj_ok (nr_trained r);
  mf_load1 : Forall loadable (nr_trained r);
  mf_jin : r_proj_in (nr_msgs r) = map (spikes_for extra r) (nr_trained r);
  mf_projs : forall j w, nth_error (nr_trained r) j = Some w -> exists w' o ord,
    nth_error (ns_projs s) j = Some ord /\ nth_error (nr_projs' r) j = Some w' /\ nth_error (r_proj_out (nr_msgs r)) j = Some o /\
    mt_nproj n (spikes_for extra r w) ord w = Ret (w', o) }.

Lemma mt_nstep_eq s prev k : mt_ready prev k -> nsched_ok pp pj pops0 projs0 s ->
  match in_turn pow2f (nb_step k) (map (fun e => mt_box prev (fst e)) (nb_pops k)) (nb_pops k) (nb_projs k) with
  | Throw => mt_nbackend_step pow2f s (pending (nb_bus k)) k = Throw
  | UB => mt_nbackend_step pow2f s (pending (nb_bus k)) k = UB
  | Ret _ => exists k' r, mt_nbackend_step pow2f s (pending (nb_bus k)) k = Ret (k', r) /\
     mt_facts prev (nb_step k) s r /\ mt_ready (pending (nb_bus k) ++ sent_msgs (r_proj_out (nr_msgs r))) k' /\
     r_ext (nr_msgs r) = pending (nb_bus k) /\ nr_pops r = nb_pops k /\ nr_projs r = nb_projs k /\
     nb_pops k' = nr_pops' r /\ nb_projs k' = nr_projs' r /\ nb_step k' = add64 (nb_step k) 1
  end.
Proof.
  intros (R & F & Hld & Hsizes) Hs0.
  pose proof R as [G Ho Hus Hsz Hhs Hok W0 W1].
  assert (Hs : nsched_ok pp pj (nb_pops k) (nb_projs k) s) by (eapply nsched_ok_ext; [exact Hsizes|apply fixed_counts; exact Hhs|exact Hs0]).
  destruct Hs as (HS1 & HS2 & HS3).
  remember (pending (nb_bus k)) as ext eqn:Eext.
  assert (Hoth : others (nb_bus k) = ext) by (rewrite Eext, (pending_front _ F), Ho; reflexivity).
  unfold mt_nbackend_step.
  destruct (unload_all_eq S_ 1 (map fst (nb_pops k)) (nb_bus k) G F) as (b1 & E1 & G1 & F1 & Z1 & O1 & Q1).
  { rewrite Hus. exact Hud. }
  set (pin := map (fun e => mt_box prev (fst e)) (nb_pops k)).
  assert (Hins : map (waiting (nb_bus k) 1) (map fst (nb_pops k)) = pin).
  { rewrite map_map. apply map_ext_in. intros p Hp. apply W1. rewrite <- Hus. now apply in_map. }
  rewrite E1, Hins. cbn [obind fst snd].
  assert (Lin : length pin = length (nb_pops k)) by apply map_length.
  assert (Hkinds : kinds_ok (nb_projs k)) by (eapply Forall_impl; [|exact Hok]; intros w; apply proj1).
  pose proof (fronts_same pp (nb_step k) Hpp (nb_pops k) pin (ns_pops s) Lin Hsz HS1) as HF.
  pose proof (in_turn_split pow2f (nb_step k) (nb_pops k) pin (nb_projs k) Lin Hsz Hkinds) as HT.
  destruct (fronts (nb_step k) pin (nb_pops k)) as [jobs| |] eqn:EF.
  2,3: rewrite HT; destruct (mt_fronts _ _ _ _); try contradiction; reflexivity.
  destruct (mt_fronts (nb_step k) pin (ns_pops s) (nb_pops k)) as [jobs'| |] eqn:EM; try contradiction. cbn [obind].
  destruct (fronts_facts _ _ _ _ Lin Hsz EF) as (J1 & J2 & J3 & J4).
  assert (Lj : length jobs = length (nb_pops k)) by (apply (f_equal (@length _)) in J2; now rewrite !map_length in J2).
  destruct (train_phase pow2f (nb_step k) jobs jobs' (nb_projs k) (ns_train s) Hkinds J1) as (res & P & jobs2 & projs1 & T1 & T2 & T3 & T4 & T5 & T6 & T7 & T8).
  { rewrite J2, Hus. exact Hud. } { exact HF. } { rewrite Lj. exact HS2. }
  rewrite T1 in HT. cbn [obind fst snd] in HT. rewrite HT. rewrite T2. cbn [obind fst snd].
  set (pout := map (job_message (nb_step k)) jobs2). set (pops' := map (fun jb => (jb_uid jb, jb_pop jb)) jobs2) in *.
  destruct (send_all_eq S_ pout b1 G1 F1) as (b2 & E2 & G2 & F2 & Z2 & O2 & Q2). rewrite E2. cbn [obind].
  destruct (route_good S_ b2 G2) as (b3 & E3 & G3 & O3 & S3 & P3 & R3). rewrite E3. cbn [obind].
  pose proof (route_front b2 b3 (g_ids S_ b2 G2) F2 E3) as F3.
  assert (Hp2 : pending b2 = sent_msgs pout ++ ext).
  { rewrite (pending_front _ F2), Q2, O2, Q1, O1, Ho, Hoth. reflexivity. }
  rewrite Hp2 in R3.
  pose proof (kept_all_ok _ _ _ T8 Hok T7) as Hok1. pose proof (kept_all_fixed _ _ _ T8) as Hfx1. rewrite Hhs in Hfx1.
  pose proof (kept_loadable _ _ _ T8 Hld) as Hld1.
  destruct (map_fixed_uid _ _ Hfx1) as [Hu1 Hh1].
  assert (Hnd' : NoDup (map np_uid projs1)) by (rewrite Hu1; exact Hpd).
  destruct (unload_all_eq S_ 0 (map np_uid projs1) b3 G3 F3 Hnd') as (b4 & E4 & G4 & F4 & Z4 & O4 & Q4).
  set (jin := map (fun w => filter (to_nproj extra w) (sent_msgs pout ++ ext)) projs1).
  assert (Hjin : map (waiting b3 0) (map np_uid projs1) = jin).
  { rewrite map_map. apply map_ext_in. intros w Hw. destruct (fixed_In projs1 projs0 w Hfx1 Hw) as (w0 & Hw0 & Ew).
    destruct (fixed_uid _ _ Ew) as (Eu & _ & _). rewrite <- Eu, R3, Z2, Z1. cbn [Nat.eqb andb]. rewrite (W0 w0 Hw0). cbn [app].
    apply filter_ext. intros m. rewrite <- (fixed_to extra w0 w m Ew). now apply nS0_projection. }
  rewrite E4, Hjin. cbn [obind fst snd].
  assert (Ljn : length jin = length projs1) by apply map_length.
  assert (Los : length (ns_projs s) = length projs1).
  { apply Forall2_len in HS3. apply Forall2_len in T8. lia. }
  destruct (mt_nprojs_spec (nb_step k) projs1 jin (ns_projs s) Ljn Los Hok1 Hld1) as (projs2 & jout & E5 & K1 & K2 & K3 & K4 & K5).
  rewrite E5. cbn [obind fst snd].
  destruct (send_all_eq S_ jout b4 G4 F4) as (b5 & E6 & G5 & F5 & Z5 & O5 & Q5). rewrite E6. cbn [obind].
  destruct (route_good S_ b5 G5) as (b6 & E7 & G6 & O6 & S6 & P6 & R6). rewrite E7. cbn [obind].
  pose proof (route_front b5 b6 (g_ids S_ b5 G5) F5 E7) as F6.
  assert (Hp5 : pending b5 = sent_msgs jout).
  { assert (Hb3 : pending b3 = []) by exact P3. rewrite (pending_front _ F3) in Hb3. apply app_eq_nil in Hb3 as [X1 X2].
    rewrite (pending_front _ F5), Q5, O5, Q4, O4, X1, X2. cbn [app]. now rewrite app_nil_r. }
  rewrite Hp5 in R6.
  eexists. eexists. split; [reflexivity|]. cbn [nr_msgs nr_pops nr_projs nr_trained nr_pops' nr_projs' r_ext r_proj_out nb_pops nb_projs nb_step].
  assert (Hsp : spike_only (sent_msgs pout)) by apply job_message_type.
  assert (Hsz2 : npop_sizes pops' = npop_sizes pops0).
  { rewrite <- Hsizes. destruct (jobs_spec pow2f (nb_step k) jobs (nb_projs k) Hkinds J1) as (res1 & PP & X1 & _ & _ & _ & X2); [rewrite J2, Hus; exact Hud|].
    rewrite T1 in X1. injection X1 as <- _. change (npop_sizes (nb_pops k)) with (map (fun e : uid * npop => size (snd e)) (nb_pops k)). rewrite <- J3. rewrite <- T3. clear -X2. unfold npop_sizes.
    induction X2 as [|jb e t t' [_ H] _ IH]; [reflexivity|]. cbn [map]. rewrite IH. f_equal.
    unfold job_result in H. destruct (jb_pop jb), (snd e); try contradiction; [now rewrite H|apply H|apply H]. }
  assert (Hus2 : map fst pops' = us).
  { unfold pops'. rewrite map_map. cbn [fst]. rewrite <- Hus, <- J2, <- T4. reflexivity. }
  split; [|split; [|auto 10]].
  - split; cbn [nr_msgs nr_pops nr_projs nr_trained nr_pops' nr_projs' r_ext r_pop_in r_pop_out r_proj_in r_proj_out]; auto; try congruence.
    + exists P, (map (job_message (nb_step k)) jobs). split; [rewrite <- T3; exact HT|]. split; [exact T6|].
      apply alike_spikes; [exact T4|]. clear -HF T5. revert jobs2 T5. induction HF as [|a b t t' (_ & _ & H) _ IH]; intros [|x jobs2] E; cbn [map] in E; try discriminate; constructor.
      * injection E as -> _. exact H.
      * apply IH. now injection E.
    + unfold pout. assert (Forall (fun jb => NoDup (jb_fired jb)) jobs2) as Hx.
      { clear -HF T5 J1. revert jobs2 T5. induction HF as [|a b t t' (_ & _ & H) _ IH]; intros [|x jobs2] E; cbn [map] in E; try discriminate; constructor.
        - injection E as -> _. apply Forall_cons_iff in J1 as [[J _] _]. eapply Permutation_NoDup; eauto.
        - apply IH; [apply Forall_cons_iff in J1; apply J1|]. now injection E. }
      clear -Hx. induction Hx as [|jb t H _ IH]; cbn [map]; [constructor|]. rewrite sent_msgs_cons. apply Forall_app. split; [|exact IH].
      unfold job_message, spike_message. destruct (jb_fired jb); cbn [sent_msgs flat_map app]; [constructor|constructor; [exact H|constructor]].
    + intros j w Hj. assert (Hm : nth_error jin j = Some (filter (to_nproj extra w) (sent_msgs pout ++ ext))) by (unfold jin; rewrite nth_error_map, Hj; reflexivity).
      destruct (nth_error (ns_projs s) j) as [ord|] eqn:Eo.
      2:{ exfalso. apply nth_error_None in Eo. assert (nth_error projs1 j <> None) as Hn by congruence. apply nth_error_Some in Hn. lia. }
      destruct (K5 j w _ ord Hj Hm Eo) as (w' & m & A1 & A2 & A3). exists w', m, ord. unfold spikes_for. cbn [nr_msgs r_pop_out r_ext]. auto.
  - split; [|split; [exact F6|split; [exact K3|exact Hsz2]]].
    split; cbn [nb_bus nb_pops nb_projs]; auto; try congruence.
    + clear -Hsz2 Hsz Hsizes. rewrite <- Hsizes in Hsz2. clear Hsizes. unfold npop_sizes in Hsz2. revert Hsz2. generalize pops' as l. induction Hsz as [|e t He _ IH]; intros [|e' l] E; cbn [map] in E; try discriminate; constructor.
      * injection E as -> _. exact He.
      * apply IH. now injection E.
    + intros w Hw. rewrite R6, Z5, Z4. cbn [Nat.eqb andb].
      assert (Hm : mem (np_uid w) (map np_uid projs1) = true) by (apply mem_In; rewrite Hu1; now apply in_map).
      rewrite Hm. cbn [app]. apply impact_not_wanted. exact K1.
    + intros u Hu. rewrite R6, Z5, Z4. cbn [Nat.eqb andb]. rewrite R3, Z2, Z1. cbn [Nat.eqb andb].
      assert (Hm : mem u (map fst (nb_pops k)) = true) by (apply mem_In; now rewrite Hus).
      rewrite Hm. cbn [app]. rewrite !filter_app, spike_not_wanted by exact Hsp. cbn [app].
      f_equal; apply filter_ext; intros m; apply nS0_population.
Qed.

(** ** Runs *)
Definition mbefore (prev : list message) (tr : list nrecord) (t : nat) : list message :=
  match t with 0 => prev | S _ => late (map nr_msgs tr) t end.
Lemma mt_nrun_facts : forall turns prev k k' tr, mt_ready prev k ->
  Forall (fun c => forallb outside (tu_ops (fst c)) = true /\ nsched_ok pp pj pops0 projs0 (snd c)) turns ->
  mt_nbackend_run pow2f turns k = Ret (k', tr) -> (nb_step k < two64)%N ->
  length tr = length turns /\
  (forall t r c, nth_error tr t = Some r -> nth_error turns t = Some c ->
     mt_facts (mbefore prev tr t) ((nb_step k + N.of_nat t) mod two64) (snd c) r /\
     nr_pops r = fst (after tr (nb_pops k) (nb_projs k) t) /\
     nr_projs r = learn_all (tu_learn (fst c)) (snd (after tr (nb_pops k) (nb_projs k) t))) /\
  (nb_pops k', nb_projs k') = after tr (nb_pops k) (nb_projs k) (length tr) /\ mt_ready (mbefore prev tr (length tr)) k'.
Proof.
  induction turns as [|[u s] turns IH]; intros prev k k' tr R Hf H Hlt; cbn [mt_nbackend_run] in H.
  - injection H as <- <-. split; [reflexivity|]. split; [|auto]. intros t r u Ht. destruct t; discriminate.
  - apply Forall_cons_iff in Hf as [[Hops Hsch] Hf]. cbn [fst snd] in Hops, Hsch.
    destruct (run (nb_bus k) (tu_ops u)) as [[b trb]| |] eqn:Er; cbn [obind fst] in H; try discriminate.
    set (k1 := mkNB b (nb_pops k) (learn_all (tu_learn u) (nb_projs k)) (nb_step k)) in *.
    assert (R1 : mt_ready prev k1).
    { destruct R as (R & F & Hl & Hz). destruct R as [G Ho Hus Hsz Hhs Hok W0 W1]. destruct (outside_run S_ (tu_ops u) (nb_bus k) b trb G Hops Er) as (G' & W & S').
      split; [|split; [|split]]; cbn [k1 nb_bus nb_pops nb_projs]; [split; cbn [k1 nb_bus nb_pops nb_projs]; auto; try congruence| | |exact Hz].
      - now rewrite learn_all_fixed.
      - now apply learn_all_ok.
      - intros w Hw. rewrite W. auto.
      - intros v Hv. rewrite W. auto.
      - exact (outside_run_front _ _ _ _ (g_ids S_ _ G) F Hops Er).
      - now apply learn_all_loadable. }
    change (pending b) with (pending (nb_bus k1)) in H.
    pose proof (mt_nstep_eq s prev k1 R1 Hsch) as Hstep.
    destruct (in_turn _ _ _ _ _) as [y| |]; [|rewrite Hstep in H; discriminate|rewrite Hstep in H; discriminate].
    destruct Hstep as (k2 & r & Es & SF & R2 & X1 & X2 & X3 & X4 & X5 & X6).
    rewrite Es in H. cbn [obind fst snd] in H.
    destruct (mt_nbackend_run pow2f turns k2) as [[k3 tr']| |] eqn:Eb; cbn [obind fst snd] in H; try discriminate.
    injection H as <- <-.
    assert (Hlt2 : (nb_step k2 < two64)%N). { rewrite X6. unfold add64, w64. apply N.mod_lt. discriminate. }
    destruct (IH _ k2 k3 tr' R2 Hf Eb Hlt2) as (L & IS & IE & IR). cbn [length].
    split; [congruence|]. split; [|split].
    + intros t r0 u0 Ht Hu. destruct t as [|t]; cbn [nth_error] in Ht, Hu.
      * injection Ht as <-. injection Hu as <-. cbn [mbefore N.of_nat after fst snd]. rewrite N.add_0_r, N.mod_small by exact Hlt.
        split; [exact SF|]. auto.
      * destruct (IS t r0 u0 Ht Hu) as (H1 & H2 & H3).
        assert (Hafter : after (r :: tr') (nb_pops k) (nb_projs k) (S t) = after tr' (nb_pops k2) (nb_projs k2) t).
        { cbn [after nth_error]. destruct t as [|t]; cbn [after nth_error]; [now rewrite X4, X5|].
          destruct (nth_error tr' t) eqn:Et; [reflexivity|]. apply nth_error_None in Et.
          assert (nth_error tr' (S t) <> None) as Hn by congruence. apply nth_error_Some in Hn. lia. }
        rewrite Hafter. split; [|auto].
        assert (Hb : mbefore prev (r :: tr') (S t) = mbefore (pending (nb_bus k1) ++ sent_msgs (r_proj_out (nr_msgs r))) tr' t).
        { unfold mbefore. cbn [late map nth_error]. destruct t as [|t]; cbn [nth_error late]; [now rewrite X1|reflexivity]. }
        rewrite Hb. replace ((nb_step k + N.of_nat (S t)) mod two64)%N with ((nb_step k2 + N.of_nat t) mod two64)%N; [exact H1|].
        rewrite X6. cbn [k1 nb_step]. unfold add64, w64. change (2 ^ 64)%N with two64. rewrite N.add_mod_idemp_l by discriminate. f_equal. lia.
    + rewrite IE. cbn [after nth_error]. destruct (length tr') as [|n] eqn:El.
      * destruct tr'; [|discriminate]. cbn [after]. now rewrite X4, X5.
      * cbn [after nth_error]. destruct (nth_error tr' n) eqn:En; [reflexivity|]. apply nth_error_None in En. lia.
    + assert (Hb : mbefore prev (r :: tr') (S (length tr')) = mbefore (pending (nb_bus k1) ++ sent_msgs (r_proj_out (nr_msgs r))) tr' (length tr')).
      { unfold mbefore. cbn [late map nth_error]. destruct (length tr'); cbn [nth_error late]; [now rewrite X1|reflexivity]. }
      rewrite Hb. exact IR.
Qed.
End Run.

Lemma nbackend_init_front extra pops projs k : nbackend_init extra pops projs = Ret k -> Mt_Proofs.front (nb_bus k).
Proof.
  unfold nbackend_init. destruct (run bus_init _) as [[b tr]| |] eqn:E; cbn [obind fst]; try discriminate.
  intros H. injection H as <-. cbn [nb_bus]. cbn [run exec obind fst] in E.
  destruct (run (create_endpoint bus_init) _) as [[b' tr']| |] eqn:E'; cbn [obind fst snd] in E; try discriminate.
  injection E as <- _. apply (own_run_front _ _ _ _ (ids_ok_exec bus_init OCreate _ _ ids_ok_init eq_refl)) in E'; auto.
  - split; [reflexivity|]. eexists. eexists. split; [reflexivity|]. auto.
  - apply Forall_app. split.
    + unfold extra_ops. apply Forall_map, Forall_forall. reflexivity.
    + eapply Forall_impl; [|apply ninit_ops_subscribe]. intros o (ty & r & ss & ->). reflexivity.
Qed.
Lemma mt_init_ready extra pops projs : sound_network pops projs -> Forall loadable projs ->
  exists k, nbackend_init extra pops projs = Ret k /\ nb_pops k = pops /\ nb_projs k = projs /\ nb_step k = 0%N /\
    mt_ready extra projs (map fst pops) pops [] k.
Proof.
  intros Hs Hl. destruct (nbackend_init_ready extra pops projs Hs) as (k & E & E1 & E2 & E3 & R).
  exists k. split; [exact E|]. split; [exact E1|]. split; [exact E2|]. split; [exact E3|]. split; [exact R|].
  split; [eapply nbackend_init_front; exact E|]. rewrite E1, E2. auto.
Qed.

Lemma mt_net_run_facts pow2f extra pops projs pp pj turns k tr : sound_network pops projs -> Forall loadable projs -> (0 < pp < two64)%N ->
  Forall (fun c => forallb outside (tu_ops (fst c)) = true /\ nsched_ok pp pj pops projs (snd c)) turns ->
  mt_net_run pow2f extra pops projs turns k tr ->
  length tr = length turns /\
  (forall t r c, nth_error tr t = Some r -> nth_error turns t = Some c ->
     mt_facts pow2f extra projs (map fst pops) pops (late (map nr_msgs tr) t) (N.of_nat t mod two64) (snd c) r /\
     nr_pops r = fst (after tr pops projs t) /\ nr_projs r = learn_all (tu_learn (fst c)) (snd (after tr pops projs t))) /\
  (nb_pops k, nb_projs k) = after tr pops projs (length tr) /\ mt_ready extra projs (map fst pops) pops (late (map nr_msgs tr) (length tr)) k.
Proof.
  intros Hs Hl Hp Hf (k0 & Hi & Hr). destruct (mt_init_ready extra pops projs Hs Hl) as (k1 & E & E1 & E2 & E3 & R).
  rewrite Hi in E. injection E as <-.
  destruct (mt_nrun_facts pow2f extra projs (map fst pops) pops pp pj (sn_projs _ _ Hs) (sn_pops _ _ Hs) Hp turns [] k0 k tr R Hf Hr) as (L & F & X & RR).
  { rewrite E3. reflexivity. }
  rewrite E1, E2, E3 in *. split; [exact L|]. split; [|split; [exact X|unfold mbefore in RR; destruct (length tr); exact RR]].
  intros t r u Ht Hu. destruct (F t r u Ht Hu) as (F1 & F2 & F3). split; [|auto]. unfold mbefore in F1. destruct t; exact F1.
Qed.
