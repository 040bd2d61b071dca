(** Proofs about the step of the multi-threaded backend. *)
From Verif Require Import Base ListLemmas Messaging_Model Messaging_Spec Messaging_Proofs Messaging_Proofs2
  Projection_Model Delta_Model Delta_Spec Delta_Proofs Neuron_Model Pipeline_Model Pipeline_Spec Pipeline_Proofs Pipeline_Proofs2
  Mt_Model Mt_Spec.

(** ** The backend's endpoint is the first of the bus *)
Definition front (b : bus) : Prop :=
  b_route b = [] /\ exists e tl, b_eps b = e :: tl /\ e_id e = 0 /\ e_alive e = true.
Definition others (b : bus) : list message := flat_map e_send (filter e_alive (tl (b_eps b))).

Lemma pending_front b : front b -> pending b = own_sent b ++ others b.
Proof.
  intros (Hr & e & l & E & Hi & Ha). unfold pending, own_sent, others, ep_find. rewrite Hr, E. cbn [app tl filter find].
  rewrite Hi, Ha. reflexivity.
Qed.
Lemma put_front b e' : ids_ok b -> front b -> e_id e' = 0 -> e_alive e' = true ->
  front (ep_put e' b) /\ others (ep_put e' b) = others b.
Proof.
  intros (Hn & _) (Hr & e & l & E & Hi & Ha) Hi' Ha'. unfold front, others, ep_put. cbn [b_eps b_route].
  rewrite E in *. cbn [map tl] in *. rewrite Hi, Hi'. cbn [Nat.eqb]. inversion Hn as [|? ? Hni _]; subst.
  assert (Hm : map (fun x => if Nat.eqb (e_id x) 0 then e' else x) l = l).
  { rewrite <- (map_id l) at 2. apply map_ext_in. intros x Hx. destruct (Nat.eqb_spec (e_id x) 0) as [E0|E0]; [|reflexivity].
    exfalso. apply Hni. rewrite Hi, <- E0. now apply in_map. }
  split.
  - split; [exact Hr|]. exists e', l. split; [now rewrite Hm|auto].
  - now rewrite Hm.
Qed.
Lemma method_front b o b' x : ids_ok b -> front b -> op_id o = Some 0 -> exec b o = Ret (b', x) ->
  front b' /\ others b' = others b.
Proof.
  intros Hi F Eo Hx. destruct (ep_find_method o 0 b b' x Hi Eo Hx) as (e & e' & He & Hef & Hid & -> & Hall).
  apply put_front; auto. pose proof (Hall 0) as H0. rewrite Nat.eqb_refl in H0. now apply ep_find_Some in H0.
Qed.
Lemma outside_front b o b' x : ids_ok b -> front b -> outside o = true -> exec b o = Ret (b', x) -> front b'.
Proof.
  intros Hi F Ho Hx. pose proof F as (Hr & e & l & E & He & Ha). destruct (op_id o) as [i|] eqn:Eo.
  - destruct (ep_find_method o i b b' x Hi Eo Hx) as (e0 & e0' & _ & _ & Hid & -> & _).
    assert (Hne : i <> 0) by (intros ->; destruct o; cbn [op_id] in Eo; try discriminate; injection Eo as ->; discriminate).
    split; [exact Hr|]. exists e. eexists. unfold ep_put. cbn [b_eps]. rewrite E. cbn [map]. rewrite He.
    destruct (Nat.eqb_spec 0 (e_id e0')); [congruence|]. auto.
  - destruct o; cbn [op_id] in Eo; try discriminate; cbn [outside] in Ho; try discriminate; cbn [exec] in Hx.
    + injection Hx as <- _. split; [exact Hr|]. exists e. eexists. unfold create_endpoint. cbn [b_eps]. rewrite E.
      cbn [app]. auto.
    + destruct (ep_find id b); [|discriminate]. injection Hx as <- _. split; [exact Hr|]. exists e. eexists.
      unfold destroy_endpoint. cbn [b_eps]. rewrite E. cbn [map]. rewrite He.
      destruct (Nat.eqb_spec 0 id) as [E0|E0]; [subst id; discriminate|]. auto.
Qed.
Lemma outside_run_front : forall ops b b' tr, ids_ok b -> front b -> forallb outside ops = true ->
  run b ops = Ret (b', tr) -> front b'.
Proof.
  induction ops as [|o ops IH]; intros b b' tr Hi F Ho Hr; cbn [run] in Hr.
  - injection Hr as <- _. exact F.
  - cbn [forallb] in Ho. apply andb_true_iff in Ho as [Ho1 Ho2].
    destruct (exec b o) as [[b1 x]| |] eqn:Ex; cbn [obind fst] in Hr; try discriminate.
    destruct (run b1 ops) as [[b2 tr2]| |] eqn:Er; cbn [obind fst] in Hr; try discriminate.
    injection Hr as <- _. eapply (IH b1); eauto. eapply ids_ok_exec; eauto. eapply outside_front; eauto.
Qed.
Lemma route_front b b' : ids_ok b -> front b -> route_receive_own b = Ret b' -> front b'.
Proof.
  intros Hi F H. unfold route_receive_own in H.
  destruct (exec b ORoute) as [[b1 x]| |] eqn:E1; cbn [obind fst] in H; try discriminate.
  destruct (exec b1 (OReceiveAll 0)) as [[b2 y]| |] eqn:E2; cbn [obind fst] in H; try discriminate.
  injection H as <-. pose proof (ids_ok_exec b ORoute b1 _ Hi E1) as Hi1.
  enough (F1 : front b1) by exact (proj1 (method_front b1 (OReceiveAll 0) b2 y Hi1 F1 eq_refl E2)).
  cbn [exec] in E1. rewrite route_eq in E1. injection E1 as <- _.
  destruct F as (Hr & e & l & E & He & Ha). split; [reflexivity|]. cbn [b_eps]. rewrite E. cbn [filter]. rewrite Ha. cbn [map].
  eexists. eexists. split; [reflexivity|]. unfold offered, clear_send. cbn [e_alive e_id]. auto.
Qed.

Section Good.
Variable S_ : nat -> uid -> option (list uid).
Local Notation good := (good S_).

Lemma unload_front b ty r : good b -> front b ->
  exists b1, unload_own b ty r = Ret (b1, waiting b ty r) /\ good b1 /\ front b1 /\
    (forall ty' r', waiting b1 ty' r' = if key_eqb (ty', r') (ty, r) then [] else waiting b ty' r') /\
    others b1 = others b /\ own_sent b1 = own_sent b.
Proof.
  intros G F. destruct (unload_good S_ b ty r G) as (b1 & E & G1 & W & P & S1 & _). exists b1.
  assert (H : front b1 /\ others b1 = others b).
  { unfold unload_own in E. destruct (exec b (OUnload 0 ty r)) as [[b2 x]| |] eqn:Ex; cbn [obind fst snd] in E; try discriminate.
    destruct x; try discriminate. injection E as <- _.
    exact (method_front b (OUnload 0 ty r) b2 _ (g_ids S_ b G) F eq_refl Ex). }
  destruct H. auto 10.
Qed.
Lemma send_front b o : good b -> front b ->
  exists b1, send_own b o = Ret b1 /\ good b1 /\ front b1 /\
    (forall ty r, waiting b1 ty r = waiting b ty r) /\ others b1 = others b /\
    own_sent b1 = own_sent b ++ sent_msgs [o].
Proof.
  intros G F. destruct (send_good S_ b o G) as (b1 & E & G1 & _ & W & S1). exists b1.
  assert (H : front b1 /\ others b1 = others b).
  { destruct o as [m|]; cbn [send_own] in E; [|injection E as <-; auto].
    destruct (exec b (OSend 0 m)) as [[b2 x]| |] eqn:Ex; cbn [obind fst] in E; try discriminate. injection E as <-.
    exact (method_front b (OSend 0 m) b2 _ (g_ids S_ b G) F eq_refl Ex). }
  destruct H. auto 10.
Qed.

Lemma unload_all_eq ty : forall rs b, good b -> front b -> NoDup rs ->
  exists b', unload_all ty rs b = Ret (b', map (waiting b ty) rs) /\ good b' /\ front b' /\
    (forall ty' r, waiting b' ty' r = if Nat.eqb ty' ty && mem r rs then [] else waiting b ty' r) /\
    others b' = others b /\ own_sent b' = own_sent b.
Proof.
  induction rs as [|r rs IH]; intros b G F Hn; cbn [unload_all map].
  - exists b. split; [reflexivity|]. split; [exact G|]. split; [exact F|]. split; [|auto].
    intros ty' r. cbn [mem existsb]. now rewrite andb_false_r.
  - inversion Hn as [|? ? Hni Hn']; subst.
    destruct (unload_front b ty r G F) as (b1 & E1 & G1 & F1 & W1 & O1 & S1). rewrite E1. cbn [obind fst snd].
    destruct (IH b1 G1 F1 Hn') as (b2 & E2 & G2 & F2 & W2 & O2 & S2). rewrite E2. cbn [obind fst snd].
    exists b2. split; [|split; [exact G2|split; [exact F2|split; [|split; congruence]]]].
    + do 2 f_equal. f_equal. apply map_ext_in. intros r' Hr'. rewrite W1, key_same_ty.
      destruct (N.eqb_spec r' r) as [->|_]; [contradiction|reflexivity].
    + intros ty' r'. rewrite W2, W1. unfold mem at 2. cbn [existsb]. fold (mem r' rs). unfold key_eqb. cbn [fst snd].
      destruct (Nat.eqb ty' ty); cbn [andb]; [|reflexivity].
      destruct (mem r' rs); [now rewrite orb_true_r|]. rewrite orb_false_r. reflexivity.
Qed.
Lemma send_all_eq : forall l b, good b -> front b ->
  exists b', send_all l b = Ret b' /\ good b' /\ front b' /\
    (forall ty r, waiting b' ty r = waiting b ty r) /\ others b' = others b /\
    own_sent b' = own_sent b ++ sent_msgs l.
Proof.
  induction l as [|o l IH]; intros b G F; cbn [send_all].
  - exists b. cbn [sent_msgs flat_map]. rewrite app_nil_r. auto 10.
  - destruct (send_front b o G F) as (b1 & E1 & G1 & F1 & W1 & O1 & S1). rewrite E1. cbn [obind].
    destruct (IH b1 G1 F1) as (b2 & E2 & G2 & F2 & W2 & O2 & S2). exists b2. split; [exact E2|].
    split; [exact G2|]. split; [exact F2|]. split; [|split; [congruence|]].
    + intros. now rewrite W2, W1.
    + rewrite S2, S1, (sent_msgs_cons o l), app_assoc. reflexivity.
Qed.
End Good.

(** ** Types and sizes *)
Lemma mt_apop_step_type u step ms o a a' m : mt_apop_step u step ms o a = Ret (a', m) -> spike_only (sent_msgs [m]).
Proof.
  unfold mt_apop_step. destruct a; unfold mt_population_step; intros H;
  match type of H with obind ?e _ = _ => destruct e as [[[x y] z]| |] eqn:E end; cbn [obind fst snd] in H; try discriminate;
  match type of E with obind ?e _ = _ => destruct e as [n1| |] end; cbn [obind] in E; try discriminate;
  match type of E with (let (_, _) := ?e in _) = _ => destruct e as [n2 idx] end;
  injection E as <- <- <-; injection H as <- <-; (destruct (Nat.eqb _ 0); cbn [sent_msgs flat_map app]; repeat constructor).
Qed.
Lemma mt_pops_type step : forall pops ins os pops' outs,
  mt_pops step ins os pops = Ret (pops', outs) -> spike_only (sent_msgs outs).
Proof.
  induction pops as [|[u a] pops IH]; intros ins os pops' outs H; cbn [mt_pops] in H.
  - destruct ins, os; injection H as <- <-; constructor.
  - destruct ins as [|ms ins]; [injection H as <- <-; constructor|]. destruct os as [|o os]; [injection H as <- <-; constructor|].
    cbn [mt_pops] in H. destruct (mt_apop_step u step ms o a) as [[a' m]| |] eqn:E; cbn [obind fst snd] in H; try discriminate.
    destruct (mt_pops step ins os pops) as [[t' os']| |] eqn:E'; cbn [obind fst snd] in H; try discriminate.
    injection H as <- <-. rewrite sent_msgs_cons. apply Forall_app. split; [eapply mt_apop_step_type; eauto|eapply IH; eauto].
Qed.
Lemma mt_pops_uids step : forall pops ins os pops' outs, length ins = length pops -> length os = length pops ->
  mt_pops step ins os pops = Ret (pops', outs) -> map fst pops' = map fst pops.
Proof.
  induction pops as [|[u a] pops IH]; intros ins os pops' outs L1 L2 H; cbn [mt_pops] in H.
  - destruct ins, os; injection H as <- <-; reflexivity.
  - destruct ins as [|ms ins]; [discriminate|]. destruct os as [|o os]; [discriminate|].
    cbn [mt_pops] in H. destruct (mt_apop_step u step ms o a) as [[a' m]| |] eqn:E; cbn [obind fst snd] in H; try discriminate.
    destruct (mt_pops step ins os pops) as [[t' os']| |] eqn:E'; cbn [obind fst snd] in H; try discriminate.
    injection H as <- <-. cbn [map fst]. f_equal. cbn [length] in *. apply (IH ins os t' os'); auto.
Qed.
Lemma mt_schedule_ok h step key i q : queue_ok q -> queue_ok (mt_schedule h step key i q).
Proof.
  intros H. unfold mt_schedule. destruct (q_find _ _); [now apply q_push_ok|].
  unfold queue_ok in *. apply Forall_app. split; [exact H|]. repeat constructor.
Qed.
Lemma mt_merge_ok h step c : forall q, queue_ok q -> queue_ok (mt_merge h step c q).
Proof. unfold mt_merge. induction c as [|e c IH]; intros q H; cbn [fold_left]; [exact H|]. apply IH. now apply mt_schedule_ok. Qed.
Lemma mt_parts_ok h step counts l : forall order q, queue_ok q -> queue_ok (fold_left (mt_part h step counts l) order q).
Proof. induction order as [|p o IH]; intros q H; cbn [fold_left]; [exact H|]. apply IH. unfold mt_part. now apply mt_merge_ok. Qed.
Lemma mt_calculate_ok h step ms l order q q' o : queue_ok q -> mt_calculate h step ms l order q = (q', o) ->
  queue_ok q' /\ impact_only (sent_msgs [o]).
Proof.
  intros Hq H. unfold mt_calculate in H.
  set (q1 := match ms with [] => q | m :: _ => _ end) in H.
  assert (H1 : queue_ok q1) by (unfold q1; destruct ms; [exact Hq|now apply mt_parts_ok]).
  destruct (q_find step q1) as [m|] eqn:E; injection H as <- <-.
  - split.
    + unfold queue_ok, q_erase in *. rewrite Forall_forall in *. intros e He. apply filter_In in He. now apply H1.
    + repeat constructor. eapply q_find_ok; eauto.
  - split; [exact H1|]. constructor.
Qed.
Lemma mt_projs_ok step : forall projs ins os, Forall (fun w => queue_ok (wp_queue w)) projs ->
  length ins = length projs -> length os = length projs ->
  Forall (fun w => queue_ok (wp_queue w)) (fst (mt_projs step ins os projs)) /\
  impact_only (sent_msgs (snd (mt_projs step ins os projs))) /\
  heads (fst (mt_projs step ins os projs)) = heads projs.
Proof.
  induction projs as [|w projs IH]; intros ins os Hq L1 L2; cbn [mt_projs].
  - destruct ins, os; cbn [mt_projs fst snd]; repeat split; constructor.
  - destruct ins as [|ms ins]; [discriminate|]. destruct os as [|o os]; [discriminate|]. cbn [length mt_projs] in *.
    inversion Hq as [|? ? Hw Hq']; subst.
    destruct (mt_calculate _ _ _ _ _ _) as [q m] eqn:E. destruct (mt_calculate_ok _ _ _ _ _ _ _ _ Hw E) as (H1 & H2).
    destruct (IH ins os Hq' ltac:(lia) ltac:(lia)) as (I1 & I2 & I3).
    destruct (mt_projs step ins os projs) as [t' l]. cbn [fst snd] in *. split; [constructor; auto|]. split.
    + rewrite sent_msgs_cons. apply Forall_app. auto.
    + unfold heads in *. cbn [map wp_head]. now rewrite I3.
Qed.

(** ** One step *)
Section Run.
Variables (extra : list subscr) (projs0 : list wproj) (us : list uid).
Hypothesis Hpd : NoDup (map (fun w => ph_uid (wp_head w)) projs0).
Hypothesis Hud : NoDup us.
Local Notation S_ := (S0 extra projs0).
Local Notation hs := (heads projs0).
Local Notation ready := (ready extra projs0 us).

Definition mt_pop_ins (prev : list message) (pops : list (uid * apop)) : list (list message) :=
  map (fun p => filter (to_population hs extra (fst p)) prev) pops.
Definition mt_proj_ins (spikes ext : list message) (projs : list wproj) : list (list message) :=
  map (fun w => filter (to_projection extra (wp_head w)) (spikes ++ ext)) projs.

Lemma mt_step_eq s prev k : ready prev k -> front (k_bus k) ->
  length (sc_pops s) = length (k_pops k) -> length (sc_projs s) = length (k_projs k) ->
  match mt_pops (k_step k) (mt_pop_ins prev (k_pops k)) (sc_pops s) (k_pops k) with
  | Throw => mt_backend_step s (pending (k_bus k)) k = Throw
  | UB => mt_backend_step s (pending (k_bus k)) k = UB
  | Ret (pops', pout) =>
    let ext := pending (k_bus k) in
    let jins := mt_proj_ins (sent_msgs pout) ext (k_projs k) in
    let x := mt_projs (k_step k) jins (sc_projs s) (k_projs k) in
    exists b',
      let k' := mkBackend b' pops' (fst x) (add64 (k_step k) 1) in
      mt_backend_step s ext k = Ret (k', mkRecord ext (mt_pop_ins prev (k_pops k)) pout jins (snd x)) /\
      ready (ext ++ sent_msgs (snd x)) k' /\ front b'
  end.
Proof.
  intros R F L1 L2. destruct R as [G Ho Hus Hhs Hqs W0 W1]. set (ext := pending (k_bus k)) in *.
  assert (Hoth : others (k_bus k) = ext).
  { unfold ext. rewrite (pending_front _ F), Ho. reflexivity. }
  unfold mt_backend_step, mt_populations_phase.
  destruct (unload_all_eq S_ 1 (map fst (k_pops k)) (k_bus k) G F) as (b1 & E1 & G1 & F1 & Z1 & O1 & Q1).
  { rewrite Hus. exact Hud. }
  assert (Hins : map (waiting (k_bus k) 1) (map fst (k_pops k)) = mt_pop_ins prev (k_pops k)).
  { rewrite map_map. unfold mt_pop_ins. apply map_ext_in. intros p Hp. apply W1. rewrite <- Hus. now apply in_map. }
  rewrite E1, Hins. cbn [obind fst snd].
  destruct (mt_pops (k_step k) (mt_pop_ins prev (k_pops k)) (sc_pops s) (k_pops k)) as [[pops' pout]| |] eqn:EP; cbn [obind fst snd]; try reflexivity.
  destruct (send_all_eq S_ pout b1 G1 F1) as (b2 & E2 & G2 & F2 & Z2 & O2 & Q2). rewrite E2. cbn [obind].
  assert (Hsp : spike_only (sent_msgs pout)) by (eapply mt_pops_type; eauto).
  destruct (route_good S_ b2 G2) as (b3 & E3 & G3 & O3 & S3 & P3 & R3). rewrite E3. cbn [obind].
  pose proof (route_front b2 b3 (g_ids S_ b2 G2) F2 E3) as F3.
  rewrite (pending_front b2 F2), Q2, Q1, Ho, O2, O1, Hoth in R3. cbn [app] in R3.
  assert (Hoth3 : others b3 = []).
  { pose proof (pending_front b3 F3) as H. rewrite S3 in H. cbn [app] in H. congruence. }
  assert (Hnd' : NoDup (map (fun w => ph_uid (wp_head w)) (k_projs k))) by (rewrite (heads_uids (k_projs k) projs0 Hhs); exact Hpd).
  unfold mt_projections_phase.
  destruct (unload_all_eq S_ 0 _ b3 G3 F3 Hnd') as (b4 & E4 & G4 & F4 & Z4 & O4 & Q4).
  assert (Hjins : map (waiting b3 0) (map (fun w => ph_uid (wp_head w)) (k_projs k)) = mt_proj_ins (sent_msgs pout) ext (k_projs k)).
  { rewrite map_map. unfold mt_proj_ins. apply map_ext_in. intros w Hw.
    destruct (In_head projs0 (k_projs k) w Hhs Hw) as (w0 & Hw0 & Ew). rewrite <- Ew, R3, Z2, Z1. cbn [Nat.eqb andb].
    rewrite (W0 w0 Hw0). cbn [app]. apply filter_ext. intros m. now apply S0_projection. }
  rewrite E4, Hjins. cbn [obind fst snd]. cbv zeta.
  set (jins := mt_proj_ins (sent_msgs pout) ext (k_projs k)) in *.
  set (x := mt_projs (k_step k) jins (sc_projs s) (k_projs k)) in *.
  destruct (send_all_eq S_ (snd x) b4 G4 F4) as (b5 & E5 & G5 & F5 & Z5 & O5 & Q5). rewrite E5. cbn [obind].
  destruct (route_good S_ b5 G5) as (b6 & E6 & G6 & O6 & S6 & P6 & R6). rewrite E6. cbn [obind].
  pose proof (route_front b5 b6 (g_ids S_ b5 G5) F5 E6) as F6.
  rewrite (pending_front b5 F5), Q5, Q4, S3, O5, O4, Hoth3 in R6. cbn [app] in R6. rewrite app_nil_r in R6.
  destruct (mt_projs_ok (k_step k) (k_projs k) jins (sc_projs s) Hqs) as (T1 & T2 & T3).
  { unfold jins, mt_proj_ins. apply map_length. }
  { exact L2. }
  exists b6. split; [reflexivity|]. split; [|exact F6].
  split; cbn [k_bus k_pops k_projs k_step].
  - exact G6.
  - exact S6.
  - rewrite <- Hus. eapply (mt_pops_uids (k_step k)); [| |exact EP]; [unfold mt_pop_ins; apply map_length|exact L1].
  - fold x in T3. congruence.
  - exact T1.
  - intros w Hw. rewrite R6, Z5, Z4, Nat.eqb_refl. cbn [andb].
    assert (Hm : mem (ph_uid (wp_head w)) (map (fun w => ph_uid (wp_head w)) (k_projs k)) = true).
    { apply mem_In. rewrite (heads_uids (k_projs k) projs0 Hhs). exact (in_map (fun w => ph_uid (wp_head w)) _ _ Hw). }
    rewrite Hm. cbn [app]. now apply impact_not_wanted.
  - intros u Hu. rewrite R6, Z5, Z4, R3, Z2, Z1. cbn [Nat.eqb andb].
    assert (Hm : mem u (map fst (k_pops k)) = true) by (apply mem_In; now rewrite Hus).
    rewrite Hm. cbn [app]. rewrite filter_app, spike_not_wanted by exact Hsp. cbn [app]. rewrite filter_app.
    f_equal; apply filter_ext; intros m; apply S0_population.
Qed.
End Run.
