(** Runs of the step pipeline. *)
From Verif Require Import Base ListLemmas Messaging_Model Messaging_Spec Messaging_Proofs Messaging_Proofs2
  Projection_Model Delta_Model Delta_Spec Delta_Proofs Neuron_Model Pipeline_Model Pipeline_Spec Pipeline_Proofs.

(** ** Initial subscriptions *)
Definition init_from (projs : list wproj) (ty : nat) (r x : uid) : Prop :=
  exists w, In w projs /\
    ((ty = 0 /\ ph_pre (wp_head w) <> 0%N /\ ph_uid (wp_head w) = r /\ ph_pre (wp_head w) = x) \/
     (ty = 1 /\ ph_post (wp_head w) <> 0%N /\ ph_post (wp_head w) = r /\ ph_uid (wp_head w) = x)).

Lemma sub_step_senders ty r ty' r' ss acc x :
  In x (sender_list (hist_step 0 ty r acc (OSubscribe 0 ty' r' ss))) <->
  In x (sender_list acc) \/ (ty' = ty /\ r' = r /\ In x ss).
Proof.
  cbn [hist_step]. rewrite Nat.eqb_refl. cbn [andb].
  destruct (Nat.eqb_spec ty' ty) as [E|E]; cbn [andb]; [destruct (N.eqb_spec r' r) as [E'|E']|].
  - destruct acc as [l|]; cbn [sender_list]; [rewrite in_app_iff|]; cbn [In]; intuition.
  - intuition.
  - intuition.
Qed.

Lemma init_senders ty r x : forall projs acc,
  In x (sender_list (fold_left (hist_step 0 ty r) (init_ops projs) acc)) <->
  In x (sender_list acc) \/ init_from projs ty r x.
Proof.
  unfold init_ops. induction projs as [|w t IH]; intros acc; cbn [flat_map].
  - cbn [fold_left]. unfold init_from. firstorder.
  - rewrite fold_left_app, IH. unfold init_proj. rewrite fold_left_app.
    assert (Hc : init_from (w :: t) ty r x <->
      ((ty = 0 /\ ph_pre (wp_head w) <> 0%N /\ ph_uid (wp_head w) = r /\ ph_pre (wp_head w) = x) \/
       (ty = 1 /\ ph_post (wp_head w) <> 0%N /\ ph_post (wp_head w) = r /\ ph_uid (wp_head w) = x)) \/
      init_from t ty r x).
    { unfold init_from. split.
      - intros (w' & [<-|Hin] & H); [now left|right; eauto].
      - intros [H|(w' & Hin & H)]; [exists w; split; [now left|exact H]|exists w'; split; [now right|exact H]]. }
    rewrite Hc. clear Hc IH.
    destruct (N.eqb_spec (ph_pre (wp_head w)) 0) as [E|E]; destruct (N.eqb_spec (ph_post (wp_head w)) 0) as [E'|E'];
      cbn [fold_left]; rewrite ?sub_step_senders; cbn [In]; intuition congruence.
Qed.

Lemma extra_senders ty r x : forall extra acc,
  In x (sender_list (fold_left (hist_step 0 ty r) (extra_ops extra) acc)) <->
  In x (sender_list acc) \/ exists s, In s extra /\ sb_type s = ty /\ sb_receiver s = r /\ In x (sb_senders s).
Proof.
  unfold extra_ops. induction extra as [|s t IH]; intros acc; cbn [map fold_left].
  - cbn [In]. firstorder.
  - rewrite IH, sub_step_senders. cbn [In]. split.
    + intros [[H|(H1 & H2 & H3)]|(s' & H1 & H2)]; [now left|right; exists s; auto|right; exists s'; auto].
    + intros [H|(s' & [<-|H1] & H2 & H3 & H4)]; [auto|auto|right; exists s'; auto].
Qed.
Lemma subscribed_iff extra ty r x : subscribed extra ty r x = true <->
  exists s, In s extra /\ sb_type s = ty /\ sb_receiver s = r /\ In x (sb_senders s).
Proof.
  unfold subscribed. rewrite existsb_exists. split.
  - intros (s & H1 & H2). exists s. apply andb_true_iff in H2 as [H2 H3]. apply andb_true_iff in H2 as [H2 H4].
    apply existsb_exists in H3 as (y & H5 & H6). apply N.eqb_eq in H6, H4. apply Nat.eqb_eq in H2. subst y. auto.
  - intros (s & H1 & H2 & H3 & H4). exists s. split; [exact H1|]. rewrite H2, H3, Nat.eqb_refl, N.eqb_refl. cbn [andb].
    apply existsb_exists. exists x. split; [exact H4|apply N.eqb_refl].
Qed.

Definition heads (projs : list wproj) : list phead := map wp_head projs.
Definition S0 (extra : list subscr) (projs : list wproj) (ty : nat) (r : uid) : option (list uid) :=
  hist_senders (OCreate :: extra_ops extra ++ init_ops projs) 0 ty r.

Lemma S0_mem extra projs ty r x : mem x (sender_list (S0 extra projs ty r)) = true <->
  init_from projs ty r x \/ subscribed extra ty r x = true.
Proof.
  rewrite mem_In. unfold S0, hist_senders. cbn [fold_left hist_step]. rewrite fold_left_app, init_senders, extra_senders, subscribed_iff.
  cbn [sender_list In]. intuition.
Qed.
Lemma bool_ext (a b : bool) : (a = true <-> b = true) -> a = b.
Proof. destruct a, b; intuition congruence. Qed.

Lemma S0_population extra projs u m : wanted 1 (sender_list (S0 extra projs 1 u)) m = to_population (heads projs) extra u m.
Proof.
  destruct m as [s t idx|s t pre post f imps]; unfold wanted; cbn [msg_type msg_sender to_population Nat.eqb andb]; [reflexivity|].
  apply bool_ext. rewrite S0_mem, orb_true_iff, andb_true_iff, negb_true_iff, N.eqb_neq, existsb_exists. unfold init_from, heads. split.
  - intros [(w & Hin & [[H _]|(_ & H1 & H2 & H3)])|H]; [discriminate| |now right]. left. split; [congruence|].
    exists (wp_head w). split; [now apply in_map|]. rewrite H2, H3, !N.eqb_refl. reflexivity.
  - intros [(Hu & h & Hin & Hb)|H]; [left|now right]. apply in_map_iff in Hin as (w & <- & Hin). exists w. split; [exact Hin|]. right.
    apply andb_true_iff in Hb as [H1 H2]. apply N.eqb_eq in H1, H2. rewrite H2. auto.
Qed.
Lemma NoDup_map_inj {A B} (f : A -> B) l x y : NoDup (map f l) -> In x l -> In y l -> f x = f y -> x = y.
Proof.
  induction l as [|a l IH]; cbn [map]; intros Hn Hx Hy E; [contradiction|]. inversion Hn as [|? ? Hni Hn']; subst.
  destruct Hx as [<-|Hx], Hy as [<-|Hy]; auto.
  - exfalso. apply Hni. rewrite E. now apply in_map.
  - exfalso. apply Hni. rewrite <- E. now apply in_map.
Qed.
Lemma S0_projection extra projs w m : NoDup (map (fun w => ph_uid (wp_head w)) projs) -> In w projs ->
  wanted 0 (sender_list (S0 extra projs 0 (ph_uid (wp_head w)))) m = to_projection extra (wp_head w) m.
Proof.
  intros Hn Hw. destruct m as [s t idx|s t pre post f imps]; unfold wanted; cbn [msg_type msg_sender to_projection Nat.eqb andb]; [|reflexivity].
  apply bool_ext. rewrite S0_mem, orb_true_iff, andb_true_iff, negb_true_iff, N.eqb_neq, N.eqb_eq. unfold init_from. split.
  - intros [(w' & Hin & [(_ & H1 & H2 & H3)|[H _]])|H]; [|discriminate|now right]. left.
    assert (w' = w) by (apply (NoDup_map_inj (fun w => ph_uid (wp_head w)) projs); auto). subst w'. auto.
  - intros [[H1 H2]|H]; [left|now right]. exists w. split; [exact Hw|]. left. auto.
Qed.

(** ** Types of the messages sent *)
Definition spike_only (l : list message) : Prop := Forall (fun m => msg_type m = 0) l.
Definition impact_only (l : list message) : Prop := Forall (fun m => msg_type m = 1) l.
Definition queue_ok (q : queue) : Prop := Forall (fun e => msg_type (snd e) = 1) q.

Lemma apop_step_type u step ms a a' o : apop_step u step ms a = Ret (a', o) -> spike_only (sent_msgs [o]).
Proof.
  unfold apop_step. destruct a; unfold population_step; intros H;
  match type of H with obind ?e _ = _ => destruct e as [[[x y] z]| |] eqn:E end; cbn [obind fst snd] in H; try discriminate;
  match type of E with obind ?e _ = _ => destruct e as [n1| |] end; cbn [obind] in E; try discriminate;
  match type of E with (let (_, _) := ?e in _) = _ => destruct e as [n2 idx] end;
  injection E as <- <- <-; injection H as <- <-; (destruct (Nat.eqb _ 0); cbn [sent_msgs flat_map app]; repeat constructor).
Qed.
Lemma pops_alone_type step inbox : forall pops pops' outs,
  pops_alone step inbox pops = Ret (pops', outs) -> spike_only (sent_msgs outs).
Proof.
  induction pops as [|[u a] t IH]; intros pops' outs H; cbn [pops_alone] in H.
  - injection H as <- <-. constructor.
  - destruct (apop_step _ _ _ _) as [[a' o]| |] eqn:E; cbn [obind fst snd] in H; try discriminate.
    destruct (pops_alone step inbox t) as [[t' os]| |] eqn:E'; cbn [obind fst snd] in H; try discriminate.
    injection H as <- <-. rewrite sent_msgs_cons. apply Forall_app. split; [eapply apop_step_type; eauto|eapply IH; eauto].
Qed.
Lemma push_type i m : msg_type (push_impact i m) = msg_type m.
Proof. destruct m; reflexivity. Qed.
Lemma q_push_ok k i q : queue_ok q -> queue_ok (q_push k i q).
Proof.
  induction 1 as [|[k' m] q Hm Hq IH]; cbn [q_push]; [constructor|]. cbn [snd] in Hm. destruct (N.eqb k k').
  - constructor; [cbn [snd]; now rewrite push_type|exact Hq].
  - constructor; [exact Hm|exact IH].
Qed.
Lemma schedule_ok h step key i q : queue_ok q -> queue_ok (schedule h step key i q).
Proof.
  intros H. unfold schedule. destruct (q_find key q); [now apply q_push_ok|].
  apply Forall_app. split; [exact H|repeat constructor].
Qed.
Lemma do_synapses_ok h step l : forall idx q q', queue_ok q -> do_synapses h step l idx q = Ret q' -> queue_ok q'.
Proof.
  induction idx as [|i t IH]; intros q q' Hq H; cbn [do_synapses] in H.
  - now injection H as <-.
  - destruct (nth_error l i); [|discriminate]. eapply IH; [|exact H]. now apply schedule_ok.
Qed.
Lemma reindex_syn (p : dproj) : p_syn (reindex p) = p_syn p.
Proof. unfold reindex. destruct (p_updated p); reflexivity. Qed.
Lemma do_spikes_ok h step : forall spikes p q p' q', queue_ok q -> do_spikes h step spikes p q = Ret (p', q') ->
  queue_ok q' /\ p_syn p' = p_syn p.
Proof.
  induction spikes as [|n t IH]; intros p q p' q' Hq H; cbn [do_spikes] in H.
  - injection H as <- <-. auto.
  - unfold find_synapses in H.
    match type of H with obind ?e _ = _ => destruct e as [q1| |] eqn:E end; cbn [obind] in H; try discriminate.
    apply do_synapses_ok in E; [|exact Hq]. destruct (IH _ _ _ _ E H) as [H1 H2]. split; [exact H1|].
    now rewrite H2, reindex_syn.
Qed.
Lemma q_find_ok k q m : queue_ok q -> q_find k q = Some m -> msg_type m = 1.
Proof.
  induction 1 as [|[k' m'] q Hm Hq IH]; cbn [q_find]; [discriminate|]. destruct (N.eqb k k'); intros H; [|auto].
  injection H as <-. exact Hm.
Qed.
Lemma calculate_ok h step ms p q p' q' o : queue_ok q -> calculate_projection h step ms p q = Ret (p', q', o) ->
  queue_ok q' /\ p_syn p' = p_syn p /\ impact_only (sent_msgs [o]).
Proof.
  intros Hq H. unfold calculate_projection in H.
  destruct (do_spikes _ _ _ _ _) as [[p1 q1]| |] eqn:E; cbn [obind fst snd] in H; try discriminate.
  apply do_spikes_ok in E as [Hq1 Hs]; [|exact Hq].
  destruct (q_find step q1) as [m|] eqn:Ef; injection H as <- <- <-.
  - split; [|split; [exact Hs|]].
    + unfold queue_ok, q_erase in *. rewrite Forall_forall in *. intros x Hx. apply filter_In in Hx as [Hx _]. auto.
    + cbn [sent_msgs flat_map app]. constructor; [|constructor]. eapply q_find_ok; eauto.
  - split; [exact Hq1|split; [exact Hs|constructor]].
Qed.
Lemma projs_alone_type step inbox : forall projs projs' outs, Forall (fun w => queue_ok (wp_queue w)) projs ->
  projs_alone step inbox projs = Ret (projs', outs) ->
  impact_only (sent_msgs outs) /\ Forall (fun w => queue_ok (wp_queue w)) projs' /\ heads projs' = heads projs.
Proof.
  induction projs as [|w t IH]; intros projs' outs Hq H; cbn [projs_alone] in H.
  - injection H as <- <-. split; [constructor|auto].
  - inversion Hq as [|? ? Hw Ht]; subst.
    destruct (calculate_projection _ _ _ _ _) as [[[p' q'] o]| |] eqn:E; cbn [obind fst snd] in H; try discriminate.
    destruct (projs_alone step inbox t) as [[t' os]| |] eqn:E'; cbn [obind fst snd] in H; try discriminate.
    injection H as <- <-. apply calculate_ok in E as (H1 & H2 & H3); [|exact Hw].
    destruct (IH t' os Ht eq_refl) as (H4 & H5 & H6).
    rewrite sent_msgs_cons. split; [apply Forall_app; auto|]. split; [constructor; auto|].
    unfold heads in *. cbn [map]. now rewrite H6.
Qed.
Lemma pops_alone_uids step inbox : forall pops pops' outs, pops_alone step inbox pops = Ret (pops', outs) ->
  map fst pops' = map fst pops.
Proof.
  induction pops as [|[u a] t IH]; intros pops' outs H; cbn [pops_alone] in H.
  - now injection H as <- <-.
  - destruct (apop_step _ _ _ _) as [[a' o]| |] eqn:E; cbn [obind fst snd] in H; try discriminate.
    destruct (pops_alone step inbox t) as [[t' os]| |] eqn:E'; cbn [obind fst snd] in H; try discriminate.
    injection H as <- <-. cbn [map fst]. f_equal. eapply IH; eauto.
Qed.

Lemma spike_not_wanted ss l : spike_only l -> filter (wanted 1 ss) l = [].
Proof.
  induction 1 as [|m l Hm Hl IH]; [reflexivity|]. cbn [filter]. unfold wanted at 1. rewrite Hm. cbn [Nat.eqb andb]. exact IH.
Qed.
Lemma impact_not_wanted ss l : impact_only l -> filter (wanted 0 ss) l = [].
Proof.
  induction 1 as [|m l Hm Hl IH]; [reflexivity|]. cbn [filter]. unfold wanted at 1. rewrite Hm. cbn [Nat.eqb andb]. exact IH.
Qed.

(** ** One step *)
Section Run.
Variables (extra : list subscr) (projs0 : list wproj) (us : list uid).
Hypothesis Hpd : NoDup (map (fun w => ph_uid (wp_head w)) projs0).
Hypothesis Hud : NoDup us.
Local Notation S_ := (S0 extra projs0).
Local Notation hs := (heads projs0).

Record ready (prev : list message) (k : backend) : Prop := mkReady {
  rd_good : good S_ (k_bus k);
  rd_own : own_sent (k_bus k) = [];
  rd_us : map fst (k_pops k) = us;
  rd_hs : heads (k_projs k) = hs;
  rd_queue : Forall (fun w => queue_ok (wp_queue w)) (k_projs k);
  rd_w0 : forall w, In w projs0 -> waiting (k_bus k) 0 (ph_uid (wp_head w)) = [];
  rd_w1 : forall u, In u us -> waiting (k_bus k) 1 u = filter (to_population hs extra u) prev }.

Lemma heads_uids (l l' : list wproj) : heads l = heads l' ->
  map (fun w => ph_uid (wp_head w)) l = map (fun w => ph_uid (wp_head w)) l'.
Proof.
  intros H. unfold heads in H. rewrite <- (map_map wp_head ph_uid l), <- (map_map wp_head ph_uid l'). now rewrite H.
Qed.
Lemma In_head (projs : list wproj) w : heads projs = hs -> In w projs -> exists w0, In w0 projs0 /\ wp_head w0 = wp_head w.
Proof.
  intros H Hin. apply (in_map wp_head) in Hin. fold (heads projs) in Hin. rewrite H in Hin.
  apply in_map_iff in Hin as (w0 & E & Hin). eauto.
Qed.

Definition pop_box (prev ext : list message) (u : uid) : list message := filter (to_population hs extra u) (prev ++ ext).
Definition proj_box (ext spikes : list message) (h : phead) : list message := filter (to_projection extra h) (ext ++ spikes).

(** The projections on their own, inbox by header. *)
Fixpoint projs_heads (step : N) (inbox : phead -> list message) (projs : list wproj)
  : outcome (list wproj * list (option message)) :=
  match projs with
  | [] => Ret ([], [])
  | w :: t =>
      obind (calculate_projection (wp_head w) step (inbox (wp_head w)) (wp_proj w) (wp_queue w)) (fun y =>
      obind (projs_heads step inbox t) (fun z =>
        Ret (mkWP (wp_head w) (fst (fst y)) (snd (fst y)) :: fst z, snd y :: snd z)))
  end.
Lemma projs_heads_eq step inbox inbox' : forall projs,
  (forall w, In w projs -> inbox (ph_uid (wp_head w)) = inbox' (wp_head w)) ->
  projs_alone step inbox projs = projs_heads step inbox' projs.
Proof.
  induction projs as [|w t IH]; intros H; [reflexivity|]. cbn [projs_alone projs_heads].
  rewrite (H w) by now left. rewrite IH by (intros w' Hw; apply H; now right). reflexivity.
Qed.
Lemma pops_alone_ext step inbox inbox' : forall pops,
  (forall u, In u (map fst pops) -> inbox u = inbox' u) ->
  pops_alone step inbox pops = pops_alone step inbox' pops.
Proof.
  induction pops as [|[u a] t IH]; intros H; [reflexivity|]. cbn [pops_alone map fst] in *.
  rewrite (H u) by now left. rewrite IH by (intros v Hv; apply H; now right). reflexivity.
Qed.

Lemma step_eq prev k : ready prev k ->
  match pops_alone (k_step k) (pop_box prev (pending (k_bus k))) (k_pops k) with
  | Throw => backend_step (pending (k_bus k)) k = Throw
  | UB => backend_step (pending (k_bus k)) k = UB
  | Ret (pops', pout) =>
    match projs_heads (k_step k) (proj_box (pending (k_bus k)) (sent_msgs pout)) (k_projs k) with
    | Throw => backend_step (pending (k_bus k)) k = Throw
    | UB => backend_step (pending (k_bus k)) k = UB
    | Ret (projs', jout) => exists b',
        let k' := mkBackend b' pops' projs' (add64 (k_step k) 1) in
        let ext := pending (k_bus k) in
        backend_step ext k =
          Ret (k', mkRecord ext (map (fun p => pop_box prev ext (fst p)) (k_pops k)) pout
                    (map (fun w => proj_box ext (sent_msgs pout) (wp_head w)) (k_projs k)) jout) /\
        ready (sent_msgs jout) k'
    end
  end.
Proof.
  intros R. destruct R as [G Ho Hus Hhs Hqs W0 W1]. set (ext := pending (k_bus k)) in *.
  unfold backend_step.
  destruct (route_good S_ (k_bus k) G) as (b1 & E1 & G1 & O1 & S1 & P1 & R1). rewrite E1. cbn [obind].
  assert (B1 : forall u, In u us -> waiting b1 1 u = pop_box prev ext u).
  { intros u Hu. rewrite R1, (W1 u Hu). unfold pop_box. rewrite filter_app. f_equal.
    apply filter_ext. intros m. apply S0_population. }
  assert (B0 : forall w, In w projs0 -> waiting b1 0 (ph_uid (wp_head w)) = filter (to_projection extra (wp_head w)) ext).
  { intros w Hw. rewrite R1, (W0 w Hw). cbn [app]. apply filter_ext. intros m. now apply S0_projection. }
  assert (Hnd : NoDup (map fst (k_pops k))) by (rewrite Hus; exact Hud).
  pose proof (populations_phase_eq S_ (k_step k) (k_pops k) b1 G1 O1 Hnd) as HP.
  rewrite (pops_alone_ext (k_step k) (waiting b1 1) (pop_box prev ext)) in HP by (intros u Hu; apply B1; congruence).
  destruct (pops_alone (k_step k) (pop_box prev ext) (k_pops k)) as [[pops' pout]| |] eqn:EP.
  2,3: rewrite HP; reflexivity.
  destruct HP as (b2 & E2 & G2 & O2 & S2 & Z2 & Y2). rewrite E2. cbn [obind].
  destruct (route_good S_ b2 G2) as (b3 & E3 & G3 & O3 & S3 & P3 & R3). rewrite E3. cbn [obind].
  assert (Hsp : spike_only (sent_msgs pout)) by (eapply pops_alone_type; eauto).
  rewrite (own_pending b2 (g_ids S_ b2 G2) O2), S2, S1 in R3. cbn [app] in R3.
  assert (B3 : forall w, In w (k_projs k) -> waiting b3 0 (ph_uid (wp_head w)) = proj_box ext (sent_msgs pout) (wp_head w)).
  { intros w Hw. destruct (In_head (k_projs k) w Hhs Hw) as (w0 & Hw0 & Ew).
    rewrite <- Ew, R3, Z2, (B0 w0 Hw0). unfold proj_box. rewrite filter_app. f_equal.
    apply filter_ext. intros m. now apply S0_projection. }
  assert (Hnd' : NoDup (map (fun w => ph_uid (wp_head w)) (k_projs k))) by (rewrite (heads_uids _ projs0 Hhs); exact Hpd).
  pose proof (projections_phase_eq S_ (k_step k) (k_projs k) b3 G3 O3 Hnd') as HQ.
  rewrite (projs_heads_eq (k_step k) (waiting b3 0) (proj_box ext (sent_msgs pout))) in HQ by exact B3.
  destruct (projs_heads (k_step k) (proj_box ext (sent_msgs pout)) (k_projs k)) as [[projs' jout]| |] eqn:EQ.
  2,3: rewrite HQ; reflexivity.
  destruct HQ as (b4 & E4 & G4 & O4 & S4 & Z4 & Y4). rewrite E4. cbn [obind].
  destruct (route_good S_ b4 G4) as (b5 & E5 & G5 & O5 & S5 & P5 & R5). rewrite E5. cbn [obind].
  rewrite (own_pending b4 (g_ids S_ b4 G4) O4), S4, S3 in R5. cbn [app] in R5.
  destruct (projs_alone_type (k_step k) (waiting b3 0) (k_projs k) projs' jout Hqs) as (T1 & T2 & T3).
  { rewrite (projs_heads_eq _ _ (proj_box ext (sent_msgs pout))) by exact B3. exact EQ. }
  exists b5. cbv zeta. split.
  - do 2 f_equal. f_equal.
    + apply map_ext_in. intros p Hp. apply B1. rewrite <- Hus. now apply in_map.
    + apply map_ext_in. intros w Hw. apply B3. exact Hw.
  - split; cbn [k_bus k_pops k_projs k_step].
    + exact G5.
    + exact S5.
    + rewrite <- Hus. eapply pops_alone_uids; eauto.
    + congruence.
    + exact T2.
    + intros w Hw. rewrite R5, Y4, impact_not_wanted by exact T1. rewrite app_nil_r.
      assert (Hm : mem (ph_uid (wp_head w)) (map (fun w => ph_uid (wp_head w)) (k_projs k)) = true).
      { apply mem_In. rewrite (heads_uids _ projs0 Hhs). exact (in_map (fun w => ph_uid (wp_head w)) _ _ Hw). }
      now rewrite Hm.
    + intros u Hu. rewrite R5, Z4, R3, Y2.
      assert (Hm : mem u (map fst (k_pops k)) = true) by (apply mem_In; now rewrite Hus).
      rewrite Hm, spike_not_wanted by exact Hsp. cbn [app]. apply filter_ext. intros m. apply S0_population.
Qed.

(** ** Runs *)
Definition before (prev : list message) (tr : list record) (t : nat) : list message :=
  match t with 0 => prev | S _ => sent_before tr t end.

Lemma outside_ready prev k ops b tr : ready prev k -> forallb outside ops = true -> run (k_bus k) ops = Ret (b, tr) ->
  ready prev (mkBackend b (k_pops k) (k_projs k) (k_step k)).
Proof.
  intros [G Ho Hus Hhs Hqs W0 W1] Hout Hr. destruct (outside_run S_ ops (k_bus k) b tr G Hout Hr) as (G' & W & S').
  split; cbn [k_bus k_pops k_projs]; auto; try congruence.
  - intros w Hw. rewrite W. auto.
  - intros u Hu. rewrite W. auto.
Qed.

Lemma pops_alone_nth step inbox : forall pops pops' outs i u a, pops_alone step inbox pops = Ret (pops', outs) ->
  nth_error pops i = Some (u, a) -> exists a' o, apop_step u step (inbox u) a = Ret (a', o) /\
    nth_error pops' i = Some (u, a') /\ nth_error outs i = Some o.
Proof.
  induction pops as [|[v x] t IH]; intros pops' outs i u a H Hn; [destruct i; discriminate|]. cbn [pops_alone] in H.
  destruct (apop_step v step (inbox v) x) as [[a' o]| |] eqn:E; cbn [obind fst snd] in H; try discriminate.
  destruct (pops_alone step inbox t) as [[t' os]| |] eqn:E'; cbn [obind fst snd] in H; try discriminate.
  injection H as <- <-. destruct i as [|i]; cbn [nth_error] in *.
  - injection Hn as <- <-. eauto.
  - destruct (IH t' os i u a eq_refl Hn) as (a1 & o1 & H1 & H2 & H3). eauto.
Qed.
Lemma projs_heads_nth step inbox : forall projs projs' outs i w, projs_heads step inbox projs = Ret (projs', outs) ->
  nth_error projs i = Some w -> exists p' q' o,
    calculate_projection (wp_head w) step (inbox (wp_head w)) (wp_proj w) (wp_queue w) = Ret (p', q', o) /\
    nth_error projs' i = Some (mkWP (wp_head w) p' q') /\ nth_error outs i = Some o.
Proof.
  induction projs as [|v t IH]; intros projs' outs i w H Hn; [destruct i; discriminate|]. cbn [projs_heads] in H.
  destruct (calculate_projection _ _ _ (wp_proj v) _) as [[[p' q'] o]| |] eqn:E; cbn [obind fst snd] in H; try discriminate.
  destruct (projs_heads step inbox t) as [[t' os]| |] eqn:E'; cbn [obind fst snd] in H; try discriminate.
  injection H as <- <-. destruct i as [|i]; cbn [nth_error] in *.
  - injection Hn as <-. eauto 6.
  - destruct (IH t' os i w eq_refl Hn) as (a1 & q1 & o1 & H1 & H2 & H3). eauto 6.
Qed.

Lemma backend_run_ind : forall calls prev k k' tr, ready prev k -> Forall (fun ops => forallb outside ops = true) calls ->
  backend_run calls k = Ret (k', tr) ->
  length tr = length calls /\
  (forall t r i u a, nth_error tr t = Some r -> nth_error (k_pops k) i = Some (u, a) ->
     nth_error (r_pop_in r) i = Some (pop_box (before prev tr t) (r_ext r) u)) /\
  (forall t r j w, nth_error tr t = Some r -> nth_error (k_projs k) j = Some w ->
     nth_error (r_proj_in r) j = Some (proj_box (r_ext r) (sent_msgs (r_pop_out r)) (wp_head w))) /\
  (forall i u a, nth_error (k_pops k) i = Some (u, a) -> exists ins outs a',
     column i r_pop_in tr = map Some ins /\ column i r_pop_out tr = map Some outs /\
     apop_run u (k_step k) ins a = Ret (a', outs) /\ nth_error (k_pops k') i = Some (u, a')) /\
  (forall j w, nth_error (k_projs k) j = Some w -> exists ins outs w',
     column j r_proj_in tr = map Some ins /\ column j r_proj_out tr = map Some outs /\
     run_projection (wp_head w) (k_step k) (map (mkIn (p_syn (wp_proj w))) ins) (wp_proj w) (wp_queue w) = Ret outs /\
     nth_error (k_projs k') j = Some w' /\ wp_head w' = wp_head w /\ p_syn (wp_proj w') = p_syn (wp_proj w)).
Proof.
  induction calls as [|ops calls IH]; intros prev k k' tr R Hf H; cbn [backend_run] in H.
  - injection H as <- <-. split; [reflexivity|]. repeat split.
    + intros t r i u a Ht. destruct t; discriminate.
    + intros t r j w Ht. destruct t; discriminate.
    + intros i u a Hi. exists [], [], a. auto.
    + intros j w Hj. exists [], [], w. auto 10.
  - inversion Hf as [|? ? Hops Hf']; subst.
    destruct (run (k_bus k) ops) as [[b trb]| |] eqn:Er; cbn [obind fst] in H; try discriminate.
    pose proof (outside_ready prev k ops b trb R Hops Er) as R1.
    set (k1 := mkBackend b (k_pops k) (k_projs k) (k_step k)) in *.
    pose proof (step_eq prev k1 R1) as HS. subst k1. cbn [k_bus k_pops k_projs k_step] in HS.
    destruct (pops_alone (k_step k) (pop_box prev (pending b)) (k_pops k)) as [[pops' pout]| |] eqn:EP;
      [|rewrite HS in H; discriminate|rewrite HS in H; discriminate].
    destruct (projs_heads (k_step k) (proj_box (pending b) (sent_msgs pout)) (k_projs k)) as [[projs' jout]| |] eqn:EQ;
      [|rewrite HS in H; discriminate|rewrite HS in H; discriminate].
    destruct HS as (b' & Es & R'). cbv zeta in Es. rewrite Es in H. cbn [obind fst snd] in H.
    destruct (backend_run calls _) as [[k2 tr2]| |] eqn:Eb in H; cbn [obind fst snd] in H; try discriminate.
    injection H as <- <-.
    destruct (IH _ _ _ _ R' Hf' Eb) as (L & IP & IJ & CP & CJ). cbn [k_pops k_projs k_step] in *.
    split; [cbn [length]; congruence|]. repeat split.
    + intros t r i u a Ht Hi. destruct t as [|t]; cbn [nth_error] in Ht.
      * injection Ht as <-. cbn [r_pop_in r_ext before]. rewrite nth_error_map, Hi. reflexivity.
      * destruct (pops_alone_nth _ _ _ _ _ i u a EP Hi) as (a' & o & _ & Hi' & _).
        rewrite (IP t r i u a' Ht Hi'). destruct t; reflexivity.
    + intros t r j w Ht Hj. destruct t as [|t]; cbn [nth_error] in Ht.
      * injection Ht as <-. cbn [r_proj_in r_ext r_pop_out]. rewrite nth_error_map, Hj. reflexivity.
      * destruct (projs_heads_nth _ _ _ _ _ j w EQ Hj) as (p' & q' & o & _ & Hj' & _).
        exact (IJ t r j _ Ht Hj').
    + intros i u a Hi. destruct (pops_alone_nth _ _ _ _ _ i u a EP Hi) as (a' & o & Ea & Hi' & Ho).
      destruct (CP i u a' Hi') as (ins & outs & a2 & C1 & C2 & C3 & C4).
      exists (pop_box prev (pending b) u :: ins), (o :: outs), a2. unfold column in *. cbn [map r_pop_in r_pop_out].
      rewrite C1, C2, Ho, nth_error_map, Hi. cbn [option_map fst]. repeat split; auto.
      cbn [apop_run]. rewrite Ea. cbn [obind fst snd]. rewrite C3. reflexivity.
    + intros j w Hj. destruct (projs_heads_nth _ _ _ _ _ j w EQ Hj) as (p' & q' & o & Ea & Hj' & Ho).
      destruct (CJ j _ Hj') as (ins & outs & w' & C1 & C2 & C3 & C4 & C5 & C6). cbn [wp_head wp_proj wp_queue] in *.
      assert (Hqw : queue_ok (wp_queue w)).
      { pose proof (rd_queue _ _ R) as Hq. rewrite Forall_forall in Hq. apply Hq. eapply nth_error_In; eauto. }
      destruct (calculate_ok _ _ _ _ _ _ _ _ Hqw Ea) as (_ & Hsyn & _).
      exists (proj_box (pending b) (sent_msgs pout) (wp_head w) :: ins), (o :: outs), w'. unfold column in *.
      cbn [map r_proj_in r_proj_out].
      rewrite C1, C2, Ho, nth_error_map, Hj. cbn [option_map]. repeat split; auto; try congruence.
      cbn [run_projection in_msgs in_syn].
      replace (mkProj (p_syn (wp_proj w)) (p_index (wp_proj w)) (p_updated (wp_proj w))) with (wp_proj w) by (destruct (wp_proj w); reflexivity).
      rewrite Ea. cbn [obind]. rewrite Hsyn in C3. rewrite C3. reflexivity.
Qed.
End Run.

(** ** The initial state *)
Lemma init_run : forall ops b e, ids_ok b -> ep_find 0 b = Some e -> covered e -> e_recv e = [] -> e_send e = [] ->
  (forall k s, sub_find k (e_subs e) = Some s -> s_msgs s = []) ->
  Forall (fun o => exists ty r ss, o = OSubscribe 0 ty r ss) ops ->
  exists b' tr e', run b ops = Ret (b', tr) /\ ids_ok b' /\ ep_find 0 b' = Some e' /\ covered e' /\
    e_recv e' = [] /\ e_send e' = [] /\ (forall k s, sub_find k (e_subs e') = Some s -> s_msgs s = []).
Proof.
  induction ops as [|o ops IH]; intros b e Hi He Hc Hr Hs Hm Hf; cbn [run].
  - exists b, [], e. auto 10.
  - inversion Hf as [|? ? (ty & r & ss & ->) Hf']; subst.
    assert (Hx : exec b (OSubscribe 0 ty r ss) = Ret (ep_put (subscribe ty r ss e) b, OutUnit)).
    { rewrite (exec_ep (OSubscribe 0 ty r ss) 0 b eq_refl). unfold on_ep. rewrite He. reflexivity. }
    destruct (ep_find_method (OSubscribe 0 ty r ss) 0 b _ _ Hi eq_refl Hx) as (e0 & e0' & He0 & Hef & _ & _ & Hall).
    assert (e0 = e) by congruence. subst e0. cbn [ep_effect] in Hef. injection Hef as <-.
    pose proof (Hall 0) as H0. rewrite Nat.eqb_refl in H0. rewrite Hx. cbn [obind fst snd].
    destruct (IH (ep_put (subscribe ty r ss e) b) (subscribe ty r ss e)) as (b' & tr & e' & E & H1 & H2); auto.
    + eapply ids_ok_exec; eauto.
    + exact (covered_effect (OSubscribe 0 ty r ss) e _ OutUnit eq_refl Hc eq_refl).
    + intros k s. unfold subscribe. cbn [e_subs]. rewrite sub_find_set. destruct (key_eqb k (ty, r)).
      * intros E. injection E as <-. destruct (sub_find (ty, r) (e_subs e)) as [s0|] eqn:Es0; [|reflexivity].
        cbn [s_msgs]. eapply Hm; eauto.
      * apply Hm.
    + exists b', ((OSubscribe 0 ty r ss, OutUnit) :: tr), e'. rewrite E. cbn [obind fst snd]. auto.
Qed.
Lemma init_ops_subscribe projs : Forall (fun o => exists ty r ss, o = OSubscribe 0 ty r ss) (init_ops projs).
Proof.
  unfold init_ops, init_proj. induction projs as [|w t IH]; cbn [flat_map]; [constructor|].
  apply Forall_app. split; [|exact IH]. apply Forall_app.
  split; destruct (N.eqb _ 0); repeat constructor; eauto.
Qed.
Lemma backend_init_ready extra pops projs : Forall (fun w => wp_queue w = []) projs ->
  exists k, backend_init extra pops projs = Ret k /\ k_pops k = pops /\ k_projs k = projs /\ k_step k = 0%N /\
    ready extra projs (map fst pops) [] k.
Proof.
  intros Hq. unfold backend_init.
  destruct (init_run (extra_ops extra ++ init_ops projs) (create_endpoint bus_init) (mkEp 0 true [] [] [] [])) as (b & tr & e & E & Hi & He & Hc & Hr & Hs & Hm); try reflexivity.
  - eapply (ids_ok_exec bus_init OCreate); [apply ids_ok_init|reflexivity].
  - intros k s. cbn [e_subs sub_find]. discriminate.
  - intros k s. cbn [e_subs sub_find]. discriminate.
  - apply Forall_app. split; [|apply init_ops_subscribe]. unfold extra_ops. apply Forall_map, Forall_forall. intros s _. eauto.
  - assert (E' : run bus_init (OCreate :: extra_ops extra ++ init_ops projs) = Ret (b, (OCreate, OutUnit) :: tr)).
    { cbn [run exec obind fst snd]. rewrite E. reflexivity. }
    rewrite E'. cbn [obind fst]. eexists. split; [reflexivity|]. cbn [k_pops k_projs k_step].
    repeat split; cbn [k_bus k_pops k_projs].
    + apply Hi.
    + apply Hi.
    + exists e. auto.
    + intros ty r. apply (senders_run _ _ _ 0 ty r E').
    + unfold own_sent. now rewrite He.
    + rewrite Forall_forall in *. intros w Hw. rewrite (Hq w Hw). constructor.
    + intros w Hw. unfold waiting. rewrite He. destruct (sub_find _ _) eqn:Es; [eauto|reflexivity].
    + intros u Hu. unfold waiting. rewrite He. cbn [filter]. destruct (sub_find _ _) eqn:Es; [eauto|reflexivity].
Qed.
