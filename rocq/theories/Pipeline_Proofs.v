(** Proofs about the step pipeline. *)
From Verif Require Import Base ListLemmas Messaging_Model Messaging_Spec Messaging_Proofs Messaging_Proofs2
  Projection_Model Delta_Model Delta_Spec Delta_Proofs Neuron_Model Pipeline_Model Pipeline_Spec.

Definition waiting (b : bus) (ty : nat) (r : uid) : list message :=
  match ep_find 0 b with
  | Some e => match sub_find (ty, r) (e_subs e) with Some s => s_msgs s | None => [] end
  | None => []
  end.
Definition own_sent (b : bus) : list message :=
  match ep_find 0 b with Some e => e_send e | None => [] end.
(** Everything sent through other endpoints has been routed. *)
Definition own_only (b : bus) : Prop :=
  b_route b = [] /\ forall i e, ep_find i b = Some e -> i <> 0 -> e_send e = [].
Definition sender_list (o : option (list uid)) : list uid := match o with Some l => l | None => [] end.

Section Good.
Variable S_ : nat -> uid -> option (list uid).
Record good (b : bus) : Prop := mkGood {
  g_ids : ids_ok b;
  g_ep : exists e, ep_find 0 b = Some e /\ covered e /\ e_recv e = [];
  g_senders : forall ty r, senders_at b 0 ty r = S_ ty r }.

Lemma flat_send_own (l : list endpoint) : NoDup (map e_id l) ->
  (forall e, In e l -> e_alive e = true -> e_id e <> 0 -> e_send e = []) ->
  flat_map e_send (filter e_alive l) =
  match find (fun e => Nat.eqb (e_id e) 0 && e_alive e) l with Some e => e_send e | None => [] end.
Proof.
  induction l as [|e l IH]; intros Hn H; [reflexivity|]. cbn [map] in Hn. inversion Hn as [|? ? Hni Hn']; subst.
  cbn [filter find].
  assert (IH' := IH Hn' (fun e' He' => H e' (or_intror He'))).
  destruct (e_alive e) eqn:Ea.
  - cbn [flat_map]. rewrite andb_true_r. destruct (Nat.eqb_spec (e_id e) 0) as [E|E].
    + assert (Hz : flat_map e_send (filter e_alive l) = []).
      { rewrite IH'. destruct (find _ l) as [e'|] eqn:F; [|reflexivity].
        apply find_some in F as [Hin Hb]. apply andb_true_iff in Hb as [Hb _]. apply Nat.eqb_eq in Hb.
        exfalso. apply Hni. rewrite E, <- Hb. now apply in_map. }
      now rewrite Hz, app_nil_r.
    + rewrite (H e); [exact IH'|now left|exact Ea|exact E].
  - rewrite andb_false_r. exact IH'.
Qed.
Lemma own_pending b : ids_ok b -> own_only b -> pending b = own_sent b.
Proof.
  intros Hi [Hr Ho]. unfold pending, own_sent, ep_find. rewrite Hr. cbn [app].
  apply flat_send_own; [apply Hi|]. intros e Hin Ha He. apply (Ho (e_id e) e); [|exact He].
  apply ep_find_iff; auto.
Qed.

Lemma unload_good b ty r : good b ->
  exists b1, unload_own b ty r = Ret (b1, waiting b ty r) /\ good b1 /\
    (forall ty' r', waiting b1 ty' r' = if key_eqb (ty', r') (ty, r) then [] else waiting b ty' r') /\
    pending b1 = pending b /\ own_sent b1 = own_sent b /\ (own_only b -> own_only b1).
Proof.
  intros G. destruct (g_ep b G) as (e & He & Hc & Hr). pose proof (g_ids b G) as Hi.
  pose proof (unload_exec b 0 ty r e Hi He) as Hx.
  destruct (unload_find b 0 ty r e _ _ Hi He Hx) as (e1 & He1 & Hr1 & Hs1 & _ & Hk & Hkn & _ & Hp & Hoth).
  exists (ep_put (fst (unload_messages ty r e)) b).
  assert (Hw : snd (unload_messages ty r e) = waiting b ty r).
  { unfold waiting, unload_messages. rewrite He. destruct (sub_find (ty, r) (e_subs e)); reflexivity. }
  assert (G1 : good (ep_put (fst (unload_messages ty r e)) b)).
  { split.
    - eapply ids_ok_exec; eauto.
    - exists e1. split; [exact He1|]. split; [|congruence].
      destruct (ep_find_method (OUnload 0 ty r) 0 b _ _ Hi eq_refl Hx) as (e0 & e0' & He0 & Hef & _ & _ & Hall).
      specialize (Hall 0). rewrite Nat.eqb_refl in Hall.
      assert (e0 = e) by congruence. subst e0. assert (e0' = e1) by congruence. subst e0'.
      exact (covered_effect (OUnload 0 ty r) e e1 _ eq_refl Hc Hef).
    - intros ty' r'. rewrite (senders_exec b (OUnload 0 ty r) _ _ 0 ty' r' Hi Hx). apply (g_senders b G). }
  split; [unfold unload_own; rewrite Hx; cbn [obind snd fst]; now rewrite Hw|].
  split; [exact G1|]. split; [|split; [|split]].
  - intros ty' r'. unfold waiting. rewrite He1, He.
    destruct (sub_find (ty', r') (e_subs e)) as [s|] eqn:Es.
    + rewrite (Hk _ _ Es). cbn [s_msgs]. reflexivity.
    + rewrite (Hkn _ Es). destruct (key_eqb _ _); reflexivity.
  - exact Hp.
  - unfold own_sent. rewrite He1, He. exact Hs1.
  - intros [Hro Ho]. split; [exact Hro|]. intros i e' Hi' Hne. rewrite (Hoth i Hne) in Hi'. eauto.
Qed.

Lemma send_good b o : good b ->
  exists b1, send_own b o = Ret b1 /\ good b1 /\ (own_only b -> own_only b1) /\
    (forall ty r, waiting b1 ty r = waiting b ty r) /\
    own_sent b1 = own_sent b ++ sent_msgs [o].
Proof.
  intros G. destruct o as [m|]; cbn [send_own sent_msgs flat_map].
  2:{ exists b. rewrite app_nil_r. auto. }
  destruct (g_ep b G) as (e & He & Hc & Hr). pose proof (g_ids b G) as Hi.
  assert (Hx : exec b (OSend 0 m) = Ret (ep_put (send_message m e) b, OutUnit)).
  { rewrite (exec_ep (OSend 0 m) 0 b eq_refl). unfold on_ep. rewrite He. reflexivity. }
  destruct (ep_find_method (OSend 0 m) 0 b _ _ Hi eq_refl Hx) as (e0 & e0' & He0 & Hef & _ & _ & Hall).
  assert (e0 = e) by congruence. subst e0. cbn [ep_effect] in Hef. injection Hef as <-.
  exists (ep_put (send_message m e) b). rewrite Hx. cbn [obind fst].
  pose proof (Hall 0) as H0. rewrite Nat.eqb_refl in H0.
  split; [reflexivity|]. split; [|split; [|split]].
  - split.
    + eapply ids_ok_exec; eauto.
    + exists (send_message m e). split; [exact H0|]. split; [|exact Hr].
      exact (covered_effect (OSend 0 m) e _ OutUnit eq_refl Hc eq_refl).
    + intros ty' r'. rewrite (senders_exec b (OSend 0 m) _ _ 0 ty' r' Hi Hx). apply (g_senders b G).
  - intros [Hro Ho]. split; [exact Hro|]. intros i e' Hi' Hne. rewrite (Hall i) in Hi'.
    apply Nat.eqb_neq in Hne as Hne'. rewrite Hne' in Hi'. eauto.
  - intros ty r. unfold waiting. rewrite H0, He. reflexivity.
  - unfold own_sent. rewrite H0, He. reflexivity.
Qed.

Lemma route_good b : good b ->
  exists b1, route_receive_own b = Ret b1 /\ good b1 /\ own_only b1 /\ own_sent b1 = [] /\ pending b1 = [] /\
    forall ty r, waiting b1 ty r = waiting b ty r ++ filter (wanted ty (sender_list (S_ ty r))) (pending b).
Proof.
  intros G. destruct (g_ep b G) as (e & He & Hc & Hr). pose proof (g_ids b G) as Hi.
  destruct (route_receive b 0 e Hi He Hc) as (b1 & b2 & e2 & Hx1 & Hx2 & He2 & Hr2 & Hs2 & Hro2 & Hsub).
  pose proof (ids_ok_exec b ORoute b1 _ Hi Hx1) as Hi1.
  pose proof (ids_ok_exec b1 (OReceiveAll 0) b2 _ Hi1 Hx2) as Hi2.
  destruct (ep_find_method (OReceiveAll 0) 0 b1 _ _ Hi1 eq_refl Hx2) as (e1 & e1' & He1 & Hef & _ & _ & Hall).
  assert (E1 : ep_find 0 b1 = Some (offered (rev (pending b)) (clear_send e))).
  { cbn [exec] in Hx1. destruct (route_messages b) as [bb n] eqn:Er. injection Hx1 as <- _.
    rewrite (ep_find_route 0 b bb n Er), He. reflexivity. }
  assert (Hc1 : covered e1).
  { rewrite E1 in He1. injection He1 as <-. unfold offered. cbn [e_alive clear_send].
    intros k s. cbn [e_subs e_filter]. apply Hc. }
  assert (Hc2 : covered e2).
  { pose proof (Hall 0) as H0. rewrite Nat.eqb_refl, He2 in H0. injection H0 as <-.
    exact (covered_effect (OReceiveAll 0) e1 _ _ eq_refl Hc1 Hef). }
  assert (Ho : own_only b2).
  { split; [exact Hro2|]. intros i e' Hi' Hne. rewrite (Hall i) in Hi'.
    apply Nat.eqb_neq in Hne as Hne'. rewrite Hne' in Hi'.
    cbn [exec] in Hx1. destruct (route_messages b) as [bb n] eqn:Er. injection Hx1 as <- _.
    rewrite (ep_find_route i b bb n Er) in Hi'. destruct (ep_find i b) as [ei|]; [|discriminate].
    cbn [option_map] in Hi'. injection Hi' as <-. unfold offered. cbn [e_alive clear_send e_send]. reflexivity. }
  exists b2. unfold route_receive_own. rewrite Hx1. cbn [obind fst]. rewrite Hx2. cbn [obind fst].
  split; [reflexivity|]. split; [|split; [exact Ho|split; [|split]]].
  - split; [exact Hi2| |].
    + exists e2. auto.
    + intros ty r. rewrite (senders_exec b1 (OReceiveAll 0) _ _ 0 ty r Hi1 Hx2).
      cbn [hist_step]. rewrite (senders_exec b ORoute _ _ 0 ty r Hi Hx1). apply (g_senders b G).
  - unfold own_sent. now rewrite He2.
  - rewrite (own_pending b2 Hi2 Ho). unfold own_sent. now rewrite He2.
  - intros ty r. unfold waiting. rewrite He2, He, Hsub.
    pose proof (g_senders b G ty r) as Hg. unfold senders_at in Hg. rewrite He in Hg.
    destruct (sub_find (ty, r) (e_subs e)) as [s|] eqn:Es; cbn [option_map] in Hg; rewrite <- Hg.
    + cbn [s_msgs sender_list]. rewrite Hr. cbn [rev filter]. now rewrite app_nil_r.
    + cbn [sender_list app]. unfold wanted. cbn [mem]. clear. induction (pending b) as [|m l IH]; [reflexivity|].
      cbn [filter]. rewrite andb_false_r. exact IH.
Qed.

(** Calls from outside. *)
Lemma outside_exec b o b' x : good b -> outside o = true -> exec b o = Ret (b', x) ->
  good b' /\ (forall ty r, waiting b' ty r = waiting b ty r) /\ own_sent b' = own_sent b.
Proof.
  intros G Ho Hx. destruct (g_ep b G) as (e & He & Hc & Hr). pose proof (g_ids b G) as Hi.
  assert (H0 : ep_find 0 b' = ep_find 0 b).
  { destruct (op_id o) as [i|] eqn:Eo.
    - destruct (ep_find_method o i b b' x Hi Eo Hx) as (e0 & e0' & _ & _ & _ & _ & Hall).
      rewrite (Hall 0). destruct (Nat.eqb_spec 0 i) as [E|E]; [|reflexivity].
      subst i. destruct o; cbn [op_id] in Eo; try discriminate; injection Eo as ->; cbn in Ho; discriminate.
    - destruct o; cbn [op_id] in Eo; try discriminate; cbn [outside] in Ho; try discriminate.
      + cbn [exec] in Hx. injection Hx as <- _. rewrite ep_find_create by exact Hi.
        destruct (Nat.eqb_spec 0 (b_next b)) as [E|E]; [|reflexivity].
        destruct Hi as [_ Hf]. apply ep_find_Some in He as (Hin & _ & _). rewrite Forall_forall in Hf.
        specialize (Hf _ Hin). lia.
      + cbn [exec] in Hx. destruct (ep_find id b); [|discriminate]. injection Hx as <- _.
        rewrite ep_find_destroy. destruct (Nat.eqb_spec 0 id) as [E|E]; [|reflexivity].
        subst id. cbn in Ho. discriminate. }
  split; [|split].
  - split.
    + eapply ids_ok_exec; eauto.
    + exists e. rewrite H0. auto.
    + intros ty r. unfold senders_at. rewrite H0. apply (g_senders b G).
  - intros ty r. unfold waiting. now rewrite H0.
  - unfold own_sent. now rewrite H0.
Qed.
Lemma outside_run : forall ops b b' tr, good b -> forallb outside ops = true -> run b ops = Ret (b', tr) ->
  good b' /\ (forall ty r, waiting b' ty r = waiting b ty r) /\ own_sent b' = own_sent b.
Proof.
  induction ops as [|o ops IH]; intros b b' tr G Ho Hr; cbn [run] in Hr.
  - injection Hr as <- _. auto.
  - cbn [forallb] in Ho. apply andb_true_iff in Ho as [Ho1 Ho2].
    destruct (exec b o) as [[b1 x]| |] eqn:Ex; cbn [obind fst] in Hr; try discriminate.
    destruct (run b1 ops) as [[b2 tr2]| |] eqn:Er; cbn [obind fst] in Hr; try discriminate.
    injection Hr as <- _.
    destruct (outside_exec b o b1 x G Ho1 Ex) as (G1 & W1 & S1).
    destruct (IH b1 b2 tr2 G1 Ho2 Er) as (G2 & W2 & S2).
    split; [exact G2|]. split; [|congruence]. intros. now rewrite W2, W1.
Qed.

(** ** The two phases against their messages. *)
(** The populations on their own. *)
Fixpoint pops_alone (step : N) (inbox : uid -> list message) (pops : list (uid * apop))
  : outcome (list (uid * apop) * list (option message)) :=
  match pops with
  | [] => Ret ([], [])
  | (u, a) :: t =>
      obind (apop_step u step (inbox u) a) (fun y =>
      obind (pops_alone step inbox t) (fun z => Ret ((u, fst y) :: fst z, snd y :: snd z)))
  end.
Fixpoint projs_alone (step : N) (inbox : uid -> list message) (projs : list wproj)
  : outcome (list wproj * list (option message)) :=
  match projs with
  | [] => Ret ([], [])
  | w :: t =>
      obind (calculate_projection (wp_head w) step (inbox (ph_uid (wp_head w))) (wp_proj w) (wp_queue w)) (fun y =>
      obind (projs_alone step inbox t) (fun z =>
        Ret (mkWP (wp_head w) (fst (fst y)) (snd (fst y)) :: fst z, snd y :: snd z)))
  end.

Lemma sent_msgs_cons o l : sent_msgs (o :: l) = sent_msgs [o] ++ sent_msgs l.
Proof. unfold sent_msgs. cbn [flat_map]. now rewrite app_nil_r. Qed.

Lemma key_same_ty ty (a b : uid) : key_eqb (ty, a) (ty, b) = N.eqb a b.
Proof. unfold key_eqb. cbn [fst snd]. now rewrite Nat.eqb_refl. Qed.

Lemma populations_phase_eq step : forall pops b, good b -> own_only b -> NoDup (map fst pops) ->
  match pops_alone step (waiting b 1) pops with
  | Ret (pops', outs) => exists b',
      populations_phase step pops b = Ret (pops', b', map (fun p => waiting b 1 (fst p)) pops, outs) /\
      good b' /\ own_only b' /\ own_sent b' = own_sent b ++ sent_msgs outs /\
      (forall r, waiting b' 0 r = waiting b 0 r) /\
      (forall r, waiting b' 1 r = if mem r (map fst pops) then [] else waiting b 1 r)
  | Throw => populations_phase step pops b = Throw
  | UB => populations_phase step pops b = UB
  end.
Proof.
  induction pops as [|[u a] pops IH]; intros b G Ho Hn; cbn [pops_alone populations_phase map].
  - exists b. cbn [sent_msgs flat_map mem]. rewrite app_nil_r. split; [reflexivity|auto].
  - cbn [map fst] in Hn. inversion Hn as [|? ? Hni Hn']; subst.
    destruct (unload_good b 1 u G) as (b1 & E1 & G1 & W1 & P1 & S1 & O1). specialize (O1 Ho).
    rewrite E1. cbn [obind fst snd].
    destruct (apop_step u step (waiting b 1 u) a) as [[a' o]| |]; cbn [obind fst snd]; try reflexivity.
    destruct (send_good b1 o G1) as (b2 & E2 & G2 & O2 & W2 & S2). specialize (O2 O1). rewrite E2. cbn [obind].
    specialize (IH b2 G2 O2 Hn').
    assert (Hin : forall r, In r (map fst pops) -> waiting b2 1 r = waiting b 1 r).
    { intros r Hr. rewrite W2, W1, key_same_ty. destruct (N.eqb_spec r u) as [E|E]; [|reflexivity]. subst. contradiction. }
    assert (Hal : pops_alone step (waiting b2 1) pops = pops_alone step (waiting b 1) pops).
    { clear -Hin. induction pops as [|[v a0] t IHt]; [reflexivity|]. cbn [pops_alone map fst] in *.
      rewrite (Hin v) by now left. rewrite IHt by (intros r Hr; apply Hin; now right). reflexivity. }
    rewrite Hal in IH.
    destruct (pops_alone step (waiting b 1) pops) as [[pops' outs]| |]; cbn [obind fst snd].
    + destruct IH as (b' & E & G' & O' & S' & W0' & W1'). exists b'. rewrite E. cbn [obind].
      split; [|split; [exact G'|split; [exact O'|split; [|split]]]].
      * do 3 f_equal. cbn [fst]. f_equal. apply map_ext_in. intros p Hp. apply Hin. now apply in_map.
      * rewrite S', S2, S1, (sent_msgs_cons o outs), app_assoc. reflexivity.
      * intros r. rewrite W0', W2, W1. reflexivity.
      * intros r. rewrite W1', W2, W1, key_same_ty. cbn [fst]. unfold mem at 2. cbn [existsb]. fold (mem r (map fst pops)).
        destruct (mem r (map fst pops)); [now rewrite orb_true_r|]. rewrite orb_false_r.
        reflexivity.
    + rewrite IH. reflexivity.
    + rewrite IH. reflexivity.
Qed.

Lemma projections_phase_eq step : forall projs b, good b -> own_only b ->
  NoDup (map (fun w => ph_uid (wp_head w)) projs) ->
  match projs_alone step (waiting b 0) projs with
  | Ret (projs', outs) => exists b',
      projections_phase step projs b = Ret (projs', b', map (fun w => waiting b 0 (ph_uid (wp_head w))) projs, outs) /\
      good b' /\ own_only b' /\ own_sent b' = own_sent b ++ sent_msgs outs /\
      (forall r, waiting b' 1 r = waiting b 1 r) /\
      (forall r, waiting b' 0 r = if mem r (map (fun w => ph_uid (wp_head w)) projs) then [] else waiting b 0 r)
  | Throw => projections_phase step projs b = Throw
  | UB => projections_phase step projs b = UB
  end.
Proof.
  induction projs as [|w projs IH]; intros b G Ho Hn; cbn [projs_alone projections_phase map].
  - exists b. cbn [sent_msgs flat_map mem]. rewrite app_nil_r. split; [reflexivity|auto].
  - cbn [map] in Hn. inversion Hn as [|? ? Hni Hn']; subst.
    set (u := ph_uid (wp_head w)) in *.
    destruct (unload_good b 0 u G) as (b1 & E1 & G1 & W1 & P1 & S1 & O1). specialize (O1 Ho).
    rewrite E1. cbn [obind fst snd].
    destruct (calculate_projection _ _ _ _ _) as [[[p' q'] o]| |]; cbn [obind fst snd]; try reflexivity.
    destruct (send_good b1 o G1) as (b2 & E2 & G2 & O2 & W2 & S2). specialize (O2 O1). rewrite E2. cbn [obind].
    specialize (IH b2 G2 O2 Hn').
    assert (Hin : forall r, In r (map (fun w => ph_uid (wp_head w)) projs) -> waiting b2 0 r = waiting b 0 r).
    { intros r Hr. rewrite W2, W1, key_same_ty. destruct (N.eqb_spec r u) as [E|E]; [|reflexivity]. subst r. contradiction. }
    assert (Hal : projs_alone step (waiting b2 0) projs = projs_alone step (waiting b 0) projs).
    { clear -Hin. induction projs as [|v t IHt]; [reflexivity|]. cbn [projs_alone map] in *.
      rewrite (Hin (ph_uid (wp_head v))) by now left. rewrite IHt by (intros r Hr; apply Hin; now right). reflexivity. }
    rewrite Hal in IH.
    destruct (projs_alone step (waiting b 0) projs) as [[projs' outs]| |]; cbn [obind fst snd].
    + destruct IH as (b' & E & G' & O' & S' & W0' & W1'). exists b'. rewrite E. cbn [obind].
      split; [|split; [exact G'|split; [exact O'|split; [|split]]]].
      * do 3 f_equal. f_equal. apply map_ext_in. intros p Hp. apply Hin.
        exact (in_map (fun w => ph_uid (wp_head w)) _ _ Hp).
      * rewrite S', S2, S1, (sent_msgs_cons o outs), app_assoc. reflexivity.
      * intros r. rewrite W0', W2, W1. reflexivity.
      * intros r. rewrite W1', W2, W1, key_same_ty. unfold mem at 2. cbn [existsb].
        fold (mem r (map (fun w => ph_uid (wp_head w)) projs)).
        destruct (mem r (map _ projs)); [now rewrite orb_true_r|]. rewrite orb_false_r. reflexivity.
    + rewrite IH. reflexivity.
    + rewrite IH. reflexivity.
Qed.
End Good.
