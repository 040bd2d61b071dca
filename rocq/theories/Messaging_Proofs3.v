From Verif Require Import Base ListLemmas Messaging_Model Messaging_Spec Messaging_Proofs Messaging_Proofs2.

Lemma exact_delivery_perm ops b tr id ty r ss e :
  no_add_sender ops ->
  run bus_init ops = Ret (b, tr) ->
  ep_find id b = Some e ->
  hist_senders ops id ty r = Some ss ->
  exists b' old n1 n2 got,
    run b [OUnload id ty r; ORoute; OReceiveAll id; OUnload id ty r] =
    Ret (b', [(OUnload id ty r, OutMsgs old); (ORoute, OutCount n1); (OReceiveAll id, OutCount n2);
              (OUnload id ty r, OutMsgs got)]) /\
    Permutation got (filter (wanted ty ss) (pending b ++ e_recv e)).
Proof.
  intros H1 H2 H3 H4. destruct (delivery ops b tr id ty r ss e H1 H2 H3 H4) as (b' & old & n1 & n2 & H).
  eexists b', old, n1, n2, _. split; [exact H|].
  rewrite filter_app. apply Permutation_app_head. rewrite filter_rev. symmetry. apply Permutation_rev.
Qed.

Lemma order_one_round ops b tr id ty r ss e :
  no_add_sender ops ->
  run bus_init ops = Ret (b, tr) ->
  ep_find id b = Some e -> e_recv e = [] ->
  hist_senders ops id ty r = Some ss ->
  exists b' old n1 n2,
    run b [OUnload id ty r; ORoute; OReceiveAll id; OUnload id ty r] =
    Ret (b', [(OUnload id ty r, OutMsgs old); (ORoute, OutCount n1); (OReceiveAll id, OutCount n2);
              (OUnload id ty r, OutMsgs (filter (wanted ty ss) (pending b)))]).
Proof.
  intros H1 H2 H3 H5 H4. destruct (delivery ops b tr id ty r ss e H1 H2 H3 H4) as (b' & old & n1 & n2 & H).
  exists b', old, n1, n2. rewrite H, H5. cbn [rev filter]. now rewrite app_nil_r.
Qed.

Lemma rounds_fifo ops b tr a rcv ea er ty r ss mss :
  no_add_sender ops ->
  run bus_init ops = Ret (b, tr) ->
  ep_find a b = Some ea -> ep_find rcv b = Some er ->
  hist_senders ops rcv ty r = Some ss ->
  pending b = [] -> e_recv er = [] ->
  exists b' tr',
    run b (OUnload rcv ty r ::
           flat_map (fun ms => map (OSend a) ms ++ [ORoute; OReceiveAll rcv]) mss ++ [OUnload rcv ty r]) =
    Ret (b', tr' ++ [(OUnload rcv ty r, OutMsgs (filter (wanted ty ss) (concat mss)))]).
Proof.
  intros Hn Hr Ha Hrc Hh Hp Hrv.
  pose proof (run_ids _ _ _ Hr) as OK. pose proof (covered_run _ _ _ Hn Hr) as Hc.
  rewrite <- (senders_run ops b tr rcv ty r Hr) in Hh.
  destruct (senders_at_find b rcv ty r ss er Hrc Hh) as (s & Hs & Hss).
  pose proof (unload_exec b rcv ty r er OK Hrc) as H1.
  set (b1 := ep_put (fst (unload_messages ty r er)) b) in *.
  destruct (unload_find b rcv ty r er b1 _ OK Hrc H1)
    as (e1 & Hf1 & Hrecv1 & _ & Hfil1 & Hsub1 & Hsub1n & _ & Hp1 & Hoth).
  pose proof (ids_ok_exec b (OUnload rcv ty r) b1 _ OK H1) as OK1.
  assert (Hc1 : covered e1).
  { intros k s' Hk. rewrite Hfil1. destruct (sub_find k (e_subs er)) as [s0|] eqn:E0.
    - rewrite (Hsub1 k s0 E0) in Hk. injection Hk as <-. cbn. eapply Hc; eauto.
    - rewrite (Hsub1n k E0) in Hk. discriminate. }
  assert (Ha1 : exists ea1, ep_find a b1 = Some ea1).
  { destruct (Nat.eq_dec a rcv) as [->|Hne]; [eauto|]. rewrite Hoth; eauto. }
  destruct Ha1 as (ea1 & Ha1).
  pose proof (Hsub1 _ _ Hs) as Hs1. rewrite key_eqb_refl, Hss in Hs1.
  destruct (rounds_fifo_state a rcv mss b1 ea1 e1 ss ty r [] OK1 Ha1 Hf1 Hc1) as (b2 & tr2 & e2 & Hr2 & OK2 & Hf2 & Hs2); auto;
    try congruence.
  exists (ep_put (fst (unload_messages ty r e2)) b2), ((OUnload rcv ty r, OutMsgs (snd (unload_messages ty r er))) :: tr2).
  cbn [run]. rewrite H1. cbn [obind fst snd].
  change (fun ms : list message => map (OSend a) ms ++ [ORoute; OReceiveAll rcv]) with (round_ops a rcv).
  rewrite run_app, Hr2. cbn [obind fst snd]. cbn [run].
  rewrite (unload_exec b2 rcv ty r e2 OK2 Hf2). cbn [obind fst snd app].
  unfold unload_messages at 3. rewrite Hs2. reflexivity.
Qed.

(** ** routing drains the bus *)
Lemma route_drains b : exists b1,
  exec b ORoute = Ret (b1, OutCount (length (pending b))) /\
  pending b1 = [] /\ exec b1 ORoute = Ret (b1, OutCount 0).
Proof.
  cbn [exec]. rewrite route_eq. eexists. split; [reflexivity|].
  match goal with |- pending ?x = _ /\ _ => set (b1 := x) end.
  assert (Hp : pending b1 = []).
  { unfold b1. generalize (rev (pending b)) as ms. intros ms. unfold pending; cbn [b_route b_eps app].
    induction (filter e_alive (b_eps b)) as [|z zs IH]; cbn; [reflexivity|exact IH]. }
  split; [exact Hp|]. rewrite route_eq, Hp. cbn [length rev]. do 2 f_equal.
  clear Hp. unfold b1; cbn [b_eps b_next]. clear b1. f_equal. generalize (rev (pending b)) as ms. intros ms.
  induction (filter e_alive (b_eps b)) as [|z zs IH]; cbn [map filter]; [reflexivity|].
  change (e_alive (offered ms (clear_send z))) with true. cbn iota. cbn [map]. rewrite IH. f_equal.
  rewrite offered_nil. reflexivity.
Qed.

(** ** unloading *)
Lemma unload_twice ops b tr id ty r e :
  run bus_init ops = Ret (b, tr) -> ep_find id b = Some e ->
  exists b' l e',
    run b [OUnload id ty r; OUnload id ty r] =
      Ret (b', [(OUnload id ty r, OutMsgs l); (OUnload id ty r, OutMsgs [])]) /\
    l = match sub_find (ty, r) (e_subs e) with Some s => s_msgs s | None => [] end /\
    ep_find id b' = Some e' /\
    e_recv e' = e_recv e /\ pending b' = pending b /\
    (forall k, k <> (ty, r) -> sub_find k (e_subs e') = sub_find k (e_subs e)) /\
    (forall i, i <> id -> ep_find i b' = ep_find i b) /\
    (hist_senders ops id ty r = None -> e' = e).
Proof.
  intros Hr Hf. pose proof (run_ids _ _ _ Hr) as OK.
  pose proof (unload_exec b id ty r e OK Hf) as H1.
  set (b1 := ep_put (fst (unload_messages ty r e)) b) in *.
  destruct (unload_find b id ty r e b1 _ OK Hf H1)
    as (e1 & Hf1 & Hrecv1 & _ & Hfil1 & Hsub1 & Hsub1n & _ & Hp1 & Hoth1).
  pose proof (ids_ok_exec b (OUnload id ty r) b1 _ OK H1) as OK1.
  pose proof (unload_exec b1 id ty r e1 OK1 Hf1) as H2.
  set (b2 := ep_put (fst (unload_messages ty r e1)) b1) in *.
  destruct (unload_find b1 id ty r e1 b2 _ OK1 Hf1 H2)
    as (e2 & Hf2 & Hrecv2 & _ & Hfil2 & Hsub2 & Hsub2n & _ & Hp2 & Hoth2).
  exists b2, (snd (unload_messages ty r e)), e2.
  assert (Hl2 : snd (unload_messages ty r e1) = []).
  { unfold unload_messages. destruct (sub_find (ty, r) (e_subs e)) as [s|] eqn:Es.
    - rewrite (Hsub1 _ _ Es), key_eqb_refl. reflexivity.
    - now rewrite (Hsub1n _ Es). }
  repeat split.
  - cbn [run]. rewrite H1. cbn [obind fst snd]. rewrite H2. cbn [obind fst snd]. now rewrite Hl2.
  - unfold unload_messages. now destruct (sub_find (ty, r) (e_subs e)).
  - exact Hf2.
  - congruence.
  - congruence.
  - intros k Hk. destruct (sub_find k (e_subs e)) as [s|] eqn:Es.
    + pose proof (Hsub1 _ _ Es) as E1. destruct (key_eqb_spec k (ty, r)); [congruence|].
      pose proof (Hsub2 _ _ E1) as E2. destruct (key_eqb_spec k (ty, r)); [congruence|].
      rewrite E2. now destruct s.
    + apply Hsub2n. now apply Hsub1n.
  - intros i Hi. rewrite Hoth2, Hoth1; auto.
  - intros Hh. rewrite <- (senders_run _ _ _ _ _ _ Hr) in Hh. unfold senders_at in Hh. rewrite Hf in Hh.
    destruct (sub_find (ty, r) (e_subs e)) as [s|] eqn:Es; [discriminate|].
    destruct (ep_find_method (OUnload id ty r) id b b1 _ OK eq_refl H1) as (x & y & Hx & Hxe & _ & _ & Hfy).
    rewrite Hf in Hx. injection Hx as <-. cbn [ep_effect] in Hxe. unfold unload_messages in Hxe. rewrite Es in Hxe.
    injection Hxe as <-. specialize (Hfy id). rewrite Nat.eqb_refl, Hf1 in Hfy. injection Hfy as ->.
    destruct (ep_find_method (OUnload id ty r) id b1 b2 _ OK1 eq_refl H2) as (x & y & Hx & Hxe & _ & _ & Hfy).
    rewrite Hf1 in Hx. injection Hx as <-. cbn [ep_effect] in Hxe. unfold unload_messages in Hxe. rewrite Es in Hxe.
    injection Hxe as <-. specialize (Hfy id). rewrite Nat.eqb_refl, Hf2 in Hfy. now injection Hfy as ->.
Qed.

(** ** subscriptions form a map *)
Definition keys_ok (b : bus) : Prop :=
  forall id e, ep_find id b = Some e -> NoDup (map fst (e_subs e)).
Lemma sub_set_keys k s l : NoDup (map fst l) -> NoDup (map fst (sub_set k s l)).
Proof.
  assert (Hin : forall l, In k (map fst (sub_set k s l))).
  { induction l0 as [|[k2 s2] l0 IH]; cbn; [auto|]. destruct (key_eqb k k2); cbn; auto. }
  assert (Hsub : forall l x, In x (map fst (sub_set k s l)) -> x = k \/ In x (map fst l)).
  { induction l0 as [|[k2 s2] l0 IH]; cbn; [intuition|]. intros x.
    destruct (key_eqb_spec k k2); cbn; [intuition|]. intros [H|H]; [auto|]. apply IH in H. tauto. }
  induction l as [|[k2 s2] l IH]; cbn; intros ND.
  - repeat constructor. auto.
  - inversion ND; subst. destruct (key_eqb_spec k k2) as [->|]; cbn; constructor; auto.
    intros H. apply Hsub in H as [->|H]; [congruence|auto].
Qed.
Lemma keys_map_deliver ms l : map fst (map (deliver_many ms) l) = map fst l.
Proof. rewrite map_map. apply map_ext. intros [k s]. reflexivity. Qed.
Lemma keys_effect o e e' x :
  NoDup (map fst (e_subs e)) -> ep_effect o e = Ret (e', x) -> NoDup (map fst (e_subs e')).
Proof.
  intros Hc H. destruct o; cbn [ep_effect] in H; try discriminate.
  - injection H as <- _. unfold subscribe; cbn. now apply sub_set_keys.
  - unfold unsubscribe in H. destruct (sub_find _ _); injection H as <- _; [|assumption]. cbn.
    unfold sub_erase. induction (e_subs e) as [|[k s0] l IH]; cbn; [constructor|].
    inversion Hc as [|? ? Hni Hc']; subst. destruct (key_eqb _ _); cbn; auto. constructor; auto.
    intros Hin. apply Hni. apply in_map_iff in Hin as (z & Hz & Hin). apply filter_In in Hin as [Hin _].
    apply in_map_iff; eauto.
  - destruct (remove_receiver _ e) as [a| |] eqn:E; cbn in H; try discriminate.
    apply remove_receiver_Ret in E; subst a. now injection H as <- _.
  - unfold add_sender in H. destruct (sub_find _ _); cbn in H; [|discriminate]. injection H as <- _. now apply sub_set_keys.
  - unfold remove_sender in H. destruct (sub_find _ _); cbn in H; [|discriminate]. injection H as <- _. now apply sub_set_keys.
  - injection H as <- _. assumption.
  - unfold receive_message in H. destruct (pop_back _) as [[? m]|]; injection H as <- _; [|assumption]. cbn.
    rewrite (map_ext _ _ (deliver_to_many m)). now rewrite keys_map_deliver.
  - rewrite receive_all_eq in H. injection H as <- _. cbn. now rewrite keys_map_deliver.
  - unfold unload_messages in H. destruct (sub_find _ _); injection H as <- _; [|assumption]. now apply sub_set_keys.
Qed.
Lemma keys_exec b o b' x : ids_ok b -> keys_ok b -> exec b o = Ret (b', x) -> keys_ok b'.
Proof.
  intros OK Hc H. destruct (op_id o) as [i|] eqn:Eo.
  - destruct (ep_find_method o i b b' x OK Eo H) as (e & e' & Hf & Hef & _ & _ & Hfind).
    intros id y. rewrite Hfind. destruct (Nat.eqb id i); [|apply Hc].
    intros [= <-]. eapply keys_effect; eauto.
  - destruct o; try discriminate Eo; cbn [exec] in H; intros id' y.
    + injection H as <- _. rewrite ep_find_create by assumption.
      destruct (Nat.eqb id' (b_next b)); [|apply Hc]. intros [= <-]. constructor.
    + destruct (ep_find id b); [|discriminate]. injection H as <- _.
      rewrite ep_find_destroy. destruct (Nat.eqb id' id); [discriminate|apply Hc].
    + destruct (bus_step b) as [b1 n] eqn:Es. injection H as <- _.
      rewrite (ep_find_step id' b b1 n Es). destruct (pop_back _) as [[? m]|]; [|apply Hc].
      destruct (ep_find id' b) as [e|] eqn:Ef; [|discriminate]. cbn. intros [= <-].
      apply Hc in Ef. unfold offer. destruct (e_alive e && _); exact Ef.
    + destruct (route_messages b) as [b1 n] eqn:Es. injection H as <- _.
      rewrite (ep_find_route id' b b1 n Es). destruct (ep_find id' b) as [e|] eqn:Ef; [|discriminate].
      cbn. intros [= <-]. apply Hc in Ef. exact Ef.
Qed.
Lemma keys_run ops b tr : run bus_init ops = Ret (b, tr) -> keys_ok b.
Proof.
  intros H.
  assert (HP : ids_ok b /\ keys_ok b); [|apply HP].
  refine (run_inv_gen (fun b => ids_ok b /\ keys_ok b) (fun _ => True) _
            ops bus_init b tr (Forall_true _) _ H).
  - intros b0 o b1 x _ [OK Hc] He. split; [eapply ids_ok_exec; eauto|eapply keys_exec; eauto].
  - split; [apply ids_ok_init|]. intros id e. discriminate.
Qed.

Lemma subscribe_effect ops b tr id ty r ss e :
  run bus_init ops = Ret (b, tr) -> ep_find id b = Some e ->
  exists b' e' s',
    exec b (OSubscribe id ty r ss) = Ret (b', OutUnit) /\ ep_find id b' = Some e' /\
    NoDup (map fst (e_subs e')) /\
    sub_find (ty, r) (e_subs e') = Some s' /\
    (forall u, In u (s_senders s') <->
       In u ss \/ exists s, sub_find (ty, r) (e_subs e) = Some s /\ In u (s_senders s)) /\
    s_msgs s' = match sub_find (ty, r) (e_subs e) with Some s => s_msgs s | None => [] end /\
    (forall k, k <> (ty, r) -> sub_find k (e_subs e') = sub_find k (e_subs e)) /\
    (forall i, i <> id -> ep_find i b' = ep_find i b).
Proof.
  intros Hr Hf. pose proof (run_ids _ _ _ Hr) as OK.
  assert (H1 : exec b (OSubscribe id ty r ss) = Ret (ep_put (subscribe ty r ss e) b, OutUnit)).
  { cbn [exec]. unfold on_ep. now rewrite Hf. }
  destruct (ep_find_method (OSubscribe id ty r ss) id _ _ _ OK eq_refl H1) as (x & y & Hx & Hxe & _ & _ & Hfy).
  rewrite Hf in Hx. injection Hx as <-. cbn [ep_effect] in Hxe. injection Hxe as <-.
  pose proof (Hfy id) as Hfi. rewrite Nat.eqb_refl in Hfi.
  eexists _, _, _. split; [exact H1|]. split; [exact Hfi|].
  split.
  { unfold subscribe; cbn. apply sub_set_keys. eapply keys_run; eauto. }
  unfold subscribe; cbn [e_subs].
  split; [rewrite sub_find_set, key_eqb_refl; reflexivity|].
  repeat split.
  - destruct (sub_find (ty, r) (e_subs e)) as [s|]; cbn; [|auto].
    rewrite in_app_iff. intros [H|H]; eauto.
  - destruct (sub_find (ty, r) (e_subs e)) as [s|]; cbn.
    + rewrite in_app_iff. intros [H|(s0 & [= <-] & H)]; auto.
    + intros [H|(s0 & H0 & H)]; [auto|discriminate].
  - destruct (sub_find (ty, r) (e_subs e)) as [s|]; reflexivity.
  - intros k Hk. rewrite sub_find_set. destruct (key_eqb_spec k (ty, r)); [congruence|reflexivity].
  - intros i Hi. rewrite Hfy. destruct (Nat.eqb_spec i id); [congruence|reflexivity].
Qed.

(** only subscribe calls: the senders are the union *)
Lemma hist_subscribes id ty r : forall calls acc,
  fold_left (hist_step id ty r) (map (fun c => OSubscribe id (fst (fst c)) (snd (fst c)) (snd c)) calls) acc =
  match acc, filter (fun c => key_eqb (ty, r) (fst c)) calls with
  | None, [] => None
  | None, l => Some (flat_map snd l)
  | Some a, l => Some (a ++ flat_map snd l)
  end.
Proof.
  induction calls as [|[[ty' r'] ss] calls IH]; intros acc.
  - cbn. destruct acc; [now rewrite app_nil_r|reflexivity].
  - cbn [map fold_left fst snd filter hist_step]. rewrite op_id_match, Nat.eqb_refl. cbn [andb].
    rewrite IH. destruct (key_eqb (ty, r) (ty', r')); [|reflexivity].
    destruct acc as [a|]; cbn [flat_map snd]; [now rewrite app_assoc|].
    match goal with |- context [flat_map snd ?f] => destruct f end; cbn; [now rewrite ?app_nil_r|reflexivity].
Qed.

(** ** unsubscribing *)
Definition no_resub (id ty : nat) (r : uid) (o : op) : Prop :=
  match o with
  | OSubscribe id' ty' r' _ => ~ (id' = id /\ ty' = ty /\ r' = r)
  | _ => True
  end.
Lemma hist_none id ty r : forall ops, Forall (no_resub id ty r) ops ->
  fold_left (hist_step id ty r) ops None = None.
Proof.
  induction ops as [|o ops IH]; intros HF; [reflexivity|]. inversion HF as [|? ? Ho HF']; subst.
  cbn [fold_left]. replace (hist_step id ty r None o) with (@None (list uid)); [auto|].
  destruct o; cbn; try reflexivity; rewrite ?op_id_match.
  - now destruct (Nat.eqb _ _).
  - cbn in Ho. destruct (Nat.eqb_spec id id0), (key_eqb_spec (ty, r) (ty0, receiver)) as [E|]; cbn; try reflexivity.
    injection E as -> ->. subst. exfalso; auto.
  - now destruct (_ && _).
  - now destruct (_ && _).
  - now destruct (_ && _).
Qed.
Lemma unsubscribed_silent id ty r : forall ops2 ops b tr b2 tr2,
  run bus_init ops = Ret (b, tr) ->
  hist_senders ops id ty r = None ->
  Forall (no_resub id ty r) ops2 ->
  run b ops2 = Ret (b2, tr2) ->
  forall l, In (OUnload id ty r, OutMsgs l) tr2 -> l = [].
Proof.
  induction ops2 as [|o ops2 IH]; intros ops b tr b2 tr2 Hr Hn HF H2 l Hin.
  - cbn in H2. injection H2 as <- <-. destruct Hin.
  - cbn [run] in H2. destruct (exec b o) as [[b1 x]| |] eqn:E; cbn in H2; try discriminate.
    destruct (run b1 ops2) as [[b3 tr3]| |] eqn:E2; cbn in H2; try discriminate.
    injection H2 as <- <-. inversion HF as [|? ? Ho HF']; subst.
    assert (Hr1 : run bus_init (ops ++ [o]) = Ret (b1, tr ++ [(o, x)])).
    { rewrite run_app, Hr. cbn [obind fst snd run]. rewrite E. reflexivity. }
    destruct Hin as [Heq|Hin].
    + injection Heq as -> ->.
      destruct (ep_find_method (OUnload id ty r) id b b1 _ (run_ids _ _ _ Hr) eq_refl E)
        as (e & e' & Hf & Hef & _).
      cbn [ep_effect] in Hef. unfold unload_messages in Hef.
      rewrite <- (senders_run _ _ _ _ _ _ Hr) in Hn. unfold senders_at in Hn. rewrite Hf in Hn.
      destruct (sub_find (ty, r) (e_subs e)); [discriminate|]. now injection Hef as _ <-.
    + eapply (IH (ops ++ [o])); eauto.
      unfold hist_senders. rewrite fold_left_app. unfold hist_senders in Hn. rewrite Hn.
      apply hist_none. now constructor.
Qed.
Lemma unsubscribe_result ops b tr id ty r b' x :
  run bus_init ops = Ret (b, tr) ->
  exec b (OUnsubscribe id ty r) = Ret (b', x) ->
  (x = OutBool true <-> hist_senders ops id ty r <> None) /\
  (x = OutBool false <-> hist_senders ops id ty r = None) /\
  (forall id' ty' r', (id', ty', r') <> (id, ty, r) ->
     match ep_find id' b with
     | None => ep_find id' b' = None
     | Some e => exists e', ep_find id' b' = Some e' /\ sub_find (ty', r') (e_subs e') = sub_find (ty', r') (e_subs e)
     end) /\
  (forall b2 x2 ss, exec b' (OSubscribe id ty r ss) = Ret (b2, x2) ->
     exists b3, exec b2 (OUnload id ty r) = Ret (b3, OutMsgs [])).
Proof.
  intros Hr H. pose proof (run_ids _ _ _ Hr) as OK.
  rewrite <- (senders_run ops b tr id ty r Hr).
  destruct (ep_find_method (OUnsubscribe id ty r) id b b' x OK eq_refl H) as (e & e' & Hf & Hef & _ & _ & Hfind).
  pose proof (ids_ok_exec _ _ _ _ OK H) as OK'.
  unfold senders_at. rewrite Hf. cbn [ep_effect] in Hef. unfold unsubscribe in Hef.
  assert (Hgone : sub_find (ty, r) (e_subs e') = None).
  { destruct (sub_find (ty, r) (e_subs e)) eqn:Es; injection Hef as <- _; [|assumption].
    cbn. now rewrite sub_find_erase, key_eqb_refl. }
  assert (Hresub : forall b2 x2 ss, exec b' (OSubscribe id ty r ss) = Ret (b2, x2) ->
     exists b3, exec b2 (OUnload id ty r) = Ret (b3, OutMsgs [])).
  { intros b2 x2 ss H2. pose proof (ids_ok_exec _ _ _ _ OK' H2) as OK2.
    destruct (ep_find_method (OSubscribe id ty r ss) id b' b2 x2 OK' eq_refl H2) as (e1 & e2 & Hf1 & Hef1 & _ & _ & Hfind1).
    rewrite Hfind, Nat.eqb_refl in Hf1. injection Hf1 as <-.
    specialize (Hfind1 id). rewrite Nat.eqb_refl in Hfind1.
    eexists. rewrite (unload_exec _ _ _ _ _ OK2 Hfind1).
    cbn [ep_effect] in Hef1. injection Hef1 as <- _. unfold subscribe; cbn [e_subs]. rewrite Hgone.
    unfold unload_messages. cbn [e_subs]. rewrite sub_find_set, key_eqb_refl. reflexivity. }
  destruct (sub_find (ty, r) (e_subs e)) as [s|] eqn:Es; injection Hef as <- <-; cbn [option_map].
  - split; [split; [intros _; discriminate|reflexivity]|].
    split; [split; [discriminate|discriminate]|].
    split; [|exact Hresub].
    intros id' ty' r' Hne. destruct (ep_find id' b) as [e0|] eqn:E0; rewrite Hfind.
    + destruct (Nat.eqb_spec id' id) as [->|]; [|eauto]. rewrite Hf in E0. injection E0 as <-.
      eexists; split; [reflexivity|]. cbn. rewrite sub_find_erase.
      destruct (key_eqb_spec (ty', r') (ty, r)) as [E|]; [|reflexivity]. injection E as -> ->. congruence.
    + destruct (Nat.eqb_spec id' id) as [->|]; [congruence|assumption].
  - split; [split; [discriminate|congruence]|].
    split; [split; reflexivity|].
    split; [|exact Hresub].
    intros id' ty' r' Hne. destruct (ep_find id' b) as [e0|] eqn:E0; rewrite Hfind.
    + destruct (Nat.eqb_spec id' id) as [->|]; [|eauto]. rewrite Hf in E0. injection E0 as <-. eauto.
    + destruct (Nat.eqb_spec id' id) as [->|]; [congruence|assumption].
Qed.

(** ** remove_receiver *)
Lemma remove_receiver_UB r e :
  (exists ty s, In ((ty, r), s) (e_subs e)) <-> remove_receiver r e = UB.
Proof.
  unfold remove_receiver. induction (e_subs e) as [|[[ty' r'] s'] l IH]; cbn.
  - split; [intros (? & ? & [])|discriminate].
  - destruct (N.eqb_spec r' r) as [->|Hne]; cbn; split; auto.
    + intros _. exists ty', s'. auto.
    + intros (ty & s & [E|Hin]); [congruence|]. apply IH. eauto.
    + intros H. apply IH in H as (ty & s & Hin). eauto.
Qed.
Lemma remove_receiver_none r e :
  (forall ty s, ~ In ((ty, r), s) (e_subs e)) -> remove_receiver r e = Ret e.
Proof.
  unfold remove_receiver. induction (e_subs e) as [|[[ty' r'] s'] l IH]; cbn; intros H; [reflexivity|].
  destruct (N.eqb_spec r' r) as [->|Hne]; [exfalso; apply (H ty' s'); auto|].
  apply IH. intros ty s Hin. apply (H ty s); auto.
Qed.

(** ** destroyed endpoints *)
Lemma destroy_route id b :
  route_messages (destroy_endpoint id b) =
  route_messages (mkBus (filter (fun e => negb (Nat.eqb (e_id e) id)) (b_eps b)) (b_route b) (b_next b)).
Proof.
  rewrite !route_eq.
  assert (Hf : filter e_alive (b_eps (destroy_endpoint id b)) =
               filter e_alive (filter (fun e => negb (Nat.eqb (e_id e) id)) (b_eps b))).
  { unfold destroy_endpoint; cbn. induction (b_eps b) as [|x l IH]; cbn; [reflexivity|].
    destruct (Nat.eqb (e_id x) id); cbn; [exact IH|]. destruct (e_alive x); [now rewrite IH|exact IH]. }
  unfold pending. rewrite Hf. reflexivity.
Qed.
Lemma destroy_step id b id' : id' <> id ->
  ep_find id' (fst (bus_step (destroy_endpoint id b))) = ep_find id' (fst (bus_step b)) /\
  snd (bus_step (destroy_endpoint id b)) = snd (bus_step b) /\
  b_route (fst (bus_step (destroy_endpoint id b))) = b_route (fst (bus_step b)).
Proof.
  intros Hne. destruct (bus_step (destroy_endpoint id b)) as [b1 n1] eqn:E1.
  destruct (bus_step b) as [b2 n2] eqn:E2. cbn [fst snd].
  rewrite (ep_find_step _ _ _ _ E1), (ep_find_step _ _ _ _ E2), ep_find_destroy.
  cbn [destroy_endpoint b_route]. destruct (Nat.eqb_spec id' id); [congruence|].
  split; [reflexivity|]. unfold bus_step in E1, E2. cbn [destroy_endpoint b_route] in E1.
  destruct (pop_back (b_route b)) as [[? ?]|]; injection E1 as <- <-; injection E2 as <- <-; auto.
Qed.
