From Verif Require Import Base ListLemmas Messaging_Model Messaging_Spec Messaging_Proofs.
Arguments count : simpl never.

(** ** at most once *)
Lemma count_nil p : count p [] = 0.
Proof. reflexivity. Qed.
Lemma count_app p a b : count p (a ++ b) = count p a + count p b.
Proof. unfold count. now rewrite filter_app, app_length. Qed.
Lemma count_filter_le p q l : count p (filter q l) <= count p l.
Proof.
  unfold count. induction l as [|x l IH]; cbn; [lia|].
  destruct (q x); cbn; destruct (p x); cbn; lia.
Qed.
Lemma count_rev p l : count p (rev l) = count p l.
Proof. unfold count. now rewrite filter_rev, rev_length. Qed.

Lemma pending_put p b e e' : ids_ok b -> ep_find (e_id e') b = Some e -> e_alive e' = true ->
  count p (pending (ep_put e' b)) + count p (e_send e) = count p (pending b) + count p (e_send e').
Proof.
  intros [ND _] Hf Ha. apply ep_find_Some in Hf as (Hin & Hid & Hal).
  unfold pending, ep_put; cbn [b_route b_eps]. rewrite !count_app.
  enough (H : count p (flat_map e_send (filter e_alive (map (fun x => if e_id x =? e_id e' then e' else x) (b_eps b))))
          + count p (e_send e)
          = count p (flat_map e_send (filter e_alive (b_eps b))) + count p (e_send e')) by lia.
  revert ND Hin. generalize (b_eps b) as l. induction l as [|x l IH]; cbn; [tauto|].
  intros ND [->|Hin]; inversion ND as [|? ? Hni ND']; subst.
  - rewrite Hid, Nat.eqb_refl. rewrite Ha, Hal; cbn. rewrite !count_app.
    replace (map (fun x => if e_id x =? e_id e' then e' else x) l) with l; [lia|].
    rewrite <- (map_id l) at 1. apply map_ext_in. intros y Hy.
    destruct (Nat.eqb_spec (e_id y) (e_id e')) as [E|]; [|reflexivity].
    exfalso. apply Hni. rewrite Hid, <- E. now apply in_map.
  - destruct (Nat.eqb_spec (e_id x) (e_id e')) as [E|E].
    + exfalso. apply Hni. rewrite E, <- Hid. now apply in_map.
    + specialize (IH ND' Hin). destruct (e_alive x); cbn; rewrite ?count_app; lia.
Qed.

(** What endpoint [id] has got for (ty, r) or may still get. *)
Definition stored (p : message -> bool) (ty : nat) (r : uid) (e : endpoint) : nat :=
  match sub_find (ty, r) (e_subs e) with Some s => count p (s_msgs s) | None => 0 end.
Definition flight (p : message -> bool) (id ty : nat) (r : uid) (b : bus) : nat :=
  match ep_find id b with Some e => stored p ty r e + count p (e_recv e) | None => 0 end
  + count p (pending b).

Definition out_unloaded (p : message -> bool) (id ty : nat) (r : uid) (o : op) (x : out) : nat :=
  unloaded p id ty r [(o, x)].
Definition out_sent (p : message -> bool) (o : op) (x : out) : nat := sent p [(o, x)].
Lemma unloaded_app p id ty r a b :
  unloaded p id ty r (a ++ b) = unloaded p id ty r a + unloaded p id ty r b.
Proof.
  induction a as [|[o x] a IH]; cbn [unloaded app]; [reflexivity|].
  destruct o; try exact IH. destruct x; try exact IH. rewrite IH. lia.
Qed.
Lemma sent_app p a b : sent p (a ++ b) = sent p a + sent p b.
Proof.
  induction a as [|[o x] a IH]; cbn [sent app]; [reflexivity|].
  destruct o; try exact IH. rewrite IH. lia.
Qed.

Lemma count_snoc p l m : count p (l ++ [m]) = count p l + (if p m then 1 else 0).
Proof. rewrite count_app. unfold count; cbn. destruct (p m); reflexivity. Qed.

Lemma stored_deliver p ty r ms e l :
  stored p ty r (with_recv_subs e l (map (deliver_many ms) (e_subs e))) <= stored p ty r e + count p ms.
Proof.
  unfold stored; cbn [e_subs with_recv_subs]. rewrite sub_find_map_deliver.
  destruct (sub_find (ty, r) (e_subs e)) as [s|]; [|lia].
  cbn [s_msgs fst]. rewrite count_app. pose proof (count_filter_le p (wanted ty (s_senders s)) ms). lia.
Qed.

Lemma effect_flight p ty r o id e e' x : ep_effect o e = Ret (e', x) -> op_id o = Some id ->
  stored p ty r e' + count p (e_recv e') + count p (e_send e') + out_unloaded p id ty r o x
  <= stored p ty r e + count p (e_recv e) + count p (e_send e) + out_sent p o x.
Proof.
  intros H Eo. unfold out_unloaded, out_sent.
  destruct o; cbn [ep_effect op_id unloaded sent] in *; try discriminate; injection Eo as ->.
  - injection H as <- _. unfold stored, subscribe; cbn [e_subs e_recv e_send]. rewrite sub_find_set.
    destruct (key_eqb_spec (ty, r) (ty0, receiver)) as [E|]; [|lia]. rewrite <- E.
    destruct (sub_find (ty, r) (e_subs e)) eqn:Es; cbn; rewrite ?count_nil; lia.
  - unfold unsubscribe in H. destruct (sub_find _ (e_subs e)); injection H as <- _; [|lia].
    unfold stored; cbn. rewrite sub_find_erase. destruct (key_eqb _ _); lia.
  - destruct (remove_receiver _ e) as [a| |] eqn:E; cbn in H; try discriminate.
    apply remove_receiver_Ret in E; subst a. injection H as <- _. lia.
  - unfold add_sender in H. destruct (sub_find _ (e_subs e)) eqn:Es; cbn in H; [|discriminate].
    injection H as <- _. unfold stored; cbn. rewrite sub_find_set.
    destruct (key_eqb_spec (ty, r) (ty0, receiver)) as [E|]; [|lia]. rewrite E, Es. cbn. lia.
  - unfold remove_sender in H. destruct (sub_find _ (e_subs e)) eqn:Es; cbn in H; [|discriminate].
    injection H as <- _. unfold stored; cbn. rewrite sub_find_set.
    destruct (key_eqb_spec (ty, r) (ty0, receiver)) as [E|]; [|lia]. rewrite E, Es. cbn. lia.
  - injection H as <- _. cbn. rewrite count_snoc. unfold stored; cbn. destruct (p m); lia.
  - unfold receive_message in H. destruct (pop_back (e_recv e)) as [[l m]|] eqn:Ep; injection H as <- _; [|lia].
    destruct (e_recv e) as [|y l2 _] eqn:Er using rev_ind; [discriminate|].
    rewrite pop_back_app in Ep. injection Ep as -> ->.
    rewrite (map_ext _ _ (deliver_to_many m)).
    pose proof (stored_deliver p ty r [m] e l).
    change (mkEp (e_id e) (e_alive e) (e_send e) l (e_filter e) (map (deliver_many [m]) (e_subs e)))
      with (with_recv_subs e l (map (deliver_many [m]) (e_subs e))).
    unfold with_recv_subs in *; cbn [e_recv e_send]. rewrite count_app. lia.
  - rewrite receive_all_eq in H. injection H as <- _.
    pose proof (stored_deliver p ty r (rev (e_recv e)) e []) as Hs. rewrite count_rev in Hs.
    unfold with_recv_subs in *; cbn [e_recv e_send]. change (count p []) with 0. lia.
  - unfold unload_messages in H. destruct (sub_find (ty0, receiver) (e_subs e)) as [s|] eqn:Es; injection H as <- <-.
    + rewrite op_id_match, Nat.eqb_refl; cbn [andb].
      unfold stored; cbn [e_subs e_recv e_send]. rewrite sub_find_set.
      destruct (key_eqb_spec (ty, r) (ty0, receiver)) as [E|]; [|lia].
      rewrite E, Es. cbn. rewrite ?count_nil. lia.
    + change (count p []) with 0. destruct (_ && _); lia.
Qed.

Lemma exec_flight p id ty r b o b' x : ids_ok b -> exec b o = Ret (b', x) ->
  out_unloaded p id ty r o x + flight p id ty r b' <= flight p id ty r b + out_sent p o x.
Proof.
  intros OK H. unfold flight. destruct (op_id o) as [i|] eqn:Eo.
  - destruct (ep_find_method o i b b' x OK Eo H) as (e & e' & Hf & Hef & Hid & Hb & Hfind).
    rewrite Hfind. pose proof (ep_effect_id _ _ _ _ Hef) as [_ Hal].
    pose proof (ep_find_Some _ _ _ Hf) as (_ & _ & Hal2).
    pose proof (pending_put p b e e' OK ltac:(now rewrite Hid) ltac:(congruence)) as Hp.
    rewrite Hb. pose proof (effect_flight p ty r o i e e' x Hef Eo) as He.
    destruct (Nat.eqb_spec id i) as [->|Hne].
    + rewrite Hf. lia.
    + assert (H0 : out_unloaded p id ty r o x = 0).
      { unfold out_unloaded. destruct o; cbn in Eo |- *; try reflexivity. injection Eo as ->.
        destruct x; try reflexivity. destruct (Nat.eqb_spec i id); [congruence|reflexivity]. }
      assert (Hs : count p (e_send e') <= count p (e_send e) + out_sent p o x).
      { clear - Hef Eo. unfold out_sent.
        destruct o; cbn [ep_effect op_id sent] in *; try discriminate.
        - injection Hef as <- _. unfold subscribe; cbn. lia.
        - unfold unsubscribe in Hef. destruct (sub_find _ _); injection Hef as <- _; cbn; lia.
        - destruct (remove_receiver _ e) as [a| |] eqn:E; cbn in Hef; try discriminate.
          apply remove_receiver_Ret in E; subst a. injection Hef as <- _. lia.
        - unfold add_sender in Hef. destruct (sub_find _ _); cbn in Hef; [|discriminate]. injection Hef as <- _; cbn; lia.
        - unfold remove_sender in Hef. destruct (sub_find _ _); cbn in Hef; [|discriminate]. injection Hef as <- _; cbn; lia.
        - injection Hef as <- _. cbn. rewrite count_snoc. lia.
        - unfold receive_message in Hef. destruct (pop_back _) as [[? ?]|]; injection Hef as <- _; cbn; lia.
        - rewrite receive_all_eq in Hef. injection Hef as <- _; cbn; lia.
        - unfold unload_messages in Hef. destruct (sub_find _ _); injection Hef as <- _; cbn; lia. }
      lia.
  - destruct o; try discriminate Eo; cbn [exec] in H; unfold out_unloaded, out_sent; cbn [unloaded sent].
    + injection H as <- _. rewrite ep_find_create by assumption.
      assert (Hp : pending (create_endpoint b) = pending b).
      { unfold pending, create_endpoint; cbn. rewrite filter_app, flat_map_app. cbn. now rewrite !app_nil_r. }
      rewrite Hp. destruct (Nat.eqb_spec id (b_next b)) as [->|]; [|lia].
      rewrite find_none_ge by (auto; lia). cbn. unfold stored; cbn. unfold count; cbn. lia.
    + destruct (ep_find id0 b); [|discriminate]. injection H as <- _. rewrite ep_find_destroy.
      assert (Hp : count p (pending (destroy_endpoint id0 b)) <= count p (pending b)).
      { unfold pending, destroy_endpoint; cbn. rewrite !count_app. apply Nat.add_le_mono_l.
        induction (b_eps b) as [|y l IH]; cbn; [lia|].
        destruct (Nat.eqb (e_id y) id0); cbn; destruct (e_alive y); cbn; rewrite ?count_app; lia. }
      destruct (Nat.eqb id id0); [|lia]. destruct (ep_find id b); lia.
    + destruct (bus_step b) as [b1 n] eqn:Es. injection H as <- _.
      rewrite (ep_find_step id b b1 n Es). unfold bus_step in Es.
      destruct (pop_back (b_route b)) as [[l m]|] eqn:Ep; [|injection Es as <- _; lia].
      destruct (b_route b) as [|y l2 _] eqn:Er using rev_ind; [discriminate|].
      rewrite pop_back_app in Ep. injection Ep as -> ->. injection Es as <- _.
      assert (Hp : count p (pending (mkBus (map (offer m) (b_eps b)) l (b_next b))) + (if p m then 1 else 0)
                   = count p (pending b)).
      { unfold pending; cbn. rewrite Er, !count_app.
        assert (Hm : flat_map e_send (filter e_alive (map (offer m) (b_eps b)))
                     = flat_map e_send (filter e_alive (b_eps b))).
        { induction (b_eps b) as [|z zs IH]; cbn; [reflexivity|].
          assert (e_alive (offer m z) = e_alive z /\ e_send (offer m z) = e_send z) as [-> Hs]
            by (unfold offer; destruct (e_alive z && _); auto).
          destruct (e_alive z); cbn; rewrite IH, ?Hs; reflexivity. }
        rewrite Hm. unfold count; cbn. destruct (p m); cbn; lia. }
      destruct (ep_find id b) as [e|]; cbn [option_map]; [|destruct (p m); lia].
      assert (Ho : stored p ty r (offer m e) + count p (e_recv (offer m e))
                   <= stored p ty r e + count p (e_recv e) + (if p m then 1 else 0)).
      { unfold offer. destruct (e_alive e && _); [|lia]. cbn [e_recv]. rewrite count_snoc.
        unfold stored; cbn; lia. }
      lia.
    + destruct (route_messages b) as [b1 n] eqn:Es. injection H as <- _.
      rewrite (ep_find_route id b b1 n Es). rewrite route_eq in Es. injection Es as <- _.
      assert (Hp : pending (mkBus (map (fun e => offered (rev (pending b)) (clear_send e)) (filter e_alive (b_eps b))) [] (b_next b)) = []).
      { generalize (rev (pending b)) as ms; intros ms. unfold pending; cbn [b_route b_eps app].
        induction (filter e_alive (b_eps b)) as [|z zs IH]; cbn; [reflexivity|exact IH]. }
      rewrite Hp. change (count p []) with 0.
      destruct (ep_find id b) as [e|]; cbn [option_map]; [|lia].
      cbn. unfold stored; cbn. rewrite count_app.
      pose proof (count_filter_le p (fun m => mem (msg_sender m) (e_filter e)) (rev (pending b))) as Hc.
      rewrite count_rev in Hc. lia.
Qed.

Lemma at_most_once_inv p id ty r : forall ops b tr,
  run bus_init ops = Ret (b, tr) ->
  unloaded p id ty r tr + flight p id ty r b <= sent p tr.
Proof.
  induction ops as [|o ops IH] using rev_ind; intros b tr H.
  - cbn in H. injection H as <- <-. cbn. unfold flight; cbn. unfold count; cbn. lia.
  - apply run_snoc in H as (b1 & tr1 & x & Hr & He & ->).
    specialize (IH _ _ Hr). rewrite unloaded_app, sent_app.
    pose proof (exec_flight p id ty r b1 o b x (run_ids _ _ _ Hr) He) as Hx.
    unfold out_unloaded, out_sent in Hx. lia.
Qed.
Lemma at_most_once p id ty r ops b tr :
  run bus_init ops = Ret (b, tr) -> unloaded p id ty r tr <= sent p tr.
Proof. intros H. pose proof (at_most_once_inv p id ty r ops b tr H). lia. Qed.

(** ** run as a composition *)
Lemma run_app : forall ops1 ops2 b,
  run b (ops1 ++ ops2) =
  obind (run b ops1) (fun p => obind (run (fst p) ops2) (fun q => Ret (fst q, snd p ++ snd q))).
Proof.
  induction ops1 as [|o ops1 IH]; intros ops2 b; cbn [app run].
  - cbn. destruct (run b ops2) as [[? ?]| |]; reflexivity.
  - destruct (exec b o) as [[b1 x]| |]; cbn; [|reflexivity|reflexivity].
    rewrite IH. destruct (run b1 ops1) as [[b2 t2]| |]; cbn; [|reflexivity|reflexivity].
    destruct (run b2 ops2) as [[b3 t3]| |]; reflexivity.
Qed.

(** ** exact delivery, observed through the API *)
Lemma senders_at_find b id ty r ss e :
  ep_find id b = Some e -> senders_at b id ty r = Some ss ->
  exists s, sub_find (ty, r) (e_subs e) = Some s /\ s_senders s = ss.
Proof.
  unfold senders_at. intros ->. destruct (sub_find (ty, r) (e_subs e)) as [s|]; cbn; [|discriminate].
  intros [= <-]. eauto.
Qed.
Lemma unload_exec b id ty r e : ids_ok b -> ep_find id b = Some e ->
  exec b (OUnload id ty r) =
  Ret (ep_put (fst (unload_messages ty r e)) b, OutMsgs (snd (unload_messages ty r e))).
Proof.
  intros OK Hf. cbn [exec]. unfold on_ep. rewrite Hf.
  now destruct (unload_messages ty r e).
Qed.
Lemma unload_find b id ty r e b1 l : ids_ok b -> ep_find id b = Some e ->
  exec b (OUnload id ty r) = Ret (b1, OutMsgs l) ->
  exists e1, ep_find id b1 = Some e1 /\ e_recv e1 = e_recv e /\ e_send e1 = e_send e /\
  e_filter e1 = e_filter e /\
  (forall k s, sub_find k (e_subs e) = Some s ->
     sub_find k (e_subs e1) = Some (mkSub (s_senders s) (if key_eqb k (ty, r) then [] else s_msgs s))) /\
  (forall k, sub_find k (e_subs e) = None -> sub_find k (e_subs e1) = None) /\
  (forall p, count p (pending b1) = count p (pending b)) /\ pending b1 = pending b /\
  (forall i, i <> id -> ep_find i b1 = ep_find i b).
Proof.
  intros OK Hf H.
  destruct (ep_find_method (OUnload id ty r) id b b1 _ OK eq_refl H) as (e0 & e1 & Hf0 & Hef & Hid & Hb & Hfind).
  rewrite Hf in Hf0. injection Hf0 as <-. exists e1.
  pose proof (ep_find_Some _ _ _ Hf) as (Hin & Hide & Hale).
  pose proof (Hfind id) as Hfi. rewrite Nat.eqb_refl in Hfi.
  cbn [ep_effect] in Hef. unfold unload_messages in Hef.
  assert (Hpend : pending b1 = pending b).
  { subst b1. unfold pending, ep_put; cbn. f_equal.
    destruct OK as [ND _]. clear -ND Hin Hid Hide Hef Hale.
    assert (Hs : e_send e1 = e_send e /\ e_alive e1 = e_alive e)
      by (destruct (sub_find _ _); injection Hef as <- _; auto).
    destruct Hs as [Hs Ha]. assert (Hidd : e_id e1 = e_id e) by congruence.
    clear Hid Hide Hef. rewrite Hidd.
    induction (b_eps b) as [|x l' IH]; cbn; [reflexivity|].
    inversion ND as [|? ? Hni ND']; subst.
    destruct Hin as [->|Hin].
    - rewrite Nat.eqb_refl. rewrite Ha, Hale; cbn. rewrite Hs. f_equal.
      f_equal. f_equal. rewrite <- (map_id l') at 2. apply map_ext_in. intros y Hy.
      destruct (Nat.eqb_spec (e_id y) (e_id e)) as [E|]; [|reflexivity].
      exfalso. apply Hni. rewrite <- E. now apply in_map.
    - destruct (Nat.eqb_spec (e_id x) (e_id e)) as [E|E].
      + exfalso. apply Hni. rewrite E. now apply in_map.
      + specialize (IH ND' Hin). destruct (e_alive x); cbn; rewrite IH; reflexivity. }
  split; [assumption|].
  destruct (sub_find (ty, r) (e_subs e)) as [s|] eqn:Es; injection Hef as <- <-;
    repeat split; auto; try (intros p; now rewrite Hpend);
    try (intros i Hi; rewrite Hfind; destruct (Nat.eqb_spec i id); [congruence|reflexivity]).
  - intros k s0 Hk. cbn. rewrite sub_find_set.
    destruct (key_eqb_spec k (ty, r)) as [->|]; [congruence|].
    rewrite Hk. now destruct s0.
  - intros k Hk. cbn. rewrite sub_find_set.
    destruct (key_eqb_spec k (ty, r)) as [->|]; [congruence|assumption].
  - intros k s0 Hk. destruct (key_eqb_spec k (ty, r)) as [->|]; [congruence|].
    rewrite Hk. now destruct s0.
Qed.

Definition last_out (tr : list (op * out)) : option out := option_map snd (option_map snd (pop_back tr)).

(** Unload (so that the subscription starts empty), route, receive, unload. *)
Lemma delivery ops b tr id ty r ss e :
  no_add_sender ops ->
  run bus_init ops = Ret (b, tr) ->
  ep_find id b = Some e ->
  hist_senders ops id ty r = Some ss ->
  exists b' old n1 n2,
    run b [OUnload id ty r; ORoute; OReceiveAll id; OUnload id ty r] =
    Ret (b', [(OUnload id ty r, OutMsgs old); (ORoute, OutCount n1); (OReceiveAll id, OutCount n2);
              (OUnload id ty r, OutMsgs (filter (wanted ty ss) (pending b) ++
                                         filter (wanted ty ss) (rev (e_recv e))))]).
Proof.
  intros Hn Hr Hf Hh.
  pose proof (run_ids _ _ _ Hr) as OK. pose proof (covered_run _ _ _ Hn Hr) as Hc.
  rewrite <- (senders_run ops b tr id ty r Hr) in Hh.
  destruct (senders_at_find b id ty r ss e Hf Hh) as (s & Hs & Hss).
  pose proof (unload_exec b id ty r e OK Hf) as H1.
  set (b1 := ep_put (fst (unload_messages ty r e)) b) in *.
  set (old := snd (unload_messages ty r e)) in *.
  destruct (unload_find b id ty r e b1 old OK Hf H1)
    as (e1 & Hf1 & Hrecv1 & _ & Hfil1 & Hsub1 & Hsub1n & _ & Hp1 & _).
  pose proof (ids_ok_exec b (OUnload id ty r) b1 _ OK H1) as OK1.
  assert (Hc1 : covered e1).
  { intros k s' Hk. rewrite Hfil1. destruct (sub_find k (e_subs e)) as [s0|] eqn:E0.
    - rewrite (Hsub1 k s0 E0) in Hk. injection Hk as <-. cbn. eapply Hc; eauto.
    - rewrite (Hsub1n k E0) in Hk. discriminate. }
  destruct (route_receive b1 id e1 OK1 Hf1 Hc1) as (b2 & b3 & e3 & H2 & H3 & Hf3 & _ & _ & _ & Hsub3).
  pose proof (ids_ok_exec _ _ _ _ OK1 H2) as OK2.
  pose proof (ids_ok_exec _ _ _ _ OK2 H3) as OK3.
  pose proof (unload_exec b3 id ty r e3 OK3 Hf3) as H4.
  eexists _, old, _, _.
  cbn [run]. rewrite H1. cbn [obind fst snd]. rewrite H2. cbn [obind fst snd].
  rewrite H3. cbn [obind fst snd]. rewrite H4. cbn [obind fst snd].
  do 7 f_equal. unfold unload_messages. rewrite Hsub3, (Hsub1 _ _ Hs).
  rewrite key_eqb_refl. cbn [s_msgs s_senders snd app]. now rewrite Hss, Hp1, Hrecv1.
Qed.

(** ** rounds: send, route, receive *)
Definition round_ops (a rcv : nat) (ms : list message) : list op :=
  map (OSend a) ms ++ [ORoute; OReceiveAll rcv].
Lemma send_many a : forall ms b e, ids_ok b -> ep_find a b = Some e ->
  exists b' tr, run b (map (OSend a) ms) = Ret (b', tr) /\ ids_ok b' /\
    (forall i, ep_find i b' = if Nat.eqb i a
       then Some (mkEp (e_id e) (e_alive e) (e_send e ++ ms) (e_recv e) (e_filter e) (e_subs e))
       else ep_find i b) /\
    b_route b' = b_route b /\
    (flat_map e_send (filter e_alive (b_eps b)) = [] ->
     flat_map e_send (filter e_alive (b_eps b')) = ms).
Proof.
  assert (Hpp : forall b e m, ids_ok b -> ep_find a b = Some e ->
     exists b1, exec b (OSend a m) = Ret (b1, OutUnit) /\ b1 = ep_put (send_message m e) b).
  { intros b e m OK Hf. cbn [exec]. unfold on_ep. rewrite Hf. cbn. eauto. }
  assert (Hgen : forall ms b e pre, ids_ok b -> ep_find a b = Some e ->
    (pre = e_send e /\ flat_map e_send (filter e_alive (b_eps b)) = pre) ->
    forall b' tr, run b (map (OSend a) ms) = Ret (b', tr) ->
    flat_map e_send (filter e_alive (b_eps b')) = pre ++ ms).
  { induction ms as [|m ms IH]; intros b e pre OK Hf [Hpre Hfl] b' tr H.
    - cbn in H. injection H as <- _. now rewrite app_nil_r.
    - cbn [map run] in H. destruct (Hpp b e m OK Hf) as (b1 & H1 & Hb1).
      rewrite H1 in H. cbn [obind fst snd] in H.
      destruct (run b1 (map (OSend a) ms)) as [[b2 t2]| |] eqn:E2; cbn in H; try discriminate.
      injection H as <- _.
      pose proof (ids_ok_exec _ _ _ _ OK H1) as OK1.
      destruct (ep_find_method (OSend a m) a b b1 _ OK eq_refl H1) as (e0 & e1 & Hf0 & Hef & Hid & _ & Hfind).
      rewrite Hf in Hf0. injection Hf0 as <-. cbn [ep_effect] in Hef. injection Hef as <-.
      specialize (Hfind a) as Hfa. rewrite Nat.eqb_refl in Hfa.
      rewrite (IH b1 (send_message m e) (pre ++ [m]) OK1 Hfa) with (tr := t2); [now rewrite <- app_assoc| |exact E2].
      split; [cbn; now rewrite Hpre|].
      subst b1. cbn. pose proof (ep_find_Some _ _ _ Hf) as (Hin & Hide & Hal).
      destruct OK as [ND _]. clear - Hpre Hfl Hin Hal ND.
      assert (Hz : forall x, In x (b_eps b) -> e_id x <> e_id e -> e_alive x = true -> e_send x = [] ).
      { intros x Hx Hxe Hxa. destruct (in_split _ _ Hx) as (l1 & l2 & E). rewrite E in Hfl, Hin.
        assert (HL : length (flat_map e_send (filter e_alive (l1 ++ x :: l2))) = length (e_send e)) by now rewrite Hfl, Hpre.
        rewrite filter_app, flat_map_app in HL. cbn [filter] in HL. rewrite Hxa in HL.
        cbn [flat_map] in HL. rewrite !app_length in HL.
        assert (HE : forall l, In e l -> length (e_send e) <= length (flat_map e_send (filter e_alive l))).
        { induction l as [|y l IH]; cbn; [tauto|]. intros [->|Hy].
          - rewrite Hal; cbn. rewrite app_length. lia.
          - specialize (IH Hy). destruct (e_alive y); cbn; rewrite ?app_length; lia. }
        apply in_app_iff in Hin as [Hin|[->|Hin]]; [apply HE in Hin| congruence |apply HE in Hin];
          (destruct (e_send x); [reflexivity|cbn in HL; lia]). }
      assert (Hall : forall l, NoDup (map e_id l) -> In e l ->
        (forall x, In x l -> e_id x <> e_id e -> e_alive x = true -> e_send x = []) ->
        flat_map e_send (filter e_alive (map (fun x => if e_id x =? e_id e then send_message m e else x) l)) = e_send e ++ [m]).
      { induction l as [|y l IHl]; cbn; [tauto|]. intros NDl [->|Hy] Hzz; inversion NDl as [|? ? Hni NDl']; subst.
        - rewrite Nat.eqb_refl. cbn. rewrite Hal. cbn.
          replace (flat_map e_send _) with (@nil message); [now rewrite app_nil_r|]. symmetry.
          assert (Hr : forall x, In x l -> e_id x <> e_id e)
            by (intros x Hx E; apply Hni; rewrite <- E; now apply in_map).
          assert (Hzz' : forall x, In x l -> e_id x <> e_id e -> e_alive x = true -> e_send x = [])
            by (intros x Hx; apply Hzz; now right).
          clear - Hr Hzz'. induction l as [|z l IH]; cbn; [reflexivity|].
          destruct (Nat.eqb_spec (e_id z) (e_id e)) as [E|E]; [exfalso; exact (Hr z (or_introl eq_refl) E)|].
          assert (IH' := IH (fun x Hx => Hr x (or_intror Hx)) (fun x Hx => Hzz' x (or_intror Hx))).
          destruct (e_alive z) eqn:Ez; cbn; [rewrite (Hzz' z (or_introl eq_refl) E Ez)|]; exact IH'.
        - destruct (Nat.eqb_spec (e_id y) (e_id e)) as [E|E].
          { exfalso. apply Hni. rewrite E. now apply in_map. }
          assert (IH' := IHl NDl' Hy (fun x Hx => Hzz x (or_intror Hx))).
          destruct (e_alive y) eqn:Ey; cbn; [rewrite (Hzz y (or_introl eq_refl) E Ey)|]; exact IH'. }
      rewrite Hall; auto. now rewrite Hpre. }
  induction ms as [|m ms IH]; intros b e OK Hf.
  - exists b, []. cbn. split; [reflexivity|]. split; [assumption|]. split; [|split; auto]. intros i.
    rewrite app_nil_r. destruct (Nat.eqb_spec i a) as [->|]; [|reflexivity]. now destruct e.
  - destruct (Hpp b e m OK Hf) as (b1 & H1 & Hb1).
    pose proof (ids_ok_exec _ _ _ _ OK H1) as OK1.
    destruct (ep_find_method (OSend a m) a b b1 _ OK eq_refl H1) as (e0 & e1 & Hf0 & Hef & Hid & _ & Hfind).
    rewrite Hf in Hf0. injection Hf0 as <-. cbn [ep_effect] in Hef. injection Hef as <-.
    pose proof (Hfind a) as Hfa. rewrite Nat.eqb_refl in Hfa.
    destruct (IH b1 _ OK1 Hfa) as (b2 & t2 & Hr2 & OK2 & Hfind2 & Hroute & _).
    exists b2, ((OSend a m, OutUnit) :: t2). cbn [map run]. rewrite H1. cbn [obind fst snd]. rewrite Hr2. cbn [obind fst snd].
    repeat split; auto; try apply OK2.
    + intros i. rewrite Hfind2, Hfind. cbn. destruct (Nat.eqb i a); [|reflexivity].
      now rewrite <- app_assoc.
    + rewrite Hroute, Hb1. reflexivity.
    + intros Hnil. rewrite (Hgen (m :: ms) b e [] OK Hf) with (tr := (OSend a m, OutUnit) :: t2); auto.
      * split; [|assumption]. pose proof (ep_find_Some _ _ _ Hf) as (Hin & _ & Hal).
        assert (Hin2 : In e (filter e_alive (b_eps b))) by (apply filter_In; auto).
        clear - Hnil Hin2. induction (filter e_alive (b_eps b)) as [|y l IH]; [destruct Hin2|].
        cbn in Hnil. apply app_eq_nil in Hnil as [H1 H2]. destruct Hin2 as [->|H]; auto.
      * cbn [map run]. rewrite H1. cbn [obind fst snd]. now rewrite Hr2.
Qed.

Lemma rounds_fifo_state a rcv : forall mss b ea er ss ty r old,
  ids_ok b -> ep_find a b = Some ea -> ep_find rcv b = Some er -> covered er ->
  pending b = [] -> e_recv er = [] ->
  sub_find (ty, r) (e_subs er) = Some (mkSub ss old) ->
  exists b' tr er', run b (flat_map (round_ops a rcv) mss) = Ret (b', tr) /\ ids_ok b' /\
    ep_find rcv b' = Some er' /\
    sub_find (ty, r) (e_subs er') = Some (mkSub ss (old ++ filter (wanted ty ss) (concat mss))).
Proof.
  induction mss as [|ms mss IH]; intros b ea er ss ty r old OK Ha Hr Hc Hp Hrecv Hs.
  - exists b, [], er. cbn. rewrite app_nil_r. auto.
  - cbn [flat_map concat]. unfold round_ops at 1.
    destruct (send_many a ms b ea OK Ha) as (b1 & t1 & Hr1 & OK1 & Hfind1 & Hroute1 & Hsends).
    unfold pending in Hp. apply app_eq_nil in Hp as [Hp1 Hp2]. specialize (Hsends Hp2).
    assert (Hpend1 : pending b1 = ms) by (unfold pending; now rewrite Hroute1, Hp1, Hsends).
    assert (He1 : exists er1, ep_find rcv b1 = Some er1 /\ e_recv er1 = [] /\ covered er1 /\
                  sub_find (ty, r) (e_subs er1) = Some (mkSub ss old)).
    { rewrite Hfind1. destruct (Nat.eqb_spec rcv a) as [->|].
      - rewrite Hr in Ha. injection Ha as <-. eexists. split; [reflexivity|]. cbn. auto.
      - exists er. auto. }
    destruct He1 as (er1 & Hf1 & Hrecv1 & Hc1 & Hs1).
    destruct (route_receive b1 rcv er1 OK1 Hf1 Hc1) as (b2 & b3 & er3 & H2 & H3 & Hf3 & Hrecv3 & _ & _ & Hsub3).
    pose proof (ids_ok_exec _ _ _ _ OK1 H2) as OK2. pose proof (ids_ok_exec _ _ _ _ OK2 H3) as OK3.
    assert (Hc3 : covered er3).
    { destruct (ep_find_method (OReceiveAll rcv) rcv b2 b3 _ OK2 eq_refl H3) as (e2 & e3 & Hf2 & Hef & _ & _ & Hfind).
      specialize (Hfind rcv). rewrite Nat.eqb_refl, Hf3 in Hfind. injection Hfind as <-.
      eapply covered_effect; [|  |exact Hef]; [reflexivity|].
      destruct (route_messages b1) as [b2' n] eqn:Er. cbn [exec] in H2. rewrite Er in H2.
      injection H2 as -> _. rewrite (ep_find_route rcv b1 b2 n Er), Hf1 in Hf2. injection Hf2 as <-. exact Hc1. }
    assert (Hpend3 : pending b3 = []).
    { destruct (ep_find_method (OReceiveAll rcv) rcv b2 b3 _ OK2 eq_refl H3) as (e2 & e3 & Hf2 & Hef & Hid3 & Hb3 & _).
      cbn [exec] in H2. rewrite route_eq in H2. injection H2 as <-. subst b3.
      cbn [ep_effect] in Hef. rewrite receive_all_eq in Hef. injection Hef as <- _.
      apply ep_find_Some in Hf2 as (Hin2 & _ & _). cbn [b_eps] in Hin2.
      assert (Hse : e_send e2 = []) by (apply in_map_iff in Hin2 as (y & <- & _); reflexivity).
      clear - Hse. generalize (rev (pending b1)) as rv. intros rv.
      unfold pending, ep_put; cbn [b_route b_eps app].
      induction (filter e_alive (b_eps b1)) as [|y l IHl]; cbn [map filter flat_map]; [reflexivity|].
      destruct (Nat.eqb _ _); cbn [filter e_alive offered clear_send with_recv_subs flat_map e_send app]; [|exact IHl].
      destruct (e_alive e2); cbn [flat_map e_send with_recv_subs]; [rewrite Hse|]; exact IHl. }
    assert (Ha3 : exists ea3, ep_find a b3 = Some ea3).
    { destruct (ep_find_method (OReceiveAll rcv) rcv b2 b3 _ OK2 eq_refl H3) as (e2 & e3 & Hf2 & Hef & _ & _ & Hfind).
      rewrite Hfind. destruct (Nat.eqb_spec a rcv); [eauto|].
      cbn [exec] in H2. destruct (route_messages b1) as [b2' n'] eqn:Er. injection H2 as -> _.
      rewrite (ep_find_route a b1 b2 n' Er), Hfind1, Nat.eqb_refl. cbn. eauto. }
    destruct Ha3 as (ea3 & Ha3).
    specialize (Hsub3 ty r). rewrite Hs1 in Hsub3. cbn [s_senders s_msgs] in Hsub3.
    rewrite Hpend1, Hrecv1 in Hsub3. cbn [rev filter] in Hsub3. rewrite app_nil_r in Hsub3.
    destruct (IH b3 ea3 er3 ss ty r _ OK3 Ha3 Hf3 Hc3 Hpend3 Hrecv3 Hsub3) as (b' & tr' & er' & Hr' & OK' & Hf' & Hs').
    exists b', (t1 ++ [(ORoute, OutCount (length (pending b1)));
                       (OReceiveAll rcv, OutCount (length (e_recv er1) +
                          length (filter (fun m => mem (msg_sender m) (e_filter er1)) (pending b1))))] ++ tr'), er'.
    split.
    + rewrite <- app_assoc. rewrite run_app, Hr1. cbn [obind fst snd]. rewrite run_app. cbn [run app]. rewrite H2. cbn [obind fst snd].
      rewrite H3. cbn [obind fst snd]. rewrite Hr'. reflexivity.
    + repeat split; try apply OK'; auto. rewrite Hs'. now rewrite filter_app, app_assoc.
Qed.
