(** Delivery in histories that may change a subscription's senders directly. *)
From Verif Require Import Base ListLemmas Messaging_Model Messaging_Spec Messaging_Proofs
  Messaging_Proofs2 Messaging_Proofs3.

Lemma filter_filter_and {A} (p q : A -> bool) l :
  filter p (filter q l) = filter (fun x => p x && q x) l.
Proof.
  induction l as [|x l IH]; cbn; [reflexivity|].
  destruct (q x); cbn; destruct (p x); cbn; rewrite ?IH; reflexivity.
Qed.

Lemma route_receive_gen b id e : ids_ok b -> ep_find id b = Some e ->
  exists b1 b2 e2,
    exec b ORoute = Ret (b1, OutCount (length (pending b))) /\
    exec b1 (OReceiveAll id) =
      Ret (b2, OutCount (length (e_recv e) +
                         length (filter (fun m => mem (msg_sender m) (e_filter e)) (pending b)))) /\
    ep_find id b2 = Some e2 /\
    forall ty r,
      sub_find (ty, r) (e_subs e2) =
      match sub_find (ty, r) (e_subs e) with
      | None => None
      | Some s => Some (mkSub (s_senders s)
                   (s_msgs s ++ filter (fun m => wanted ty (s_senders s) m && mem (msg_sender m) (e_filter e)) (pending b)
                             ++ filter (wanted ty (s_senders s)) (rev (e_recv e))))
      end.
Proof.
  intros OK Hf.
  destruct (route_messages b) as [b1 n] eqn:Er.
  assert (En : n = length (pending b)) by (rewrite route_eq in Er; congruence).
  assert (H1 : exec b ORoute = Ret (b1, OutCount n)) by (cbn [exec]; now rewrite Er).
  pose proof (ids_ok_exec b ORoute b1 _ OK H1) as OK1.
  pose proof (ep_find_route id b b1 n Er) as Hf1. rewrite Hf in Hf1. cbn [option_map] in Hf1.
  set (e1 := offered (rev (pending b)) (clear_send e)) in *.
  destruct (receive_all e1) as [e2 n2] eqn:E2.
  assert (H2 : exec b1 (OReceiveAll id) = Ret (ep_put e2 b1, OutCount n2)).
  { cbn [exec]. unfold on_ep. rewrite Hf1. rewrite E2. reflexivity. }
  destruct (ep_find_method (OReceiveAll id) id b1 _ _ OK1 eq_refl H2) as (e1' & e2' & Hf1' & Hef & Hid2 & _ & Hfind).
  rewrite Hf1 in Hf1'. injection Hf1' as <-. cbn [ep_effect] in Hef. rewrite E2 in Hef.
  injection Hef as <-.
  exists b1, (ep_put e2 b1), e2. rewrite H1, H2, En.
  rewrite receive_all_eq in E2. injection E2 as <- <-.
  specialize (Hfind id). rewrite Nat.eqb_refl in Hfind.
  assert (Hrecv : e_recv e1 = e_recv e ++ filter (fun m => mem (msg_sender m) (e_filter e)) (rev (pending b)))
    by reflexivity.
  assert (Hlen : length (e_recv e1) = length (e_recv e) +
            length (filter (fun m => mem (msg_sender m) (e_filter e)) (pending b)))
    by (rewrite Hrecv, app_length, filter_rev, rev_length; reflexivity).
  rewrite <- Hlen.
  split; [reflexivity|]. split; [reflexivity|]. split; [exact Hfind|].
  intros ty r. cbn [e_subs with_recv_subs]. rewrite sub_find_map_deliver.
  change (e_subs e1) with (e_subs e).
  destruct (sub_find (ty, r) (e_subs e)) as [s|] eqn:Es; [|reflexivity].
  cbn [fst]. do 2 f_equal. rewrite rev_app_distr, filter_app, <- !filter_rev, rev_involutive.
  rewrite filter_filter_and. reflexivity.
Qed.

Lemma filter_exec b o b' x id e e' : ids_ok b -> exec b o = Ret (b', x) ->
  ep_find id b = Some e -> ep_find id b' = Some e' ->
  e_filter e' = known_step id (e_filter e) o.
Proof.
  intros OK H Hf Hf'. destruct (op_id o) as [i|] eqn:Eo.
  - destruct (ep_find_method o i b b' x OK Eo H) as (e0 & e1 & Hf0 & Hef & _ & _ & Hfind).
    rewrite Hfind in Hf'. destruct (Nat.eqb_spec id i) as [->|Hne].
    + rewrite Hf in Hf0. injection Hf0 as <-. injection Hf' as ->.
      destruct o; cbn [op_id] in Eo; try discriminate Eo; injection Eo as ->;
        cbn [ep_effect] in Hef; cbn [known_step]; rewrite ?Nat.eqb_refl.
      * injection Hef as <- _. reflexivity.
      * unfold unsubscribe in Hef. destruct (sub_find _ _); injection Hef as <- _; reflexivity.
      * destruct (remove_receiver _ e) as [a| |] eqn:E; cbn in Hef; try discriminate.
        apply remove_receiver_Ret in E; subst a. injection Hef as <- _. reflexivity.
      * unfold add_sender in Hef. destruct (sub_find _ _); cbn in Hef; [|discriminate].
        injection Hef as <- _. reflexivity.
      * unfold remove_sender in Hef. destruct (sub_find _ _); cbn in Hef; [|discriminate].
        injection Hef as <- _. reflexivity.
      * injection Hef as <- _. reflexivity.
      * unfold receive_message in Hef. destruct (pop_back _) as [[? m]|]; injection Hef as <- _; reflexivity.
      * rewrite receive_all_eq in Hef. injection Hef as <- _. reflexivity.
      * unfold unload_messages in Hef. destruct (sub_find _ _); injection Hef as <- _; reflexivity.
    + rewrite Hf in Hf'. injection Hf' as <-.
      destruct o; cbn [op_id] in Eo; try discriminate Eo; injection Eo as ->; cbn [known_step];
        try reflexivity. destruct (Nat.eqb_spec i id); congruence.
  - destruct o; try discriminate Eo; cbn [exec known_step] in H |- *.
    + injection H as <- _. rewrite ep_find_create in Hf' by assumption.
      destruct (Nat.eqb_spec id (b_next b)) as [->|]; [|congruence].
      rewrite find_none_ge in Hf by (auto; lia). discriminate.
    + destruct (ep_find id0 b); [|discriminate]. injection H as <- _.
      rewrite ep_find_destroy in Hf'. destruct (Nat.eqb id id0); congruence.
    + destruct (bus_step b) as [b1 n] eqn:Es. injection H as <- _.
      rewrite (ep_find_step id b b1 n Es) in Hf'. destruct (pop_back _) as [[? m]|]; [|congruence].
      rewrite Hf in Hf'. cbn in Hf'. injection Hf' as <-. unfold offer. now destruct (e_alive e && _).
    + destruct (route_messages b) as [b1 n] eqn:Es. injection H as <- _.
      rewrite (ep_find_route id b b1 n Es), Hf in Hf'. cbn in Hf'. injection Hf' as <-.
      unfold offered; cbn [e_alive clear_send]; reflexivity.
Qed.

(** An operation on an endpoint that does not exist (yet) cannot have been
    executed, so the senders known to a live endpoint are those named so far. *)
Lemma known_none ops b tr id :
  run bus_init ops = Ret (b, tr) -> b_next b <= id -> known_senders ops id = [].
Proof.
  revert b tr. induction ops as [|o ops IH] using rev_ind; intros b tr H Hid; [reflexivity|].
  apply run_snoc in H as (b1 & tr1 & x & Hr & He & _).
  unfold known_senders. rewrite fold_left_app. cbn [fold_left].
  assert (Hle : b_next b1 <= b_next b).
  { destruct o; cbn [exec] in He; unfold on_ep in He;
      repeat match type of He with
             | context [match ep_find ?i ?bb with _ => _ end] => destruct (ep_find i bb); [|discriminate]
             | context [let (_, _) := ?p in _] => let E := fresh in destruct p eqn:E
             | context [obind ?p _] => destruct p; cbn [obind] in He; try discriminate
             end;
      try (injection He as <- _; cbn; lia).
    - injection He as <- _. unfold bus_step in H.
      destruct (pop_back (b_route b1)) as [[? ?]|]; injection H as <- _; cbn; lia.
    - injection He as <- _. rewrite route_eq in H. injection H as <- _. cbn; lia. }
  change (known_step id (known_senders ops id) o = []).
  rewrite (IH b1 tr1 Hr) by lia.
  destruct o; cbn [known_step]; try reflexivity.
  destruct (Nat.eqb_spec id0 id) as [->|]; [|reflexivity].
  cbn [exec] in He. unfold on_ep in He. rewrite find_none_ge in He by (eauto using run_ids; lia). discriminate.
Qed.
Lemma known_run : forall ops b tr id e,
  run bus_init ops = Ret (b, tr) -> ep_find id b = Some e -> e_filter e = known_senders ops id.
Proof.
  induction ops as [|o ops IH] using rev_ind; intros b tr id e H Hf.
  - cbn in H. injection H as <- _. discriminate Hf.
  - apply run_snoc in H as (b1 & tr1 & x & Hr & He & _).
    pose proof (run_ids _ _ _ Hr) as OK.
    unfold known_senders. rewrite fold_left_app. cbn [fold_left].
    change (e_filter e = known_step id (known_senders ops id) o).
    destruct (ep_find id b1) as [e1|] eqn:Hf1.
    + rewrite <- (IH _ _ _ _ Hr Hf1). eapply filter_exec; eauto.
    + (* the endpoint is new *)
      destruct (op_id o) as [i|] eqn:Eo.
      * destruct (ep_find_method o i b1 b x OK Eo He) as (e0 & e2 & Hf0 & _ & _ & _ & Hfind).
        rewrite Hfind in Hf. destruct (Nat.eqb_spec id i); congruence.
      * destruct o; try discriminate Eo; cbn [exec] in He.
        -- injection He as <- _. rewrite ep_find_create in Hf by assumption.
           destruct (Nat.eqb_spec id (b_next b1)) as [->|]; [|congruence].
           injection Hf as <-. cbn [known_step e_filter].
           rewrite (known_none _ _ _ _ Hr) by lia. reflexivity.
        -- destruct (ep_find id0 b1); [|discriminate]. injection He as <- _.
           rewrite ep_find_destroy in Hf. destruct (Nat.eqb id id0); congruence.
        -- destruct (bus_step b1) as [b2 n] eqn:Es. injection He as <- _.
           rewrite (ep_find_step id b1 b2 n Es), Hf1 in Hf. destruct (pop_back _) as [[? m]|]; discriminate.
        -- destruct (route_messages b1) as [b2 n] eqn:Es. injection He as <- _.
           rewrite (ep_find_route id b1 b2 n Es), Hf1 in Hf. discriminate.
Qed.

Lemma delivery_any ops b tr id ty r ss e :
  run bus_init ops = Ret (b, tr) ->
  ep_find id b = Some e ->
  hist_senders ops id ty r = Some ss ->
  exists b' old n1 n2,
    run b [OUnload id ty r; ORoute; OReceiveAll id; OUnload id ty r] =
    Ret (b', [(OUnload id ty r, OutMsgs old); (ORoute, OutCount n1); (OReceiveAll id, OutCount n2);
              (OUnload id ty r,
               OutMsgs (filter (fun m => wanted ty ss m && mem (msg_sender m) (known_senders ops id)) (pending b) ++
                        filter (wanted ty ss) (rev (e_recv e))))]).
Proof.
  intros Hr Hf Hh.
  pose proof (run_ids _ _ _ Hr) as OK.
  rewrite <- (known_run _ _ _ _ _ Hr Hf).
  rewrite <- (senders_run ops b tr id ty r Hr) in Hh.
  destruct (senders_at_find b id ty r ss e Hf Hh) as (s & Hs & Hss).
  pose proof (unload_exec b id ty r e OK Hf) as H1.
  set (b1 := ep_put (fst (unload_messages ty r e)) b) in *.
  set (old := snd (unload_messages ty r e)) in *.
  destruct (unload_find b id ty r e b1 old OK Hf H1)
    as (e1 & Hf1 & Hrecv1 & _ & Hfil1 & Hsub1 & Hsub1n & _ & Hp1 & _).
  pose proof (ids_ok_exec b (OUnload id ty r) b1 _ OK H1) as OK1.
  destruct (route_receive_gen b1 id e1 OK1 Hf1) as (b2 & b3 & e3 & H2 & H3 & Hf3 & Hsub3).
  pose proof (ids_ok_exec _ _ _ _ OK1 H2) as OK2.
  pose proof (ids_ok_exec _ _ _ _ OK2 H3) as OK3.
  pose proof (unload_exec b3 id ty r e3 OK3 Hf3) as H4.
  eexists _, old, _, _.
  cbn [run]. rewrite H1. cbn [obind fst snd]. rewrite H2. cbn [obind fst snd].
  rewrite H3. cbn [obind fst snd]. rewrite H4. cbn [obind fst snd].
  do 7 f_equal. unfold unload_messages. rewrite Hsub3, (Hsub1 _ _ Hs).
  rewrite key_eqb_refl. cbn [s_msgs s_senders snd app]. now rewrite Hss, Hp1, Hrecv1, Hfil1.
Qed.
