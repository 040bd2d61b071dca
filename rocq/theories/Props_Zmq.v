(** C78, C79: the ZeroMQ message bus. *)
From Verif Require Import Base ListLemmas Messaging_Model Messaging_Spec Messaging_Proofs Zmq_Model Zmq_Spec Zmq_Proofs Zmq_Proofs2.

(** ** C78 *)
(** For every history of calls on a bus and its endpoints, with any capacities of the
    pipes: the messages that the bus has taken from an endpoint are the first ones that
    were sent through it, in the order of sending; what is left is still in the pipe (at
    most one message is between its two frames). *)
Theorem c78_sender_order c tr b i : zexecution c zinit tr b ->
  exists rest, sent_by i tr = routed_from i tr ++ rest /\
    (z_half b = None -> rest = match nth_error (z_eps b) i with Some e => z_out e | None => [] end).
Proof.
  intros H. eexists. split; [apply (sent_eq c tr b H i)|]. now intros ->.
Qed.
(** All endpoints see one and the same sequence of messages: as long as its pipe was
    never full, a live endpoint has received, or has waiting, exactly the messages
    published since it was created, in that order ... *)
Theorem c78_same_sequence c tr b i e : zexecution c zinit tr b -> nth_error (z_eps b) i = Some e -> z_alive e = true ->
  nothing_lost i tr -> received_by i tr ++ z_in e = published (since i tr).
Proof. intros H E A. apply (got_eq c tr b H i e E A). Qed.
(** ... and if it was full, some of them, in that order, none twice. *)
Theorem c78_subsequence c tr b i e : zexecution c zinit tr b -> nth_error (z_eps b) i = Some e -> z_alive e = true ->
  subsequence (received_by i tr ++ z_in e) (published (since i tr)).
Proof. intros H E A. apply (got_eq c tr b H i e E A). Qed.

(** ** C79 *)
(** A routing round ends, and whatever the ROUTER picks, afterwards nothing waits to be
    routed, and the messages that waited in the pipes were published: all of them, each
    once, every sender's in the order of sending. *)
Theorem c79_round c b : (forall m, 5 < packed_size c m) -> z_half b = None ->
  (exists tr n b', zroute c b tr n b') /\
  forall tr n b', zroute c b tr n b' ->
    interleaving (waiting_out b) (published tr) /\ Forall (fun e => z_out e = []) (z_eps b') /\ z_half b' = None /\ length (z_eps b') = length (z_eps b).
Proof.
  intros Sz Hh. split; [apply (route_ends c Sz _ b (le_n _))|]. intros tr n b' R.
  destruct (route_ok c Sz b tr n b' R) as (H1 & H2 & H3 & H4). unfold to_come in H3. rewrite Hh in H3. repeat split; auto.
  - clear - H4. induction H4 as [|e e' l l' (_ & O & _) F IH]; constructor; auto.
  - symmetry. clear - H4. induction H4; cbn; auto.
Qed.
(** Delivery of a round, from sending to the subscription: if endpoint [i] has room for
    all the messages, then after route_messages() and receive_all_messages() each of its
    subscriptions has got exactly the messages of its type from its senders, among those
    that waited at [i] before and those that were waiting to be routed. *)
Theorem c79_delivery_partial c b tr n b' i e : (forall m, 5 < packed_size c m) -> z_half b = None -> zroute c b tr n b' ->
  nth_error (z_eps b) i = Some e -> z_alive e = true -> length (z_in e) + length (concat (waiting_out b)) <= in_limit c ->
  (exists b'', zreceive_all c i b' (length (z_in e) + length (concat (waiting_out b))) b'') /\
  forall k b'', zreceive_all c i b' k b'' -> k = length (z_in e) + length (concat (waiting_out b)) /\
  exists e'', nth_error (z_eps b'') i = Some e'' /\
  forall ty r s, sub_find (ty, r) (z_subs e) = Some s ->
    exists s'', sub_find (ty, r) (z_subs e'') = Some s'' /\ s_senders s'' = s_senders s /\
    exists l, interleaving (waiting_out b) l /\ s_msgs s'' = s_msgs s ++ filter (wanted ty (s_senders s)) (z_in e ++ l).
Proof.
  intros Sz Hh R E A L. destruct (route_ok c Sz b tr n b' R) as (H1 & H2 & H3 & H4). unfold to_come in H3. rewrite Hh in H3.
  assert (X : exists e', nth_error (z_eps b') i = Some e' /\ after_round c (published tr) e e').
  { clear - H4 E. revert i E. induction H4 as [|x y l l' P F IH]; intros [|i] E; try discriminate; cbn [nth_error] in *; [injection E as <-; eauto|auto]. }
  destruct X as (e' & E' & Al & O & Sb & In). rewrite A in *.
  assert (In' : z_in e' = z_in e ++ published tr) by (rewrite In; apply (filled_all c Sz); [reflexivity|]; rewrite (interleaving_length _ _ H3); exact L).
  assert (Ln : length (z_in e') = length (z_in e) + length (concat (waiting_out b))) by (rewrite In', app_length, (interleaving_length _ _ H3); reflexivity).
  split; [rewrite <- Ln; eapply receive_all_ok; eauto|].
  intros k b'' Rc. destruct (receive_all_subs c i b' k b'' Rc e' E') as (-> & e'' & E'' & _ & _ & S''). split; [exact Ln|]. exists e''. split; [exact E''|].
  intros ty r s Fs. rewrite S'', Sb, sub_find_map_deliver, Fs. eexists. split; [reflexivity|]. split; [reflexivity|].
  exists (published tr). split; [exact H3|]. cbn. now rewrite In'.
Qed.
(** route_messages() returns twice the number of messages routed: the CPU bus returns
    the number (c04), and the sum of the two frames of each message is counted here. *)
Theorem c79_count_refuted c b tr n b' : (forall m, 5 < packed_size c m) -> z_half b = None -> zroute c b tr n b' ->
  n = 2 * length (concat (waiting_out b)).
Proof. intros Sz Hh R. destruct (route_ok c Sz b tr n b' R) as (_ & H2 & _). unfold half_n in H2. rewrite Hh in H2. unfold pending_n in H2. lia. Qed.

Ltac zgo := eapply ze_snoc.
Lemma flood c (m : message) : (forall m, 5 < packed_size c m) -> 0 < out_limit c -> forall k, exists tr b q,
  zexecution c zinit tr b /\ z_eps b = [mkZ true [] q []] /\ z_half b = None /\ sent_by 0 tr = repeat m k /\ received_by 0 tr = [] /\ length q <= in_limit c.
Proof.
  intros Sz Ol. induction k as [|k (tr & b & q & H & E & Hh & S & R & L)].
  - exists ([] ++ [ZCreate 0]), (mkZb [mkZ true [] [] []] None), []. split; [|repeat split; cbn; lia]. zgo; [apply ze_nil|]. apply (zs_create c zinit).
  - exists (((tr ++ [ZSend 0 m]) ++ [ZIdentity 0]) ++ [ZPublish 0 m (z_lost c 0 [mkZ true [] q []])]).
    exists (mkZb [z_offer c m (mkZ true [] q [])] None). exists (z_in (z_offer c m (mkZ true [] q []))).
    assert (Ev : zexecution c zinit (((tr ++ [ZSend 0 m]) ++ [ZIdentity 0]) ++ [ZPublish 0 m (z_lost c 0 [mkZ true [] q []])]) (mkZb [z_offer c m (mkZ true [] q [])] None)).
    { zgo; [zgo; [zgo; [exact H|]|]|].
      - apply (zs_send c b 0 (mkZ true [] q []) m); [now rewrite E|reflexivity|exact Ol].
      - rewrite E. cbn [upd]. eapply zs_identity; [cbn [z_half]; exact Hh|reflexivity|reflexivity].
      - cbn [z_eps upd z_alive z_out z_in z_subs]. apply (zs_publish c (mkZb [mkZ true [] q []] (Some (0, m))) 0 m); [reflexivity|]. specialize (Sz m). lia. }
    split; [exact Ev|]. split; [unfold z_offer, z_full; cbn [z_alive z_in andb]; destruct (negb _); reflexivity|]. split; [reflexivity|].
    unfold sent_by, received_by in *. rewrite !flat_map_app, S, R. cbn [flat_map Nat.eqb app]. rewrite !app_nil_r. split; [symmetry; apply repeat_cons|]. split; [reflexivity|].
    unfold z_offer, z_full. cbn [z_alive z_in andb]. destruct (Nat.leb_spec (in_limit c) (length q)); cbn [negb z_in]; [exact L|]. rewrite app_length. cbn. lia.
Qed.
(** Messages are lost without any error when an endpoint does not receive in time: one
    more than its pipe holds. *)
Theorem c79_lost_refuted c : (forall m, 5 < packed_size c m) -> 0 < out_limit c ->
  exists tr b e, zexecution c zinit tr b /\ nth_error (z_eps b) 0 = Some e /\ z_alive e = true /\ z_half b = None /\ z_out e = [] /\
    length (sent_by 0 tr) = S (in_limit c) /\ received_by 0 tr = [] /\ length (z_in e) <= in_limit c.
Proof.
  intros Sz Ol. destruct (flood c (SpikeMsg 1 0 []) Sz Ol (S (in_limit c))) as (tr & b & q & H & E & Hh & S & R & L). exists tr, b, (mkZ true [] q []).
  rewrite E. repeat split; auto. now rewrite S, repeat_length.
Qed.
(** send_message() does not return when the bus is not run in time: after as many
    messages as the pipe holds, no step is a return of another one. *)
Theorem c79_send_blocks_refuted c (m : message) : exists tr b, zexecution c zinit tr b /\ sent_by 0 tr = repeat m (out_limit c) /\
  forall m' b', ~ zstep c (ZSend 0 m') b b'.
Proof.
  assert (X : forall k, k <= out_limit c -> exists tr b, zexecution c zinit tr b /\ sent_by 0 tr = repeat m k /\ z_eps b = [mkZ true (repeat m k) [] []]).
  { induction k as [|k IH]; intros L.
    - exists ([] ++ [ZCreate 0]), (mkZb [mkZ true [] [] []] None). split; [|split; reflexivity]. zgo; [apply ze_nil|]. apply (zs_create c zinit).
    - destruct IH as (tr & b & H & S & E); [lia|]. exists (tr ++ [ZSend 0 m]). eexists. split; [|split].
      + zgo; [exact H|]. eapply zs_send; [rewrite E; reflexivity|reflexivity|]. cbn [z_out]. rewrite repeat_length. exact L.
      + unfold sent_by in *. rewrite flat_map_app, S. cbn [flat_map Nat.eqb app]. symmetry. apply repeat_cons.
      + rewrite E. cbn [upd z_eps z_alive z_out z_in z_subs]. now rewrite <- repeat_cons. }
  destruct (X (out_limit c) (le_n _)) as (tr & b & H & S & E). exists tr, b. split; [exact H|]. split; [exact S|].
  intros m' b' K. inversion K as [| | |b1 i1 e1 m1 E1 A1 L1| | | | | | | |]; subst. rewrite E in E1. cbn in E1. injection E1 as <-. cbn [z_out] in L1. rewrite repeat_length in L1. lia.
Qed.

(** ** Non-vacuity: two endpoints, two messages from each, one subscription. *)
Definition ex_cfg : zcfg := mkCfg (fun _ => 40) 1000 1000.
Definition msg1 := SpikeMsg 1 7 [3]%N.
Definition msg2 := SpikeMsg 2 7 [4]%N.
Definition ex_b : zbus := mkZb [mkZ true [msg1] [] [((0, 9%N), mkSub [1%N] [])]; mkZ true [msg2; msg1] [] []] None.
Example c79_met : exists tr, zexecution ex_cfg zinit tr ex_b.
Proof.
  exists (([] ++ [ZCreate 0] ++ [ZCreate 1] ++ [ZSubscribe 0 0 9%N [1%N]]) ++ [ZSend 0 msg1] ++ [ZSend 1 msg2] ++ [ZSend 1 msg1]). rewrite !app_assoc.
  zgo; [zgo; [zgo; [zgo; [zgo; [zgo; [apply ze_nil|]|]|]|]|]|].
  - apply (zs_create ex_cfg zinit).
  - apply (zs_create ex_cfg (mkZb [mkZ true [] [] []] None)).
  - apply (zs_subscribe ex_cfg _ 0 (mkZ true [] [] []) 0 9%N [1%N]); reflexivity.
  - apply (zs_send ex_cfg _ 0 (mkZ true [] [] [((0, 9%N), mkSub [1%N] [])]) msg1); [reflexivity|reflexivity|cbn; lia].
  - apply (zs_send ex_cfg _ 1 (mkZ true [] [] []) msg2); [reflexivity|reflexivity|cbn; lia].
  - apply (zs_send ex_cfg (mkZb [mkZ true [msg1] [] [((0, 9%N), mkSub [1%N] [])]; mkZ true [msg2] [] []] None) 1 (mkZ true [msg2] [] []) msg1); [reflexivity|reflexivity|cbn; lia].
Qed.
Example c79_round_met : (forall m, 5 < packed_size ex_cfg m) /\ z_half ex_b = None /\ length (concat (waiting_out ex_b)) = 3 /\
  exists tr b', zroute ex_cfg ex_b tr 6 b' /\ zexecution ex_cfg ex_b tr b'.
Proof.
  split; [cbn; lia|]. split; [reflexivity|]. split; [reflexivity|].
  destruct (route_ends ex_cfg ltac:(cbn; lia) _ ex_b (le_n _)) as (tr & n & b' & R). exists tr, b'.
  assert (n = 6) as -> by (apply (c79_count_refuted ex_cfg ex_b tr n b' ltac:(cbn; lia) eq_refl R)). split; [exact R|].
  clear - R. revert R. generalize ex_b, 6. intros b n R. assert (X : forall b0 tr0, zexecution ex_cfg b0 tr0 b -> zexecution ex_cfg b0 (tr0 ++ tr) b').
  { induction R as [b a b' S _|b a b' tr n k b'' S _ R IH]; intros b0 tr0 H; [zgo; eassumption|]. change (a :: tr) with ([a] ++ tr). rewrite app_assoc. apply IH. zgo; eassumption. }
  exact (X b [] (ze_nil _ _)).
Qed.
Example c78_met : exists tr b e, zexecution ex_cfg zinit tr b /\ nth_error (z_eps b) 0 = Some e /\ z_alive e = true /\ nothing_lost 0 tr /\ length (published (since 0 tr)) = 1.
Proof.
  exists ((([] ++ [ZCreate 0]) ++ [ZSend 0 msg1]) ++ [ZIdentity 0] ++ [ZPublish 0 msg1 []]), (mkZb [mkZ true [] [msg1] []] None), (mkZ true [] [msg1] []). rewrite !app_assoc.
  split; [|split; [reflexivity|split; [reflexivity|split; [repeat constructor; intros []|reflexivity]]]].
  zgo; [zgo; [zgo; [zgo; [apply ze_nil|]|]|]|].
  - apply (zs_create ex_cfg zinit).
  - apply (zs_send ex_cfg _ 0 (mkZ true [] [] []) msg1); [reflexivity|reflexivity|cbn; lia].
  - apply (zs_identity ex_cfg _ 0 (mkZ true [msg1] [] []) msg1 []); reflexivity.
  - apply (zs_publish ex_cfg (mkZb [mkZ true [] [] []] (Some (0, msg1))) 0 msg1); [reflexivity|cbn; lia].
Qed.

Print Assumptions c78_sender_order. Print Assumptions c78_same_sequence. Print Assumptions c78_subsequence.
Print Assumptions c79_round. Print Assumptions c79_delivery_partial. Print Assumptions c79_count_refuted. Print Assumptions c79_lost_refuted. Print Assumptions c79_send_blocks_refuted.
