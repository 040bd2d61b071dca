(** Property theorems C01-C11: the in-process message bus. *)
From Coq Require Import Permutation.
From Verif Require Import Base Messaging_Model Messaging_Spec Messaging_Proofs
  Messaging_Proofs2 Messaging_Proofs3 Messaging_Proofs4.

(** A history used by the examples: endpoint 0 sends, endpoint 1 has two
    subscriptions (receivers 100 and 101), endpoint 2 has none. *)
Definition demo : list op :=
  [OCreate; OCreate; OCreate; OSubscribe 1 0 100%N [7; 8]%N; OSubscribe 1 0 101%N [8]%N;
   OSubscribe 1 1 100%N [7]%N;
   OSend 0 (SpikeMsg 7 1 [1; 2]%N); OSend 2 (SpikeMsg 8 1 [3]%N); OSend 0 (SpikeMsg 9 1 [4]%N);
   OSend 0 (ImpactMsg 7 1 5 6 false [])].

(** *** C01 *)
(** After unloading what was there, one routing pass and one receive_all, the
    next unload of a live subscription gives exactly (as a multiset) the
    messages that were waiting in the bus, in live endpoints' send buffers or
    in the endpoint's receive buffer, of the subscribed type and from a sender
    of the subscription. *)
Theorem c01_exact_delivery ops b tr id ty r ss e :
  no_add_sender ops ->
  run bus_init ops = Ret (b, tr) ->
  ep_find id b = Some e ->
  hist_senders ops id ty r = Some ss ->
  exists b' old n1 n2 got,
    run b [OUnload id ty r; ORoute; OReceiveAll id; OUnload id ty r] =
    Ret (b', [(OUnload id ty r, OutMsgs old); (ORoute, OutCount n1); (OReceiveAll id, OutCount n2);
              (OUnload id ty r, OutMsgs got)]) /\
    Permutation got (filter (wanted ty ss) (pending b ++ e_recv e)).
Proof. exact (exact_delivery_perm ops b tr id ty r ss e). Qed.
Print Assumptions c01_exact_delivery.

Theorem c01_at_most_once p id ty r ops b tr :
  run bus_init ops = Ret (b, tr) -> unloaded p id ty r tr <= sent p tr.
Proof. exact (at_most_once p id ty r ops b tr). Qed.
Print Assumptions c01_at_most_once.

Example c01_hypotheses : exists b tr e,
  no_add_sender demo /\ run bus_init demo = Ret (b, tr) /\ ep_find 1 b = Some e /\
  hist_senders demo 1 0 100%N = Some [7; 8]%N /\
  filter (wanted 0 [7; 8]%N) (pending b ++ e_recv e) =
    [SpikeMsg 7 1 [1; 2]%N; SpikeMsg 8 1 [3]%N].
Proof. ex_compute. Qed.
(** A message taken by two subscriptions is unloaded by both. *)
Example c01_demo : exists b tr,
  run bus_init (demo ++ [ORoute; OReceiveAll 1; OUnload 1 0 100%N; OUnload 1 0 101%N; OUnload 1 1 100%N]) =
  Ret (b, tr ++ [(ORoute, OutCount 4); (OReceiveAll 1, OutCount 3);
                 (OUnload 1 0 100%N, OutMsgs [SpikeMsg 7 1 [1; 2]%N; SpikeMsg 8 1 [3]%N]);
                 (OUnload 1 0 101%N, OutMsgs [SpikeMsg 8 1 [3]%N]);
                 (OUnload 1 1 100%N, OutMsgs [ImpactMsg 7 1 5 6 false []])]).
Proof. eexists _, (map (fun o => (o, OutUnit)) demo). vm_compute. reflexivity. Qed.

(** *** C02 *)
Theorem c02_send_order ops b tr id ty r ss e :
  no_add_sender ops ->
  run bus_init ops = Ret (b, tr) ->
  ep_find id b = Some e -> e_recv e = [] ->
  hist_senders ops id ty r = Some ss ->
  exists b' old n1 n2,
    run b [OUnload id ty r; ORoute; OReceiveAll id; OUnload id ty r] =
    Ret (b', [(OUnload id ty r, OutMsgs old); (ORoute, OutCount n1); (OReceiveAll id, OutCount n2);
              (OUnload id ty r, OutMsgs (filter (wanted ty ss) (pending b)))]).
Proof. exact (order_one_round ops b tr id ty r ss e). Qed.
Print Assumptions c02_send_order.

Example c02_hypotheses : exists b tr e,
  no_add_sender demo /\ run bus_init demo = Ret (b, tr) /\ ep_find 1 b = Some e /\ e_recv e = [] /\
  hist_senders demo 1 0 100%N = Some [7; 8]%N /\
  pending b = [SpikeMsg 7 1 [1; 2]%N; SpikeMsg 9 1 [4]%N; ImpactMsg 7 1 5 6 false []; SpikeMsg 8 1 [3]%N].
Proof. ex_compute. Qed.

(** *** C03 *)
(** The full statement is false: two routing rounds without a receive in
    between swap the messages of one sender. *)
Theorem c03_order_several_rounds_refuted : exists ops b tr m1 m2,
  run bus_init (ops ++ [OSend 0 m1; ORoute; OSend 0 m2; ORoute; OReceiveAll 1; OUnload 1 0 100%N]) =
    Ret (b, tr ++ [(OUnload 1 0 100%N, OutMsgs [m2; m1])]) /\
  msg_sender m1 = msg_sender m2 /\ m1 <> m2.
Proof.
  exists [OCreate; OCreate; OSubscribe 1 0 100%N [7]%N].
  eexists _, [_; _; _; _; _; _; _; _], (SpikeMsg 7 1 [1]%N), (SpikeMsg 7 2 [2]%N).
  split; [vm_compute; reflexivity|]. split; [reflexivity|discriminate].
Qed.
Print Assumptions c03_order_several_rounds_refuted.

(** Missing from the full statement: receiving after every routing pass is
    required.  Then any number of rounds preserves the order. *)
Theorem c03_order_several_rounds_partial ops b tr a rcv ea er ty r ss mss :
  no_add_sender ops ->
  run bus_init ops = Ret (b, tr) ->
  ep_find a b = Some ea -> ep_find rcv b = Some er ->
  hist_senders ops rcv ty r = Some ss ->
  pending b = [] -> e_recv er = [] ->
  exists b' tr',
    run b (OUnload rcv ty r ::
           flat_map (fun ms => map (OSend a) ms ++ [ORoute; OReceiveAll rcv]) mss ++ [OUnload rcv ty r]) =
    Ret (b', tr' ++ [(OUnload rcv ty r, OutMsgs (filter (wanted ty ss) (concat mss)))]).
Proof. exact (rounds_fifo ops b tr a rcv ea er ty r ss mss). Qed.
Print Assumptions c03_order_several_rounds_partial.

Example c03_hypotheses : let ops := [OCreate; OCreate; OSubscribe 1 0 100%N [7]%N] in exists b tr ea er,
  no_add_sender ops /\ run bus_init ops = Ret (b, tr) /\ ep_find 0 b = Some ea /\ ep_find 1 b = Some er /\
  hist_senders ops 1 0 100%N = Some [7]%N /\ pending b = [] /\ e_recv er = [].
Proof. ex_compute. Qed.

(** *** C04 *)
Theorem c04_route_drains b : exists b1,
  exec b ORoute = Ret (b1, OutCount (length (pending b))) /\
  pending b1 = [] /\ exec b1 ORoute = Ret (b1, OutCount 0).
Proof. exact (route_drains b). Qed.
Print Assumptions c04_route_drains.

Example c04_demo : exists b tr, run bus_init demo = Ret (b, tr) /\ length (pending b) = 4.
Proof. ex_compute. Qed.

(** *** C05 *)
Theorem c05_unload_once ops b tr id ty r e :
  run bus_init ops = Ret (b, tr) -> ep_find id b = Some e ->
  exists b' l e',
    run b [OUnload id ty r; OUnload id ty r] =
      Ret (b', [(OUnload id ty r, OutMsgs l); (OUnload id ty r, OutMsgs [])]) /\
    l = match sub_find (ty, r) (e_subs e) with Some s => s_msgs s | None => [] end /\
    ep_find id b' = Some e' /\
    e_recv e' = e_recv e /\ pending b' = pending b /\
    (forall k, k <> (ty, r) -> sub_find k (e_subs e') = sub_find k (e_subs e)) /\
    (forall i, i <> id -> ep_find i b' = ep_find i b) /\
    (hist_senders ops id ty r = None -> e' = e).
Proof. exact (unload_twice ops b tr id ty r e). Qed.
Print Assumptions c05_unload_once.

Example c05_hypotheses : exists b tr e, run bus_init (demo ++ [ORoute; OReceiveAll 1]) = Ret (b, tr) /\
  ep_find 1 b = Some e /\
  sub_find (0, 100%N) (e_subs e) = Some (mkSub [7; 8]%N [SpikeMsg 7 1 [1; 2]%N; SpikeMsg 8 1 [3]%N]) /\
  hist_senders (demo ++ [ORoute; OReceiveAll 1]) 1 1 101%N = None.
Proof. ex_compute. Qed.

(** *** C06 *)
Theorem c06_subscribe ops b tr id ty r ss e :
  run bus_init ops = Ret (b, tr) -> ep_find id b = Some e ->
  exists b' e' s',
    exec b (OSubscribe id ty r ss) = Ret (b', OutUnit) /\ ep_find id b' = Some e' /\
    NoDup (map fst (e_subs e')) /\
    sub_find (ty, r) (e_subs e') = Some s' /\
    (forall u, In u (s_senders s') <->
       In u ss \/ exists s, sub_find (ty, r) (e_subs e) = Some s /\ In u (s_senders s)) /\
    s_msgs s' = match sub_find (ty, r) (e_subs e) with Some s => s_msgs s | None => [] end /\
    (forall k, k <> (ty, r) -> sub_find k (e_subs e') = sub_find k (e_subs e)) /\
    (forall i, i <> id -> ep_find i b' = ep_find i b).
Proof. exact (subscribe_effect ops b tr id ty r ss e). Qed.
Print Assumptions c06_subscribe.

(** The senders of a subscription after any history: what the calls say. *)
Theorem c06_senders_follow_calls ops b tr id ty r :
  run bus_init ops = Ret (b, tr) ->
  match ep_find id b with
  | Some e => option_map s_senders (sub_find (ty, r) (e_subs e))
  | None => None
  end = hist_senders ops id ty r.
Proof. exact (senders_run ops b tr id ty r). Qed.
Print Assumptions c06_senders_follow_calls.

(** A list of subscribe calls on one endpoint: the union per (type, receiver). *)
Theorem c06_union id ty r calls acc :
  fold_left (hist_step id ty r) (map (fun c => OSubscribe id (fst (fst c)) (snd (fst c)) (snd c)) calls) acc =
  match acc, filter (fun c => key_eqb (ty, r) (fst c)) calls with
  | None, [] => None
  | None, l => Some (flat_map snd l)
  | Some a, l => Some (a ++ flat_map snd l)
  end.
Proof. exact (hist_subscribes id ty r calls acc). Qed.
Print Assumptions c06_union.

Example c06_hypotheses : exists b tr e,
  run bus_init (demo ++ [ORoute; OReceiveAll 1]) = Ret (b, tr) /\ ep_find 1 b = Some e /\
  length (e_subs e) = 3 /\ sub_find (0, 101%N) (e_subs e) = Some (mkSub [8]%N [SpikeMsg 8 1 [3]%N]).
Proof. ex_compute. Qed.

(** *** C07 *)
Theorem c07_unsubscribe ops b tr id ty r b' x :
  run bus_init ops = Ret (b, tr) ->
  exec b (OUnsubscribe id ty r) = Ret (b', x) ->
  (x = OutBool true <-> hist_senders ops id ty r <> None) /\
  (x = OutBool false <-> hist_senders ops id ty r = None) /\
  (forall id' ty' r', (id', ty', r') <> (id, ty, r) ->
     match ep_find id' b with
     | None => ep_find id' b' = None
     | Some e => exists e', ep_find id' b' = Some e' /\
                 sub_find (ty', r') (e_subs e') = sub_find (ty', r') (e_subs e)
     end) /\
  (forall b2 x2 ss, exec b' (OSubscribe id ty r ss) = Ret (b2, x2) ->
     exists b3, exec b2 (OUnload id ty r) = Ret (b3, OutMsgs [])).
Proof. exact (unsubscribe_result ops b tr id ty r b' x). Qed.
Print Assumptions c07_unsubscribe.

(** Without a subscription, nothing is ever unloaded, whatever the later
    history does short of subscribing again. *)
Theorem c07_unsubscribed_silent id ty r ops2 ops b tr b2 tr2 :
  run bus_init ops = Ret (b, tr) ->
  hist_senders ops id ty r = None ->
  Forall (no_resub id ty r) ops2 ->
  run b ops2 = Ret (b2, tr2) ->
  forall l, In (OUnload id ty r, OutMsgs l) tr2 -> l = [].
Proof. exact (unsubscribed_silent id ty r ops2 ops b tr b2 tr2). Qed.
Print Assumptions c07_unsubscribed_silent.

Example c07_hypotheses :
  let ops2 := [ORoute; OReceiveAll 1; OUnload 1 0 101%N; OUnload 1 0 100%N] in exists b tr b2 tr2 l,
  run bus_init (demo ++ [OUnsubscribe 1 0 100%N]) = Ret (b, tr) /\
  hist_senders (demo ++ [OUnsubscribe 1 0 100%N]) 1 0 100%N = None /\
  Forall (no_resub 1 0 100%N) ops2 /\ run b ops2 = Ret (b2, tr2) /\
  In (OUnload 1 0 101%N, OutMsgs [SpikeMsg 8 1 [3]%N]) tr2 /\ In (OUnload 1 0 100%N, OutMsgs l) tr2.
Proof.
  eexists _, _, _, _, []. split; [vm_compute; reflexivity|]. split; [vm_compute; reflexivity|].
  split; [repeat constructor|]. split; [vm_compute; reflexivity|]. split; cbn; auto.
Qed.

(** *** C08 *)
(** As stated the property is false: one matching subscription makes the loop
    increment an erased iterator. *)
Theorem c08_remove_receiver_refuted : exists ops b tr,
  run bus_init ops = Ret (b, tr) /\ exec b (ORemoveReceiver 1 100%N) = UB.
Proof. exists demo. eexists _, _. split; vm_compute; reflexivity. Qed.
Print Assumptions c08_remove_receiver_refuted.

(** The exact extent of the fault.  Missing: the case with a match. *)
Theorem c08_remove_receiver_partial r e :
  ((exists ty s, In ((ty, r), s) (e_subs e)) <-> remove_receiver r e = UB) /\
  ((forall ty s, ~ In ((ty, r), s) (e_subs e)) -> remove_receiver r e = Ret e).
Proof. exact (conj (remove_receiver_UB r e) (remove_receiver_none r e)). Qed.
Print Assumptions c08_remove_receiver_partial.

Example c08_hypotheses : exists b tr e, run bus_init demo = Ret (b, tr) /\ ep_find 1 b = Some e /\
  remove_receiver 55%N e = Ret e.
Proof. ex_compute. Qed.

(** *** C09 *)
Theorem c09_filter_covers ops b tr id e ty r s :
  no_add_sender ops -> run bus_init ops = Ret (b, tr) ->
  ep_find id b = Some e -> sub_find (ty, r) (e_subs e) = Some s ->
  incl (s_senders s) (e_filter e).
Proof. exact (fun Ha Hr Hf Hs => covered_run ops b tr Ha Hr id e Hf (ty, r) s Hs). Qed.
Print Assumptions c09_filter_covers.

Example c09_hypotheses : exists b tr e s, no_add_sender demo /\ run bus_init demo = Ret (b, tr) /\
  ep_find 1 b = Some e /\ sub_find (0, 100%N) (e_subs e) = Some s /\ s_senders s = [7; 8]%N.
Proof. ex_compute. Qed.

(** *** C10 *)
Theorem c10_add_sender_refuted : exists b tr,
  run bus_init [OCreate; OCreate; OSubscribe 1 0 100%N [7]%N; OAddSender 1 0 100%N 8%N;
                OSend 0 (SpikeMsg 8 1 [3]%N); ORoute; OReceiveAll 1; OUnload 1 0 100%N] =
  Ret (b, tr ++ [(OUnload 1 0 100%N, OutMsgs [])]) /\
  hist_senders [OCreate; OCreate; OSubscribe 1 0 100%N [7]%N; OAddSender 1 0 100%N 8%N] 1 0 100%N =
    Some [7; 8]%N.
Proof. eexists _, [_; _; _; _; _; _; _]. split; vm_compute; reflexivity. Qed.
Print Assumptions c10_add_sender_refuted.

(** The exact rule, in histories that may call add_sender.  Missing from the
    full statement: the sender must also have been named in a subscribe call on
    the same endpoint. *)
Theorem c10_add_sender_partial ops b tr id ty r ss e :
  run bus_init ops = Ret (b, tr) ->
  ep_find id b = Some e ->
  hist_senders ops id ty r = Some ss ->
  exists b' old n1 n2,
    run b [OUnload id ty r; ORoute; OReceiveAll id; OUnload id ty r] =
    Ret (b', [(OUnload id ty r, OutMsgs old); (ORoute, OutCount n1); (OReceiveAll id, OutCount n2);
              (OUnload id ty r,
               OutMsgs (filter (fun m => wanted ty ss m && mem (msg_sender m) (known_senders ops id)) (pending b) ++
                        filter (wanted ty ss) (rev (e_recv e))))]).
Proof. exact (delivery_any ops b tr id ty r ss e). Qed.
Print Assumptions c10_add_sender_partial.

Example c10_hypotheses :
  let ops := [OCreate; OCreate; OSubscribe 1 0 100%N [7]%N; OSubscribe 1 0 101%N [8]%N;
              OAddSender 1 0 100%N 8%N; OSend 0 (SpikeMsg 8 1 [3]%N)] in
  exists b tr e, run bus_init ops = Ret (b, tr) /\ ep_find 1 b = Some e /\
    hist_senders ops 1 0 100%N = Some [7; 8]%N /\ known_senders ops 1 = [7; 8]%N /\
    pending b = [SpikeMsg 8 1 [3]%N].
Proof. ex_compute. Qed.

(** *** C11 *)
(** Routing after a destruction equals routing in a bus without that endpoint. *)
Theorem c11_destroyed_route id b :
  route_messages (destroy_endpoint id b) =
  route_messages (mkBus (filter (fun e => negb (Nat.eqb (e_id e) id)) (b_eps b)) (b_route b) (b_next b)).
Proof. exact (destroy_route id b). Qed.
Print Assumptions c11_destroyed_route.

(** A single bus step treats every other endpoint alike. *)
Theorem c11_destroyed_step id b id' : id' <> id ->
  ep_find id' (fst (bus_step (destroy_endpoint id b))) = ep_find id' (fst (bus_step b)) /\
  snd (bus_step (destroy_endpoint id b)) = snd (bus_step b) /\
  b_route (fst (bus_step (destroy_endpoint id b))) = b_route (fst (bus_step b)).
Proof. exact (destroy_step id b id'). Qed.
Print Assumptions c11_destroyed_step.

Example c11_demo : exists b tr,
  run bus_init (demo ++ [ODestroy 0; ORoute; OReceiveAll 1; OUnload 1 0 100%N]) =
  Ret (b, tr ++ [(ORoute, OutCount 1); (OReceiveAll 1, OutCount 1);
                 (OUnload 1 0 100%N, OutMsgs [SpikeMsg 8 1 [3]%N])]).
Proof. eexists _, (map (fun o => (o, OutUnit)) (demo ++ [ODestroy 0])). vm_compute. reflexivity. Qed.
