(** The exchange of messages between the CUDA bus and the host's bus. *)
From Verif Require Import Base ListLemmas Messaging_Model Gpu_Model Gpu_Spec Gpu_Proofs Gpu_Proofs2 Gpu_Proofs3
  GpuBus_Model GpuBus_Spec GpuBus_Proofs.

Lemma convert_same i : convert_impact i = i.
Proof. destruct i. reflexivity. Qed.
Lemma impact_kernel_ok ord k to is n : any_orders ord -> (N.of_nat n <= limit)%N -> n = length is -> n <= length to ->
  impact_kernel ord k to (map Obj is) n = Ret (span to 0 (map Obj is)).
Proof.
  intros O S -> L. unfold impact_kernel.
  rewrite (launch_span ord k _ (fun i => Obj (nth i is no_impact))) with (off := 0); try assumption.
  - now rewrite map_nth_all.
  - intros i m' Hi Lm _. cbn [Nat.add].
    assert (N : nth_error is i = Some (nth i is no_impact)) by (apply nth_error_nth'; assumption).
    rewrite <- (app_nil_r (map _ _)). rewrite (read_obj _ _ _ _ N). cbn [obind]. rewrite convert_same. apply write_upd. lia.
Qed.
Lemma make_gpu_ok ord m : any_orders ord -> (N.of_nat (payload m) <= limit)%N -> make_gpu ord m = Ret (as_gpu m).
Proof.
  intros O S. destruct m as [s t idx|s t p q f is]; cbn [make_gpu as_gpu payload] in *.
  - destruct idx as [|a idx]; [reflexivity|]. set (l := a :: idx) in *.
    destruct (h_resize_ok index_elem ord 0 v_empty [] (length l) O vok_empty ltac:(cbn; lia) S) as [v [-> [V _]]]. cbn [obind].
    pose proof V as [[rest D] Sz Le Cap Nul]. cbn [length] in V, D, Sz, Le. rewrite firstn_nil in *. cbn [app] in *.
    rewrite Nat.sub_0_r, repeat_length in *.
    assert (Ld : length (deref v) = length l + length rest) by (rewrite D, app_length, map_length, repeat_length; reflexivity).
    rewrite memcpy_objs by lia. cbn [obind].
    assert (W : vok (with_mem v (map Obj l ++ skipn (length l) (deref v)) (v_size v)) l).
    { eapply vok_at; [exact Sz|reflexivity| | |assumption|lia]; [|lia].
      rewrite app_length, map_length, skipn_length. lia. }
    destruct (vok_contains _ _ W) as [-> _]. reflexivity.
  - destruct is as [|a is]; [reflexivity|]. set (l := a :: is) in *.
    destruct (h_resize_ok impact_elem ord 0 v_empty [] (length l) O vok_empty ltac:(cbn; lia) S) as [v [-> [V _]]]. cbn [obind].
    pose proof V as [[rest D] Sz Le Cap Nul]. cbn [length] in V, D, Sz, Le. rewrite firstn_nil in *. cbn [app] in *.
    rewrite Nat.sub_0_r, repeat_length in *.
    assert (Ld : length (deref v) = length l + length rest) by (rewrite D, app_length, map_length, repeat_length; reflexivity).
    rewrite impact_kernel_ok by (auto; lia). cbn [obind].
    assert (W : vok (with_mem v (span (deref v) 0 (map Obj l)) (v_size v)) l).
    { eapply vok_at; [exact Sz|unfold span; cbn [firstn app]; reflexivity| | |assumption|lia]; [|lia].
      rewrite span_length; [reflexivity|]. rewrite map_length. lia. }
    destruct (vok_contains _ _ W) as [-> _]. reflexivity.
Qed.
Lemma make_host_ok ord g : any_orders ord -> (N.of_nat (payload (as_host g)) <= limit)%N -> make_host ord g = Ret (as_host g).
Proof.
  intros O S. destruct g as [s t e idx|s t e p q f is]; cbn [make_host as_host payload] in *; [reflexivity|].
  destruct is as [|a is]; [reflexivity|]. set (l := a :: is) in *.
  rewrite impact_kernel_ok by (auto; rewrite repeat_length; lia). cbn [obind].
  unfold span. cbn [firstn app].
  match goal with |- context [read_all (map Obj l ++ ?x) 0 _] =>
    rewrite (read_all_objs l x [] : read_all (map Obj l ++ x) 0 (length l) = Ret l) end. reflexivity.
Qed.

Lemma to_host_iff step g : to_host step g = for_host step g.
Proof.
  unfold to_host, for_host. destruct (g_external g), (g_time g =? step)%N, (g_time g =? sub64 step 1)%N; reflexivity.
Qed.
Lemma send_to_host_ok step : forall l ord h, fair_call ord ->
  Forall (fun g => (N.of_nat (payload (as_host g)) <= limit)%N) l ->
  send_to_host ord step l h =
  obind (run h (map (fun g => OSend 0 (as_host g)) (filter (for_host step) l))) (fun x => Ret (fst x)).
Proof.
  induction l as [|g l IH]; intros ord h O S; [reflexivity|]. apply Forall_cons_iff in S. destruct S as [S1 S2].
  cbn [send_to_host filter]. rewrite to_host_iff. destruct (for_host step g).
  - rewrite make_host_ok by auto. cbn [obind map run].
    destruct (exec h (OSend 0 (as_host g))) as [[h1 x]| |]; cbn [obind fst snd]; [|reflexivity|reflexivity].
    rewrite (IH (fun k => ord (S k))); [|intros k; apply O|assumption].
    destruct (run h1 _) as [[h2 tr]| |]; reflexivity.
  - apply IH; [intros k; apply O|assumption].
Qed.

Lemma push_all_ok : forall l ord b st, fair_call ord -> gok b st ->
  Forall (fun m => (N.of_nat (payload m) <= limit)%N) l -> (N.of_nat (length (snd st) + length l) <= limit)%N ->
  exists b', push_all ord b l = Ret b' /\ gok b' (fst st, snd st ++ map as_gpu l) /\ g_subs b' = g_subs b.
Proof.
  induction l as [|m l IH]; intros ord b st O G S L.
  - exists b. cbn [push_all map]. rewrite app_nil_r. rewrite <- surjective_pairing. auto.
  - apply Forall_cons_iff in S. destruct S as [S1 S2]. cbn [length] in L. cbn [push_all].
    rewrite make_gpu_ok by auto. cbn [obind].
    destruct (send_ok (ord 1) b st (as_gpu m) (O 1) G ltac:(lia)) as [b1 [-> [G1 E1]]]. cbn [obind].
    destruct (IH (fun k => ord (2 + k)) b1 (fst st, snd st ++ [as_gpu m])) as [b2 [-> [G2 E2]]].
    + intros k. apply O.
    + assumption.
    + assumption.
    + cbn [fst snd]. rewrite app_length. cbn [length]. lia.
    + exists b2. split; [reflexivity|]. cbn [fst snd] in G2. rewrite <- app_assoc in G2. cbn [app map]. split; [assumption|congruence].
Qed.

Definition unload_ops (l : list gsub) : list op :=
  flat_map (fun s => if gs_type s <? 2 then [OUnload 0 (gs_type s) (gs_receiver s)] else []) l.
Lemma exec_unload h ty r h' x : exec h (OUnload 0 ty r) = Ret (h', x) -> exists ms, x = OutMsgs ms.
Proof.
  cbn [exec]. unfold on_ep. destruct (ep_find 0 h); [|discriminate].
  destruct (unload_messages ty r e) as [e' l]. cbn [obind fst snd]. intros H. injection H as _ <-. eauto.
Qed.
Lemma receive_loop_ok : forall l ord b st h h' tr, (forall k, fair_call (ord k)) -> gok b st ->
  run h (unload_ops l) = Ret (h', tr) ->
  Forall (fun m => (N.of_nat (payload m) <= limit)%N) (unloaded_msgs tr) ->
  (N.of_nat (length (snd st) + length (unloaded_msgs tr)) <= limit)%N ->
  exists b', receive_loop ord l b h = Ret (b', h') /\ gok b' (fst st, snd st ++ map as_gpu (unloaded_msgs tr)) /\ g_subs b' = g_subs b.
Proof.
  induction l as [|s l IH]; intros ord b st h h' tr O G R S L.
  - cbn [unload_ops flat_map run] in R. injection R as <- <-. exists b. cbn [receive_loop unloaded_msgs flat_map map].
    rewrite app_nil_r, <- surjective_pairing. auto.
  - unfold unload_ops in R. cbn [flat_map] in R. cbn [receive_loop]. destruct (gs_type s <? 2).
    + cbn [app run] in R. destruct (exec h _) as [[h1 x]| |] eqn:E; cbn [obind fst snd] in R; try discriminate.
      destruct (run h1 _) as [[h2 tr2]| |] eqn:R2; cbn [obind fst snd] in R; try discriminate.
      injection R as <- <-. destruct (exec_unload _ _ _ _ _ E) as [ms ->]. cbn [obind snd fst].
      unfold unloaded_msgs in *. cbn [flat_map snd] in *. rewrite app_length in L. apply Forall_app in S. destruct S as [S1 S2].
      destruct (push_all_ok ms (ord 0) b st (O 0) G S1 ltac:(lia)) as [b1 [-> [G1 E1]]]. cbn [obind].
      destruct (IH (fun k => ord (Datatypes.S k)) b1 _ h1 h2 tr2 (fun k => O (Datatypes.S k)) G1 R2 S2) as [b2 [-> [G2 E2]]].
      * cbn [fst snd]. rewrite app_length, map_length. lia.
      * exists b2. split; [reflexivity|]. cbn [fst snd] in G2. rewrite <- app_assoc, <- map_app in G2. split; [assumption|congruence].
    + cbn [app] in R. apply (IH (fun k => ord (Datatypes.S k)) b st h h' tr); auto.
Qed.

Lemma sync_ok : forall (order : list (key * sub)) ord b st h n h' tr, (forall k, fair_call (ord k)) -> gok b st -> bounded st n ->
  (N.of_nat (n + list_sum (map (fun x => (1 + length (s_senders (snd x)))%nat) order))%nat <= limit)%N ->
  Forall (fun x => fst (fst x) < 2) order ->
  run h (map (fun x => OSubscribe 0 (fst (fst x)) (snd (fst x)) (s_senders (snd x))) order) = Ret (h', tr) ->
  exists b', sync_loop ord order b h = Ret (b', h') /\
    gok b' (fold_left (fun l x => add_sub l (snd (fst x)) (fst (fst x)) (s_senders (snd x))) order (fst st), snd st).
Proof.
  induction order as [|[[ty r] s] order IH]; intros ord b st h n h' tr O G B L T R.
  - cbn [map run] in R. injection R as <- <-. exists b. split; [reflexivity|]. cbn [fold_left]. rewrite <- surjective_pairing. assumption.
  - apply Forall_cons_iff in T. destruct T as [T1 T2]. cbn [fst snd] in *. unfold list_sum in *. cbn [map fold_right fst snd] in L.
    cbn [sync_loop]. destruct B as [B1 [B2 B3]].
    destruct (subscribe_ok (ord 0) b st r ty (s_senders s) (O 0) G) as [b1 [-> G1]].
    + lia.
    + intros x Hx. apply B3 in Hx. lia.
    + lia.
    + cbn [obind fst].
      assert (B' : bounded (add_sub (fst st) r ty (s_senders s), snd st) (n + (1 + length (s_senders s)))).
      { apply (gspec_bounded st (GSubscribe r ty (s_senders s))); [repeat split; assumption|reflexivity]. }
      unfold subscribe_host. destruct (Nat.ltb_spec ty 2); [|lia].
      cbn [map run fst snd] in R. destruct (exec h _) as [[h1 x]| |]; cbn [obind fst snd] in *; try discriminate.
      destruct (run h1 _) as [[h2 tr2]| |] eqn:R2; cbn [obind fst snd] in R; try discriminate. injection R as <- <-.
      destruct (IH (fun k => ord (Datatypes.S k)) b1 _ h1 _ h2 tr2 (fun k => O (Datatypes.S k)) G1 B') as [b3 [E3 G3]]; [lia|assumption|assumption|].
      exists b3. split; [exact E3|exact G3].
Qed.
