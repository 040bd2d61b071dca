(** Whole steps of the CUDA backend. *)
From Verif Require Props_GpuNet.
From Verif Require Import Base ListLemmas Messaging_Model Projection_Model Delta_Model Delta_Spec Delta_Proofs Neuron_Model Neuron_Proofs2
  Gpu_Model Gpu_Spec Gpu_Proofs Gpu_Proofs2 Gpu_Proofs3 GpuBus_Model GpuBus_Spec GpuBus_Proofs GpuBus_Proofs2
  GpuNet_Model GpuNet_Spec GpuNet_Proofs GpuNet_Proofs2 GpuStep_Model GpuStep_Spec.

(** ** Threads that work on their own cell *)
Section Each.
Context {A : Type} (f : nat -> A -> outcome A).
Lemma update_at_inv i g (st st' : list A) : update_at i g st = Ret st' ->
  exists a a', nth_error st i = Some a /\ g a = Ret a' /\ length st' = length st /\ nth_error st' i = Some a' /\
    forall j, j <> i -> nth_error st' j = nth_error st j.
Proof.
  intros H. apply (update_at_spec (fun x => x) (fun a _ => Ret a) (fun a => (a, true))) in H. exact H.
Qed.
Lemma ofold_each : forall l st st', NoDup l -> ofold (fun i => update_at i (f i)) l st = Ret st' ->
  length st' = length st /\
  forall i a, nth_error st i = Some a -> exists a', nth_error st' i = Some a' /\ (In i l -> f i a = Ret a') /\ (~ In i l -> a' = a).
Proof.
  induction l as [|j l IH]; intros st st' N H; cbn [ofold] in H.
  - injection H as <-. split; [reflexivity|]. intros i a Hi. exists a. split; [exact Hi|]. split; [intros []|reflexivity].
  - destruct (update_at j (f j) st) as [s1| |] eqn:E; cbn [obind] in H; try discriminate.
    apply NoDup_cons_iff in N. destruct N as [N1 N2]. destruct (IH s1 st' N2 H) as [L1 I1].
    apply update_at_inv in E. destruct E as [a [a' [Ea [Fa [L2 [Ea' O]]]]]]. split; [congruence|].
    intros i b Hi. destruct (Nat.eq_dec i j) as [->|D].
    + assert (b = a) by congruence. subst b. destruct (I1 j a' Ea') as [c [Hc [_ Nc]]]. rewrite (Nc N1) in Hc.
      exists a'. split; [exact Hc|]. split; [intros _; exact Fa|]. intros X. destruct X. now left.
    + rewrite <- (O i D) in Hi. destruct (I1 i b Hi) as [c [Hc [Ic Nc]]]. exists c. split; [exact Hc|]. split.
      * intros [X|X]; [congruence|auto].
      * intros X. apply Nc. intros Y. apply X. now right.
Qed.
Lemma launch_each ord k st st' : any_orders ord -> (N.of_nat (length st) <= limit)%N ->
  launch ord k (length st) (fun i => update_at i (f i)) st = Ret st' ->
  length st' = length st /\ forall i a, nth_error st i = Some a -> exists a', nth_error st' i = Some a' /\ f i a = Ret a'.
Proof.
  intros O S H. destruct (launch_visits ord k (length st) (fun i => update_at i (f i)) st O S) as [l [P E]]. rewrite E in H.
  assert (N : NoDup l) by (apply (Permutation_NoDup (Permutation_sym P)), seq_NoDup).
  destruct (ofold_each l st st' N H) as [L I]. split; [exact L|]. intros i a Hi. destruct (I i a Hi) as [a' [H1 [H2 _]]].
  exists a'. split; [exact H1|]. apply H2. apply (Permutation_in _ (Permutation_sym P)), in_seq.
  assert (i < length st) by (apply nth_error_Some; congruence). lia.
Qed.
End Each.

(** ** Reading the bus *)
Lemma collect_mem sz v L : vok v L -> forall idx w, collect sz (deref v) (v_size v) idx w = collect sz (map Obj L) (length L) idx w.
Proof.
  intros V. pose proof V as [[rest D] Sz _ _ _]. rewrite Sz. induction idx as [|i idx IH]; intros w; cbn [collect]; [reflexivity|].
  destruct (Nat.leb_spec (length L) i); [apply IH|].
  destruct (nth_error L i) as [m|] eqn:N; [|apply nth_error_None in N; lia].
  rewrite D, (read_obj _ _ _ _ N). rewrite <- (app_nil_r (map Obj L)), (read_obj _ _ _ _ N), app_nil_r. cbn [obind].
  destruct (d_push gmsg_elem sz w m); cbn [obind]; try reflexivity. rewrite <- D. apply IH.
Qed.
Lemma thread_mem sz v L u step idx ns : vok v L ->
  g_population_thread sz u step (deref v) (v_size v) idx ns = g_population_thread sz u step (map Obj L) (length L) idx ns.
Proof. intros V. unfold g_population_thread. now rewrite (collect_mem sz v L V). Qed.
Lemma calculate_mem sz v L p step idx : vok v L ->
  g_calculate sz p step (deref v) (v_size v) idx = g_calculate sz p step (map Obj L) (length L) idx.
Proof. intros V. unfold g_calculate. now rewrite (collect_mem sz v L V). Qed.

(** ** Projections *)
Definition own (p : gproj) := wf (gp_uid p) (gp_pre p) (gp_post p).
Record pinv (p : gproj) (L : list gmsg) : Prop := mkPinv {
  pi_vok : vok (gp_msgs p) L; pi_cap : cap_ok (gp_msgs p); pi_wf : Forall (own p) L; pi_nodup : NoDup (map g_time L); pi_two : length L <= 2 }.
Lemma pinv_load h l : pinv (load_projection h l) [].
Proof. split; [apply vok_empty|left; reflexivity|constructor|constructor|cbn; lia]. Qed.

Section Proj.
Context (sz : nat) (sz1 : 1 <= sz).
Lemma calculate_pinv p step bus idx p' L : pinv p L -> g_calculate sz p step (map Obj bus) (length bus) idx = Ret p' ->
  gp_uid p' = gp_uid p /\ gp_pre p' = gp_pre p /\ gp_post p' = gp_post p /\ gp_syn p' = gp_syn p /\ exists L', pinv p' L'.
Proof.
  intros [V C W N T] H. unfold g_calculate in H.
  pose proof (collect_ok sz sz1 bus idx v_empty [] vok_empty (or_introl eq_refl)) as X. cbn [length Nat.add app] in X.
  destruct (length (messages_at bus idx) <=? 2).
  2: { rewrite X in H by lia. discriminate. }
  destruct X as [w [E [Vw _]]]. rewrite E in H. cbn [obind] in H. destruct (vok_contains _ _ Vw) as [E2 _]. rewrite E2 in H. cbn [obind] in H.
  pose proof (spikes_ok (gp_uid p) (gp_pre p) (gp_post p) sz sz1 p step eq_refl eq_refl eq_refl (g_spikes_of (messages_at bus idx))
                (gp_msgs p) L V C T) as S. cbv zeta in S.
  set (L' := l_steps _ _ _ _ L) in *. destruct (Nat.leb_spec (length L') 2) as [H2|H2]; [|rewrite S in H; discriminate].
  destruct S as [v' [E3 [V' C']]]. rewrite E3 in H. cbn [obind] in H. injection H as <-. cbn [gp_uid gp_pre gp_post gp_syn gp_msgs].
  repeat split. exists L'. split; cbn [gp_msgs]; auto.
  - unfold own. cbn [gp_uid gp_pre gp_post]. now apply steps_wf.
  - now apply steps_NoDup.
Qed.
Lemma route_pinv p step ord L : any_orders ord -> pinv p L ->
  exists p' out L' lo, g_route sz ord p step = Ret (p', out) /\ vok out lo /\ pinv p' L' /\
    gp_uid p' = gp_uid p /\ gp_pre p' = gp_pre p /\ gp_post p' = gp_post p /\ gp_syn p' = gp_syn p /\
    Forall (own p) lo /\ Forall (fun m => g_time m = step) lo.
Proof.
  intros O [V C W N T]. unfold g_route. destruct (in_dec N.eq_dec step (map g_time L)) as [Hin|Hout].
  - apply in_map_iff in Hin. destruct Hin as [m [Tm Hm]]. destruct (in_split _ _ Hm) as [A [B ->]].
    rewrite map_app in N. cbn [map] in N. rewrite Tm in N. pose proof (NoDup_remove_2 _ _ _ N) as Nk. rewrite <- map_app in Nk.
    assert (F : Forall (fun x => g_time x <> step) (A ++ B)).
    { apply Forall_forall. intros x Hx E. apply Nk. rewrite <- E. now apply in_map. }
    destruct (extract_one sz sz1 step A m B Tm F (v_size (gp_msgs p)) 0 (gp_msgs p) V C ltac:(lia)) as [v2 [out [-> [V2 [C2 [Vo Co]]]]]].
    { rewrite (ok_size _ _ V). lia. }
    cbn [obind fst snd].
    destruct (actualized_ok imp_elem ord out [m] O Vo) as [w [-> Vw]]; [vm_compute; discriminate|left; discriminate|]. cbn [obind].
    eexists _, w, (A ++ B), [m]. split; [reflexivity|]. split; [exact Vw|]. apply Forall_app in W. destruct W as [W1 W2].
    apply Forall_cons_iff in W2. destruct W2 as [Wm W2]. split.
    + split; cbn [gp_msgs]; auto.
      * unfold own in *. cbn [gp_uid gp_pre gp_post]. apply Forall_app. tauto.
      * rewrite map_app. eapply NoDup_remove_1. exact N.
      * rewrite app_length in T |- *. cbn [length] in T. lia.
    + repeat split; auto.
  - rewrite (extract_none sz sz1 step (v_size (gp_msgs p)) 0 (gp_msgs p) v_empty L V).
    + cbn [obind fst snd]. destruct (actualized_ok imp_elem ord v_empty [] O vok_empty) as [w [-> Vw]]; [vm_compute; discriminate|right; reflexivity|].
      cbn [obind]. eexists _, w, L, []. split; [reflexivity|]. split; [exact Vw|]. split; [split; assumption|]. repeat split; constructor.
    + intros k m _ Hm E. apply Hout. rewrite <- E. apply in_map. eapply nth_error_In. exact Hm.
Qed.
End Proj.

(** ** The phases *)
Definition all_fair3 (o : nat -> nat -> nat -> orders) := forall a b c, any_orders (o a b c).
Lemma unload_each_ok ty b st : gok b st -> (N.of_nat (length (fst st)) <= limit)%N -> (N.of_nat (length (snd st)) <= limit)%N ->
  forall us o, (forall k, fair_call (o k)) ->
  exists l, unload_each o b ty us = Ret l /\ length l = length us /\
    forall i u, nth_error us i = Some u -> exists idx, nth_error l i = Some idx /\ places (fst st) (snd st) u ty idx.
Proof.
  intros G L1 L2. induction us as [|u us IH]; intros o O; cbn [unload_each].
  - exists []. split; [reflexivity|]. split; [reflexivity|]. intros [|i] v; discriminate.
  - destruct (unload_ok (o 0) b st ty u (O 0) G L1 L2) as [idx [-> [N I]]]. cbn [obind].
    destruct (IH (fun k => o (S k)) (fun k => O (S k))) as [l [-> [Ll Hl]]]. cbn [obind].
    exists (idx :: l). split; [reflexivity|]. split; [cbn [length]; congruence|]. intros [|i] v H; cbn [nth_error] in *.
    + injection H as <-. exists idx. split; [reflexivity|]. split; assumption.
    + now apply Hl.
Qed.

Lemma populations_ok sz o step b st pops b' pops' outs idxs : all_fair3 o -> gok b st ->
  (N.of_nat (length (fst st)) <= limit)%N -> (N.of_nat (length (snd st) + length pops) <= limit)%N ->
  g_populations sz o step b pops = Ret (b', pops', outs, idxs) ->
  gok b' (fst st, snd st ++ outs) /\ length pops' = length pops /\ length outs = length pops /\ length idxs = length pops /\
  forall i u ns, nth_error pops i = Some (u, ns) -> exists idx ns' m,
    nth_error idxs i = Some idx /\ places (fst st) (snd st) u 1 idx /\
    g_population_thread sz u step (map Obj (snd st)) (length (snd st)) idx ns = Ret (ns', m) /\
    nth_error pops' i = Some (u, ns') /\ nth_error outs i = Some m.
Proof.
  intros O G L1 L2 H. unfold g_populations in H. destruct pops as [|p0 pops0] eqn:Ep.
  { injection H as <- <- <- <-. rewrite app_nil_r, <- surjective_pairing. repeat split; try (apply G). intros [|i] u ns; discriminate. }
  rewrite <- Ep in *. clear Ep p0 pops0.
  destruct (unload_each_ok 1 b st G L1 ltac:(lia) (map fst pops) (o 0) (fun k => O 0 k)) as [l [E [Ll Hl]]]. rewrite E in H. cbn [obind] in H.
  rewrite map_length in Ll.
  destruct (launch _ _ _ _ _) as [res| |] eqn:La in H; cbn [obind] in H; try discriminate.
  rewrite <- (map_length (fun p => (p, g_default)) pops) in La.
  apply launch_each with (f := fun i x => match nth_error l i with
                  | Some idx => obind (g_population_thread sz (fst (fst x)) step (deref (g_msgs b)) (v_size (g_msgs b)) idx (snd (fst x)))
                                  (fun r => Ret (fst (fst x), fst r, snd r))
                  | None => UB
                  end) in La; [|apply O|rewrite map_length; lia].
  destruct La as [Lr Hr]. rewrite map_length in Lr.
  destruct (from_std_ok (map snd res)) as [v [Ev Vv]]. rewrite Ev in H. cbn [obind] in H.
  destruct (batch_ok (o 1 1 0) b st v (map snd res) (O 1 1 0) G Vv) as [b1 [Eb [Gb _]]]; [rewrite map_length; lia|].
  rewrite Eb in H. cbn [obind] in H. injection H as <- <- <- <-. rewrite !map_length.
  split; [exact Gb|]. split; [exact Lr|]. split; [exact Lr|]. split; [exact Ll|].
  intros i u ns Hi. destruct (Hl i u) as [idx [Hx Pl]]; [now rewrite nth_error_map, Hi|].
  destruct (Hr i ((u, ns), g_default)) as [[[u' ns'] m] [H1 H2]]; [now rewrite nth_error_map, Hi|].
  rewrite Hx in H2. cbn [fst snd] in H2. rewrite (thread_mem sz _ (snd st) _ _ _ _ (go_msgs _ _ G)) in H2.
  destruct (g_population_thread _ _ _ _ _ _ _) as [[ns1 m1]| |] eqn:Et; cbn [obind fst snd] in H2; try discriminate.
  injection H2 as <- <- <-. exists idx, ns1, m1. rewrite !nth_error_map, H1. auto.
Qed.

Lemma projections_ok sz o step b st projs projs' idxs : all_fair3 o -> gok b st ->
  (N.of_nat (length (fst st)) <= limit)%N -> (N.of_nat (length (snd st)) <= limit)%N -> (N.of_nat (length projs) <= limit)%N ->
  g_projections sz o step b projs = Ret (projs', idxs) ->
  length projs' = length projs /\ length idxs = length projs /\
  forall i p, nth_error projs i = Some p -> exists idx p',
    nth_error idxs i = Some idx /\ places (fst st) (snd st) (gp_uid p) 0 idx /\
    g_calculate sz p step (map Obj (snd st)) (length (snd st)) idx = Ret p' /\ nth_error projs' i = Some p'.
Proof.
  intros O G L1 L2 L3 H. unfold g_projections in H. destruct projs as [|p0 projs0] eqn:Ep.
  { injection H as <- <-. repeat split. intros [|i] p; discriminate. }
  rewrite <- Ep in *. clear Ep p0 projs0.
  destruct (unload_each_ok 0 b st G L1 L2 (map gp_uid projs) (o 0) (fun k => O 0 k)) as [l [E [Ll Hl]]]. rewrite E in H. cbn [obind] in H.
  rewrite map_length in Ll.
  destruct (launch _ _ _ _ _) as [res| |] eqn:La in H; cbn [obind] in H; try discriminate.
  apply launch_each with (f := fun i p => match nth_error l i with
                  | Some idx => g_calculate sz p step (deref (g_msgs b)) (v_size (g_msgs b)) idx
                  | None => UB
                  end) in La; [|apply O|exact L3].
  destruct La as [Lr Hr]. injection H as <- <-. split; [exact Lr|]. split; [exact Ll|].
  intros i p Hi. destruct (Hl i (gp_uid p)) as [idx [Hx Pl]]; [now rewrite nth_error_map, Hi|].
  destruct (Hr i p Hi) as [p' [H1 H2]]. rewrite Hx in H2. rewrite (calculate_mem sz _ (snd st) _ _ _ (go_msgs _ _ G)) in H2.
  exists idx, p'. auto.
Qed.

Lemma routes_ok sz step : 1 <= sz -> forall projs o b st b' projs' outs, (forall a c, any_orders (o a c)) -> gok b st ->
  Forall (fun p => exists L, pinv p L) projs ->
  (N.of_nat (length (snd st) + length (concat outs)) <= limit)%N ->
  g_routes sz o step b projs = Ret (b', projs', outs) ->
  gok b' (fst st, snd st ++ concat outs) /\ length projs' = length projs /\ length outs = length projs /\
  forall i p, nth_error projs i = Some p -> exists p' w out ord, any_orders ord /\ g_route sz ord p step = Ret (p', w) /\ to_std w = Ret out /\
    nth_error projs' i = Some p' /\ nth_error outs i = Some out /\ Forall (own p) out /\ Forall (fun m => g_time m = step) out /\
    gp_uid p' = gp_uid p /\ gp_pre p' = gp_pre p /\ gp_post p' = gp_post p /\ gp_syn p' = gp_syn p /\ exists L, pinv p' L.
Proof.
  intros Z. induction projs as [|p projs IH]; intros o b st b' projs' outs O G F L H; cbn [g_routes] in H.
  - injection H as <- <- <-. cbn [concat]. rewrite app_nil_r, <- surjective_pairing. repeat split; try apply G. intros [|i] p; discriminate.
  - apply Forall_cons_iff in F. destruct F as [[Lp Pp] F].
    destruct (route_pinv sz Z p step (o 0 0) Lp (O 0 0) Pp) as [p' [w [L' [lo [E [Vw [Pi [I1 [I2 [I3 [I4 [Fo Ft]]]]]]]]]]]].
    rewrite E in H. cbn [obind fst snd] in H. destruct (vok_contains _ _ Vw) as [Ts _]. rewrite Ts in H. cbn [obind] in H.
    destruct (send_batch (o 0 1) b w) as [b1| |] eqn:Eb; cbn [obind] in H; try discriminate.
    destruct (g_routes _ _ _ b1 projs) as [[[b2 ps] os]| |] eqn:Er; cbn [obind fst snd] in H; try discriminate.
    injection H as <- <- <-. cbn [concat] in L. rewrite app_length in L.
    destruct (batch_ok (o 0 1) b st w lo (O 0 1) G Vw) as [b3 [E3 [G3 _]]]; [lia|]. rewrite Eb in E3. injection E3 as <-.
    destruct (IH (fun k => o (S k)) b1 (fst st, snd st ++ lo) b2 ps os (fun a c => O (S a) c) G3 F) as [G4 [Lp4 [Lo4 H4]]].
    { cbn [snd]. rewrite app_length. lia. }
    { exact Er. }
    cbn [fst snd concat length] in *. split; [now rewrite app_assoc|]. split; [lia|]. split; [lia|].
    intros [|i] q Hq; cbn [nth_error] in *.
    + injection Hq as <-. exists p', w, lo, (o 0 0). repeat split; auto. eauto.
    + now apply H4.
Qed.

(** ** The host's side *)
Lemma receive_loop_host : forall l ord b h b' h', receive_loop ord l b h = Ret (b', h') -> exists tr, run h (host_unload l) = Ret (h', tr).
Proof.
  induction l as [|s l IH]; intros ord b h b' h' H; cbn [receive_loop] in H.
  - injection H as <- <-. exists []. reflexivity.
  - unfold host_unload. cbn [flat_map]. fold (host_unload l). destruct (gs_type s <? 2).
    + cbn [app run]. destruct (exec h (OUnload 0 (gs_type s) (gs_receiver s))) as [[h1 x]| |]; cbn [obind fst snd] in *; try discriminate.
      destruct x; try discriminate. destruct (push_all (ord 0) b l0) as [b1| |]; cbn [obind] in H; try discriminate.
      destruct (IH _ _ _ _ _ H) as [tr ->]. cbn [obind fst snd]. eauto.
    + cbn [app]. exact (IH _ _ _ _ _ H).
Qed.
Lemma receive_host_ok ord b subs L h b' h' : (forall k, fair_call (ord k)) -> gok b (subs, L) ->
  let new := peek h subs in
  Forall (fun m => (N.of_nat (payload m) <= limit)%N) new -> (N.of_nat (length L + length new) <= limit)%N ->
  receive_messages_from_host ord b h = Ret (b', h') ->
  gok b' (subs, L ++ map as_gpu new) /\ exists tr, run h (OReceiveAll 0 :: host_unload subs) = Ret (h', tr).
Proof.
  intros O G new Fp Ln H. unfold receive_messages_from_host in H.
  destruct (exec h (OReceiveAll 0)) as [[h1 x]| |] eqn:E; cbn [obind fst] in H; try discriminate.
  destruct (vok_contains _ _ (go_subs _ _ G)) as [Ts _]. cbn [fst] in Ts. rewrite Ts in H. cbn [obind] in H.
  destruct (receive_loop_host _ _ _ _ _ _ H) as [tr R].
  assert (P : new = unloaded_msgs tr).
  { unfold new, peek. cbn [run]. rewrite E. cbn [obind fst snd]. rewrite R. cbn [obind fst snd flat_map].
    cbn [exec] in E. unfold on_ep in E. destruct (ep_find 0 h) as [e|]; [|discriminate]. destruct (receive_all e) as [e' n]. cbn [obind] in E.
    injection E as _ <-. reflexivity. }
  rewrite P in *. change (host_unload subs) with (unload_ops subs) in R.
  destruct (receive_loop_ok subs ord b (subs, L) h1 h' tr O G R Fp Ln) as [b1 [E1 [G1 _]]].
  rewrite E1 in H. injection H as <-. split; [exact G1|]. cbn [run]. rewrite E. cbn [obind fst snd].
  change (unload_ops subs) with (host_unload subs) in R. rewrite R. cbn [obind fst snd]. eexists. reflexivity.
Qed.
Lemma send_host_ok ord step b st h h' : fair_call ord -> gok b st ->
  Forall (fun m => (N.of_nat (payload (as_host m)) <= limit)%N) (snd st) ->
  send_messages_to_host ord step b h = Ret h' -> exists tr, run h (to_send step (snd st)) = Ret (h', tr).
Proof.
  intros O G F H. unfold send_messages_to_host in H. destruct (vok_contains _ _ (go_msgs _ _ G)) as [T _]. rewrite T in H. cbn [obind] in H.
  rewrite send_to_host_ok in H by assumption. unfold to_send. destruct (run h _) as [[h1 tr]| |]; cbn [obind fst] in H; try discriminate.
  injection H as <-. eauto.
Qed.
Lemma run_join h o1 o2 h1 t1 h2 t2 : run h o1 = Ret (h1, t1) -> run h1 o2 = Ret (h2, t2) -> exists t, run h (o1 ++ o2) = Ret (h2, t).
Proof.
  revert h t1. induction o1 as [|o o1 IH]; intros h t1 R1 R2; cbn [run app] in *.
  - injection R1 as -> _. eauto.
  - destruct (exec h o) as [[h0 x]| |]; cbn [obind fst snd] in *; try discriminate.
    destruct (run h0 o1) as [[hx tx]| |] eqn:E; cbn [obind fst snd] in R1; try discriminate. injection R1 as -> _.
    destruct (IH h0 tx E R2) as [t ->]. cbn [obind fst snd]. eauto.
Qed.
Lemma exec_run h o h' x : exec h o = Ret (h', x) -> exists t, run h [o] = Ret (h', t).
Proof. intros E. cbn [run]. rewrite E. cbn [obind fst snd]. eauto. Qed.

(** ** A step *)
Lemma thread_payload sz u step bus idx ns ns' m : 1 <= sz ->
  Forall (fun m => (N.of_nat (payload (as_host m)) <= limit)%N) bus ->
  g_population_thread sz u step (map Obj bus) (length bus) idx ns = Ret (ns', m) ->
  (exists r, g_population u step (messages_at bus idx) ns = Ret (ns', r) /\ m = match r with Some x => x | None => g_default end) /\
  (N.of_nat (payload (as_host m)) <= limit)%N.
Proof.
  intros Z F H. destruct (Nat.leb_spec (length (messages_at bus idx)) 2) as [L|L].
  2: { rewrite Props_GpuNet.c100_three_messages_refuted in H by assumption. discriminate. }
  rewrite Props_GpuNet.c100_messages in H by assumption.
  destruct (g_population u step (messages_at bus idx) ns) as [[n1 r]| |] eqn:E; cbn [obind fst snd] in H; try discriminate.
  injection H as <- <-. split; [exists r; auto|].
  destruct r as [x|]; [|cbn; change limit with 4294967296%N; lia].
  destruct (Props_GpuNet.c100_first_neuron_refuted _ _ _ _ _ _ E) as [k [is [-> [Fi Hk]]]]. cbn [as_host payload]. rewrite repeat_length.
  assert (exists s t e p q f, In (GImpact s t e p q f is) (messages_at bus idx)) as [s [t [e [p [q [f I]]]]]].
  { clear - Fi. induction (messages_at bus idx) as [|m l IH]; cbn [first_impacts] in Fi; [discriminate|]. destruct m as [|s t e p q f l0].
    - destruct (IH Fi) as [s [t [e [p [q [f I]]]]]]. exists s, t, e, p, q, f. now right.
    - injection Fi as ->. exists s, t, e, p, q, f. now left. }
  unfold messages_at in I. apply in_flat_map in I. destruct I as [i [_ I]]. destruct (nth_error bus i) as [m|] eqn:N; [|destruct I].
  destruct I as [->|[]]. apply nth_error_In in N. rewrite Forall_forall in F. specialize (F _ N). cbn [as_host payload] in F. lia.
Qed.

Definition pop_fact (sz : nat) (subs : list gsub) (step : N) (d d' : gdev) (r : grec) : Prop :=
  length (gd_pops d') = length (gd_pops d) /\ length (gr_pout r) = length (gd_pops d) /\ length (gr_pidx r) = length (gd_pops d) /\
  forall i u ns, nth_error (gd_pops d) i = Some (u, ns) -> exists idx ns' m,
    nth_error (gr_pidx r) i = Some idx /\ places subs (for_pops r) u 1 idx /\
    g_population u step (messages_at (for_pops r) idx) ns = Ret (ns', m) /\
    nth_error (gd_pops d') i = Some (u, ns') /\ nth_error (gr_pout r) i = Some (match m with Some x => x | None => g_default end).
Definition proj_fact (sz : nat) (subs : list gsub) (step : N) (d d' : gdev) (r : grec) : Prop :=
  length (gd_projs d') = length (gd_projs d) /\ length (gr_out r) = length (gd_projs d) /\ length (gr_qidx r) = length (gd_projs d) /\
  forall i p, nth_error (gd_projs d) i = Some p -> exists idx p1 p2 ord w out,
    nth_error (gr_qidx r) i = Some idx /\ places subs (for_projs r) (gp_uid p) 0 idx /\
    g_calculate sz p step (map Obj (for_projs r)) (length (for_projs r)) idx = Ret p1 /\
    any_orders ord /\ g_route sz ord p1 step = Ret (p2, w) /\ to_std w = Ret out /\
    nth_error (gd_projs d') i = Some p2 /\ nth_error (gr_out r) i = Some out /\
    Forall (own p) out /\ Forall (fun m => g_time m = step) out /\
    gp_uid p2 = gp_uid p /\ gp_pre p2 = gp_pre p /\ gp_post p2 = gp_post p /\ gp_syn p2 = gp_syn p.
Definition good_dev (d : gdev) (subs : list gsub) (L : list gmsg) : Prop :=
  gok (gd_bus d) (subs, L) /\ Forall (fun p => exists L, pinv p L) (gd_projs d).

Lemma step_ok sz o order d h d' h' r subs L b hs : 1 <= sz -> (forall a b c e, any_orders (o a b c e)) ->
  (if N.eqb (gd_step d) 0 then sync_loop (o 0 0) order (gd_bus d) h else Ret (gd_bus d, h)) = Ret (b, hs) ->
  gok b (subs, L) -> Forall (fun p => exists L, pinv p L) (gd_projs d) ->
  (N.of_nat (length subs) <= limit)%N -> (N.of_nat (length (gd_projs d)) <= limit)%N -> small_step (length (gd_pops d)) r ->
  g_step sz o order d h = Ret (d', h', r) ->
  gr_bus r = L /\ pop_fact sz subs (gd_step d) d d' r /\ proj_fact sz subs (gd_step d) d d' r /\
  good_dev d' subs (concat (gr_out r)) /\ gd_step d' = add64 (gd_step d) 1 /\
  exists tr, run hs (step_ops subs (gd_step d) r) = Ret (h', tr).
Proof.
  intros Z O Sy G Pj Ls Lp [B1 [B2 B3]] H. unfold g_step in H. rewrite Sy in H. cbn [obind fst snd] in H.
  set (step := gd_step d) in *.
  destruct (send_messages_to_host (o 1 0 0) step b hs) as [h1| |] eqn:E1; cbn [obind] in H; try discriminate.
  destruct (exec h1 ORoute) as [[h2 x2]| |] eqn:E2; cbn [obind fst snd] in H; try discriminate.
  destruct (vok_contains _ _ (go_msgs _ _ G)) as [Tm _]. destruct (vok_contains _ _ (go_subs _ _ G)) as [Ts _]. cbn [fst snd] in Tm, Ts.
  rewrite Tm, Ts in H. cbn [obind] in H.
  destruct (receive_messages_from_host (o 2 0) b h2) as [[b3 h3]| |] eqn:E3; cbn [obind fst snd] in H; try discriminate.
  destruct (g_populations sz (o 3) step b3 (gd_pops d)) as [[[[b4 ps] outs] pidx]| |] eqn:E4; cbn [obind fst snd] in H; try discriminate.
  destruct (exec h3 ORoute) as [[h4 x4]| |] eqn:E5; cbn [obind fst snd] in H; try discriminate.
  destruct (g_projections sz (o 4) step b4 (gd_projs d)) as [[q qidx]| |] eqn:E6; cbn [obind fst snd] in H; try discriminate.
  destruct (send_messages_to_host (o 1 1 0) step b4 h4) as [h5| |] eqn:E7; cbn [obind fst snd] in H; try discriminate.
  destruct (exec h5 ORoute) as [[h6 x6]| |] eqn:E8; cbn [obind fst snd] in H; try discriminate.
  destruct (clear_bus (o 5 0 0 0) b4) as [b5| |] eqn:E9; cbn [obind fst snd] in H; try discriminate.
  destruct (g_routes sz (o 6 0) step b5 q) as [[[b6 q2] ro]| |] eqn:E10; cbn [obind fst snd] in H; try discriminate.
  injection H as <- <- <-.
  unfold pop_fact, proj_fact, good_dev, step_ops, for_projs, for_pops in *. cbn [gd_bus gd_pops gd_projs gd_step gr_bus gr_host gr_pidx gr_pout gr_qidx gr_out] in *.
  rewrite app_length, map_length in B1. apply Forall_app in B2. destruct B2 as [B2a B2b]. apply (proj1 (Forall_map _ _ _)) in B2b.
  assert (B2c : Forall (fun m => (N.of_nat (payload m) <= limit)%N) (peek h2 subs)).
  { eapply Forall_impl; [|exact B2b]. intros m. cbn. now destruct m. }
  destruct (send_host_ok (o 1 0 0) step b (subs, L) hs h1 (fun k => O 1 0 0 k) G B2a E1) as [t1 R1]. cbn [snd] in R1.
  destruct (receive_host_ok (o 2 0) b subs L h2 b3 h3 (fun k j => O 2 0 k j) G B2c ltac:(lia) E3) as [G3 [t3 R3]].
  assert (B4 : (N.of_nat (length (L ++ map as_gpu (peek h2 subs)) + length (gd_pops d)) <= limit)%N) by (rewrite app_length, map_length; lia).
  destruct (populations_ok sz (o 3) step b3 _ _ _ _ _ _ (fun a c e => O 3 a c e) G3 Ls B4 E4) as [G4 [Lq1 [Lq2 [Lq3 Hp]]]]; cbn [fst snd] in *.
  set (bus := L ++ map as_gpu (peek h2 subs)) in *.
  assert (Fb : Forall (fun m => (N.of_nat (payload (as_host m)) <= limit)%N) bus).
  { unfold bus. apply Forall_app. split; [exact B2a|]. apply Forall_map. exact B2b. }
  assert (Lb : length bus = length L + length (peek h2 subs)) by (unfold bus; now rewrite app_length, map_length).
  assert (B5 : (N.of_nat (length (bus ++ outs)) <= limit)%N) by (rewrite app_length; lia).
  destruct (projections_ok sz (o 4) step b4 _ _ _ _ (fun a c e => O 4 a c e) G4 Ls B5 Lp E6) as [Lr1 [Lr2 Hq]]; cbn [fst snd] in *.
  assert (Fo : Forall (fun m => (N.of_nat (payload (as_host m)) <= limit)%N) outs).
  { apply Forall_forall. intros m Hm. apply In_nth_error in Hm. destruct Hm as [i Hi].
    destruct (nth_error (gd_pops d) i) as [[u ns]|] eqn:Np.
    - destruct (Hp i u ns Np) as [idx [ns' [m' [_ [_ [Ht [_ Ho]]]]]]]. assert (m' = m) by congruence. subst m'.
      exact (proj2 (thread_payload sz u step bus idx ns ns' m Z Fb Ht)).
    - apply nth_error_None in Np. assert (i < length outs) by (apply nth_error_Some; congruence). lia. }
  destruct (send_host_ok (o 1 1 0) step b4 _ h4 h5 (fun k => O 1 1 0 k) G4 ltac:(cbn [snd]; apply Forall_app; split; assumption) E7) as [t7 R7]. cbn [snd] in R7.
  destruct (clear_ok (o 5 0 0 0) b4 _ (O 5 0 0 0) G4) as [b5' [E9' [G5 _]]]; [cbn [snd]; rewrite app_length; lia|].
  rewrite E9 in E9'. injection E9' as <-. cbn [fst] in G5.
  assert (Pq : Forall (fun p => exists L, pinv p L) q).
  { apply Forall_forall. intros p Hi. apply In_nth_error in Hi. destruct Hi as [i Hi].
    destruct (nth_error (gd_projs d) i) as [p0|] eqn:Np.
    - destruct (Hq i p0 Np) as [idx [p' [_ [_ [Hc Hn]]]]]. assert (p' = p) by congruence. subst p'.
      rewrite Forall_forall in Pj. destruct (Pj p0 (nth_error_In _ _ Np)) as [L0 P0].
      destruct (calculate_pinv sz Z p0 step _ idx p L0 P0 Hc) as [_ [_ [_ [_ X]]]]. exact X.
    - apply nth_error_None in Np. assert (i < length q) by (apply nth_error_Some; congruence). lia. }
  destruct (routes_ok sz step Z q (o 6 0) b5 _ b6 q2 ro (fun a c => O 6 0 a c) G5 Pq) as [G6 [Ls1 [Ls2 Hr]]]; [cbn [snd length]; lia|exact E10|].
  cbn [fst snd app] in *. split; [reflexivity|]. split; [|split; [|split; [|split; [reflexivity|]]]].
  - repeat split; auto. intros i u ns Hi. destruct (Hp i u ns Hi) as [idx [ns' [m [A1 [A2 [A3 [A4 A5]]]]]]].
    destruct (thread_payload sz u step bus idx ns ns' m Z Fb A3) as [[rr [A6 ->]] _]. exists idx, ns', rr. auto.
  - split; [congruence|]. split; [congruence|]. split; [exact Lr2|]. intros i p Hi. destruct (Hq i p Hi) as [idx [p1 [A1 [A2 [A3 A4]]]]].
    destruct (Hr i p1 A4) as [p2 [w [out [ord [C1 [C2 [C3 [C4 [C5 [C6 [C7 [C8 [C9 [C10 [C11 _]]]]]]]]]]]]]]].
    rewrite Forall_forall in Pj. destruct (Pj p (nth_error_In _ _ Hi)) as [L0 P0].
    destruct (calculate_pinv sz Z p step _ idx p1 L0 P0 A3) as [D1 [D2 [D3 [D4 _]]]].
    exists idx, p1, p2, ord, w, out. unfold own in *. rewrite D1, D2, D3 in C6. repeat split; try assumption; try congruence; try apply A2.
  - split; [exact G6|]. apply Forall_forall. intros p Hi. apply In_nth_error in Hi. destruct Hi as [i Hi].
    destruct (nth_error q i) as [p0|] eqn:Np.
    + destruct (Hr i p0 Np) as [p2 [w [out [ord [_ [_ [_ [C4 [_ [_ [_ [_ [_ [_ [_ X]]]]]]]]]]]]]]]. assert (p2 = p) by congruence. subst p2. exact X.
    + apply nth_error_None in Np. assert (i < length q2) by (apply nth_error_Some; congruence). lia.
  - destruct (exec_run _ _ _ _ E2) as [t2 R2]. destruct (exec_run _ _ _ _ E5) as [t5 R5]. destruct (exec_run _ _ _ _ E8) as [t8 R8].
    destruct (run_join _ _ _ _ _ _ _ R7 R8) as [u1 S1]. destruct (run_join _ _ _ _ _ _ _ R5 S1) as [u2 S2].
    destruct (run_join _ _ _ _ _ _ _ R3 S2) as [u3 S3]. destruct (run_join _ _ _ _ _ _ _ R2 S3) as [u4 S4].
    destruct (run_join _ _ _ _ _ _ _ R1 S4) as [u5 S5]. exists u5. exact S5.
Qed.
