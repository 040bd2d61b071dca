(** The message bus of the CUDA backend: C96 - C98. *)
From Verif Require Import Base ListLemmas Messaging_Model Gpu_Model Gpu_Spec Gpu_Proofs Gpu_Proofs2 Gpu_Proofs3
  GpuBus_Model GpuBus_Spec GpuBus_Proofs GpuBus_Proofs2 Props_Gpu.

(** ** C96: the bus behaves like two lists, for every history and every order of threads *)
Theorem c96_history : forall ops, Forall (fun c => fair_call (fst c)) ops -> moderate (map snd ops) ->
  match gspecs ([], []) (map snd ops) with
  | Some st => exists b xs, grun gbus_init ops = Ret (b, xs) /\ holds b st /\ ganswers ([], []) (map snd ops) xs
  | None => grun gbus_init ops = UB
  end.
Proof.
  intros ops F M. pose proof (grun_ok ops gbus_init ([], []) 0 F gok_init bounded_init M) as R.
  destruct (gspecs ([], []) (map snd ops)) as [st|]; [|assumption].
  destruct R as [b [xs [R [G A]]]]. exists b, xs. repeat split; try assumption; try apply (vok_contains _ _ (go_subs _ _ G));
    apply (vok_contains _ _ (go_msgs _ _ G)).
Qed.

(** The same in terms of the calls, as long as nobody unsubscribes: no call is
    undefined, every receiver and type has at most one subscription, its senders
    are all those ever named for it, each once, and the messages are those sent
    since the bus was cleared. *)
Definition stays (o : gop) : Prop := match o with GUnsubscribe _ _ => False | _ => True end.
Definition named (ops : list gop) (r : uid) (ty : nat) (u : uid) : Prop :=
  exists ss, In (GSubscribe r ty ss) ops /\ In u ss.
Fixpoint since_clear (ops : list gop) (l : list gmsg) : list gmsg :=
  match ops with
  | [] => l
  | GSend m :: t => since_clear t (l ++ [m])
  | GBatch ms :: t => since_clear t (l ++ ms)
  | GClear :: t => since_clear t []
  | _ :: t => since_clear t l
  end.
Definition listens (subs : list gsub) (r : uid) (ty : nat) (u : uid) : Prop :=
  exists s, In s subs /\ gs_receiver s = r /\ gs_type s = ty /\ In u (gs_senders s).

Lemma add_sub_listens r ty ss r' ty' u : forall l, NoDup (map gkey l) ->
  (listens (add_sub l r ty ss) r' ty' u <-> listens l r' ty' u \/ (r' = r /\ ty' = ty /\ In u ss)).
Proof.
  unfold listens. induction l as [|s l IH]; intros N; cbn [add_sub].
  - split.
    + intros [x [[<-|[]] [<- [<- H]]]]. cbn [gs_senders gs_receiver gs_type] in *. apply add_new_In in H.
      destruct H as [[]|H]. auto.
    + intros [[x [[] _]]|[-> [-> H]]]. eexists. split; [left; reflexivity|]. cbn [gs_senders gs_receiver gs_type].
      repeat split; auto. apply add_new_In. auto.
  - cbn [map] in N. apply NoDup_cons_iff in N. destruct N as [N1 N2]. specialize (IH N2).
    destruct (same_key r ty s) eqn:K.
    + apply same_key_iff in K. unfold gkey in K. injection K as Kt Kr. split.
      * intros [x [[<-|H] [<- [<- Hu]]]].
        -- cbn [gs_senders gs_receiver gs_type] in *. apply add_new_In in Hu. destruct Hu as [Hu|Hu]; [|auto].
           left. exists s. repeat split; auto. now left.
        -- left. exists x. repeat split; auto. now right.
      * intros [[x [[<-|H] [<- [<- Hu]]]]|[-> [-> Hu]]].
        -- eexists. split; [left; reflexivity|]. cbn [gs_senders gs_receiver gs_type]. repeat split; auto. apply add_new_In. auto.
        -- exists x. repeat split; auto. now right.
        -- eexists. split; [left; reflexivity|]. cbn [gs_senders gs_receiver gs_type]. repeat split; auto. apply add_new_In. auto.
    + split.
      * intros [x [[<-|H] R]].
        -- left. exists s. split; [now left|assumption].
        -- destruct (proj1 IH) as [[y [Hy R']]|R']; [exists x; auto| |auto].
           left. exists y. split; [now right|assumption].
      * intros [[x [[<-|H] R]]|R].
        -- exists s. split; [now left|assumption].
        -- destruct (proj2 IH) as [y [Hy R']]; [left; exists x; auto|]. exists y. split; [now right|assumption].
        -- destruct (proj2 IH) as [y [Hy R']]; [right; assumption|]. exists y. split; [now right|assumption].
Qed.

Lemma stays_specs : forall ops st, Forall stays ops -> NoDup (map gkey (fst st)) -> Forall (fun s => NoDup (gs_senders s)) (fst st) ->
  exists subs, gspecs st ops = Some (subs, since_clear ops (snd st)) /\ NoDup (map gkey subs) /\
    Forall (fun s => NoDup (gs_senders s)) subs /\
    forall r ty u, listens subs r ty u <-> listens (fst st) r ty u \/ named ops r ty u.
Proof.
  assert (Named : forall o ops r ty u, (forall ss, o <> GSubscribe r ty ss) -> (named (o :: ops) r ty u <-> named ops r ty u)).
  { intros o ops r ty u H. unfold named. split; intros [ss [Hs Hu]]; exists ss; split; auto; [|now right].
    destruct Hs as [->|Hs]; [now destruct (H ss)|assumption]. }
  induction ops as [|o ops IH]; intros st F N S.
  - exists (fst st). cbn [gspecs since_clear]. rewrite <- surjective_pairing. repeat split; auto.
    intros [H|[ss [[] _]]]. assumption.
  - apply Forall_cons_iff in F. destruct F as [F1 F2].
    destruct o; cbn [stays] in F1; try contradiction; cbn [gspecs gspec since_clear].
    + destruct (IH (add_sub (fst st) r ty senders, snd st)) as [subs [R [N' [S' L]]]]; auto.
      * cbn [fst]. now apply add_sub_NoDup.
      * cbn [fst]. apply Forall_forall. intros x Hx. destruct (add_sub_In _ _ _ _ _ Hx) as [Hx'|[old [-> [->|[s [Hs <-]]]]]].
        -- rewrite Forall_forall in S. auto.
        -- cbn [gs_senders]. apply add_new_NoDup. constructor.
        -- cbn [gs_senders]. apply add_new_NoDup. rewrite Forall_forall in S. auto.
      * exists subs. cbn [fst snd] in *. repeat split; auto.
        -- intros H. apply L in H. rewrite add_sub_listens in H by assumption.
           destruct H as [[H|[-> [-> H]]]|[ss [H Hu]]]; [auto| |]; right.
           ++ exists senders. split; [now left|assumption].
           ++ exists ss. split; [now right|assumption].
        -- intros H. apply L. rewrite add_sub_listens by assumption. destruct H as [H|[ss [[E|H] Hu]]]; [auto| |].
           ++ injection E as -> -> ->. auto.
           ++ right. exists ss. auto.
    + destruct (IH st F2 N S) as [subs [R [N' [S' L]]]]. exists subs. repeat split; auto; intros X;
        [rewrite Named by discriminate; now apply L|apply L; rewrite Named in X by discriminate; assumption].
    + destruct (IH (fst st, snd st ++ [m]) F2 N S) as [subs [R [N' [S' L]]]]. exists subs. repeat split; auto; intros X;
        [rewrite Named by discriminate; now apply L|apply L; rewrite Named in X by discriminate; assumption].
    + destruct (IH (fst st, snd st ++ ms) F2 N S) as [subs [R [N' [S' L]]]]. exists subs. repeat split; auto; intros X;
        [rewrite Named by discriminate; now apply L|apply L; rewrite Named in X by discriminate; assumption].
    + destruct (IH (fst st, []) F2 N S) as [subs [R [N' [S' L]]]]. exists subs. repeat split; auto; intros X;
        [rewrite Named by discriminate; now apply L|apply L; rewrite Named in X by discriminate; assumption].
    + destruct (IH st F2 N S) as [subs [R [N' [S' L]]]]. exists subs. repeat split; auto; intros X;
        [rewrite Named by discriminate; now apply L|apply L; rewrite Named in X by discriminate; assumption].
Qed.

Theorem c96_subscriptions : forall ops, Forall (fun c => fair_call (fst c)) ops -> moderate (map snd ops) ->
  Forall stays (map snd ops) ->
  exists b xs subs, grun gbus_init ops = Ret (b, xs) /\ holds b (subs, since_clear (map snd ops) []) /\
    NoDup (map (fun s => (gs_type s, gs_receiver s)) subs) /\ Forall (fun s => NoDup (gs_senders s)) subs /\
    forall r ty u, listens subs r ty u <-> named (map snd ops) r ty u.
Proof.
  intros ops F M S. destruct (stays_specs (map snd ops) ([], []) S ltac:(constructor) ltac:(constructor)) as [subs [R [N [D L]]]].
  pose proof (c96_history ops F M) as H. rewrite R in H. destruct H as [b [xs [Hr [Hb _]]]].
  exists b, xs, subs. cbn [snd fst] in *. repeat split; try apply Hb; auto.
  - intros X. apply L in X. destruct X as [[s [[] _]]|X]. assumption.
  - intros X. apply L. now right.
Qed.

(** [gspecs]/[ganswers] of a longer history. *)
Lemma ganswers_last : forall ops st o xs st', gspecs st ops = Some st' -> ganswers st (ops ++ [o]) xs ->
  exists ys x, xs = ys ++ [x] /\ ganswer st' o x.
Proof.
  induction ops as [|a ops IH]; intros st o xs st' H A; cbn [app gspecs ganswers] in *.
  - injection H as <-. destruct xs as [|x [|y xs]]; try (destruct A; fail).
    + exists [], x. split; [reflexivity|apply A].
    + exfalso. destruct A as [_ A]. destruct (gspec st o); exact A.
  - destruct xs as [|x xs]; [destruct A|]. destruct A as [_ A]. destruct (gspec st a) as [s1|]; [|discriminate].
    destruct (IH s1 o xs st' H A) as [ys [z [-> Z]]]. exists (x :: ys), z. split; [reflexivity|assumption].
Qed.
Lemma gspecs_app : forall ops st st' o, gspecs st ops = Some st' -> gspecs st (ops ++ [o]) = gspec st' o.
Proof.
  induction ops as [|a ops IH]; intros st st' o H; cbn [app gspecs] in *.
  - injection H as ->. destruct (gspec st' o); reflexivity.
  - destruct (gspec st a); [now apply IH|discriminate].
Qed.

(** ** C97: what a receiver reads *)
(** Each place of the bus once, exactly those that hold a message of the type
    from a sender named for this receiver; messages are not taken away by
    reading. *)
Theorem c97_unload : forall ops ord ty r, Forall (fun c => fair_call (fst c)) ops -> fair_call ord -> moderate (map snd ops) ->
  Forall stays (map snd ops) ->
  exists b xs l, grun gbus_init (ops ++ [(ord, GUnload ty r)]) = Ret (b, xs ++ [GIds l]) /\ NoDup l /\
    (forall i, In i l <-> exists m, nth_error (since_clear (map snd ops) []) i = Some m /\
                            g_type m = ty /\ named (map snd ops) r ty (g_sender m)) /\
    contains (g_msgs b) (since_clear (map snd ops) []).
Proof.
  intros ops ord ty r F O M S.
  destruct (stays_specs (map snd ops) ([], []) S ltac:(constructor) ltac:(constructor)) as [subs [R [N [D L]]]].
  assert (E : map snd (ops ++ [(ord, GUnload ty r)]) = map snd ops ++ [GUnload ty r]) by now rewrite map_app.
  pose proof (c96_history (ops ++ [(ord, GUnload ty r)])) as H. rewrite E in H. rewrite (gspecs_app _ _ _ _ R) in H.
  cbn [gspec] in H. destruct H as [b [xs [Hr [Hb A]]]].
  - apply Forall_app. split; [assumption|]. constructor; [exact O|constructor].
  - unfold moderate in *. rewrite map_app, list_sum_app. cbn [map weight list_sum fold_right]. rewrite !Nat.add_0_r. assumption.
  - destruct (ganswers_last _ _ _ _ _ R A) as [ys [x [-> [l [-> [Nl I]]]]]].
    exists b, ys, l. repeat split; try assumption; try apply Hb.
    + intros X. apply I in X. destruct X as [m [Hm [T L']]]. exists m. repeat split; auto.
      destruct (proj1 (L r ty (g_sender m)) L') as [[s [[] _]]|Y]. assumption.
    + intros [m [Hm [T Hn]]]. apply I. exists m. split; [exact Hm|]. split; [assumption|]. apply L. now right.
Qed.

(** Removing a receiver does nothing: it still reads its messages. *)
Theorem c97_remove_receiver_refuted : forall ops ord ord' ty r m,
  Forall (fun c => fair_call (fst c)) ops -> fair_call ord -> moderate (map snd ops) -> Forall stays (map snd ops) ->
  In m (since_clear (map snd ops) []) -> g_type m = ty -> named (map snd ops) r ty (g_sender m) ->
  exists b xs l, grun gbus_init (ops ++ [(ord', GRemoveReceiver r)] ++ [(ord, GUnload ty r)]) = Ret (b, xs ++ [GUnit; GIds l]) /\ l <> [].
Proof.
  intros ops ord ord' ty r m F O M S Hm T Hn.
  assert (X : forall o2 b0, (fun a => grun b0 (ops ++ a)) ((ord', GRemoveReceiver r) :: o2) =
              obind (grun b0 ops) (fun y => obind (grun (fst y) o2) (fun z => Ret (fst z, snd y ++ GUnit :: snd z)))).
  { clear. intros o2. induction ops as [|[od o] ops IH]; intros b0; cbn [app grun].
    - cbn [gexec obind fst snd]. unfold remove_receiver_gpu. destruct (grun b0 o2) as [[]| |]; reflexivity.
    - destruct (gexec od b0 o) as [[b1 x]| |]; cbn [obind fst snd]; try reflexivity. rewrite IH.
      destruct (grun b1 ops) as [[b2 xs]| |]; cbn [obind fst snd]; try reflexivity.
      destruct (grun b2 o2) as [[b3 ys]| |]; reflexivity. }
  assert (Y : forall o2 b0, grun b0 (ops ++ o2) =
              obind (grun b0 ops) (fun y => obind (grun (fst y) o2) (fun z => Ret (fst z, snd y ++ snd z)))).
  { clear. intros o2. induction ops as [|[od o] ops IH]; intros b0; cbn [app grun].
    - cbn [obind fst snd]. destruct (grun b0 o2) as [[]| |]; reflexivity.
    - destruct (gexec od b0 o) as [[b1 x]| |]; cbn [obind fst snd]; try reflexivity. rewrite IH.
      destruct (grun b1 ops) as [[b2 xs]| |]; cbn [obind fst snd]; try reflexivity.
      destruct (grun b2 o2) as [[b3 ys]| |]; reflexivity. }
  destruct (c97_unload ops ord ty r F O M S) as [b [xs [l [R [_ [I _]]]]]].
  rewrite Y in R. cbn [app]. rewrite (X [(ord, GUnload ty r)]).
  destruct (grun gbus_init ops) as [[b1 ys]| |]; cbn [obind fst snd] in *; try discriminate.
  destruct (grun b1 _) as [[b2 zs]| |] eqn:E; cbn [obind fst snd] in *; try discriminate.
  cbn [grun] in E. destruct (gexec ord b1 (GUnload ty r)) as [[b3 z]| |]; cbn [obind fst snd] in E; try discriminate.
  injection E as -> <-. injection R as <- R. apply app_inj_tail in R. destruct R as [_ ->].
  exists b2, ys, l. split; [reflexivity|]. destruct (In_nth_error _ _ Hm) as [i Hi].
  assert (Hl : In i l) by (apply I; eauto). intros ->. destruct Hl.
Qed.

(** Taking back a subscription is defined for the youngest one only. *)
Theorem c97_unsubscribe_refuted : forall ops ord r1 ty1 r2 ty2 ss,
  Forall (fun c => fair_call (fst c)) ops -> fair_call ord -> moderate (map snd ops) ->
  map snd ops = [GSubscribe r1 ty1 ss; GSubscribe r2 ty2 ss] -> (r1, ty1) <> (r2, ty2) ->
  grun gbus_init (ops ++ [(ord, GUnsubscribe r1 ty1)]) = UB /\
  exists b xs, grun gbus_init (ops ++ [(ord, GUnsubscribe r2 ty2)]) = Ret (b, xs ++ [GBool true]).
Proof.
  intros ops ord r1 ty1 r2 ty2 ss F O M E D.
  assert (K : same_key r2 ty2 (mkGSub r1 ty1 (add_new [] ss)) = false).
  { destruct (same_key r2 ty2 _) eqn:K; [|reflexivity]. apply same_key_iff in K. unfold gkey in K. cbn in K. congruence. }
  assert (K1 : forall r ty l, same_key r ty (mkGSub r ty l) = true) by (intros; apply same_key_iff; reflexivity).
  assert (Sp : gspecs ([], []) (map snd ops) = Some ([mkGSub r1 ty1 (add_new [] ss); mkGSub r2 ty2 (add_new [] ss)], [])).
  { rewrite E. cbn [gspecs gspec fst snd add_sub]. rewrite K. reflexivity. }
  assert (Fa : forall o, Forall (fun c => fair_call (fst c)) (ops ++ [(ord, o)])).
  { intros o. apply Forall_app. split; [assumption|]. constructor; [exact O|constructor]. }
  assert (Ma : forall r ty, moderate (map snd (ops ++ [(ord, GUnsubscribe r ty)]))).
  { intros r ty. unfold moderate in *. rewrite !map_app, list_sum_app. cbn [map snd weight list_sum fold_right]. rewrite !Nat.add_0_r. assumption. }
  split.
  - pose proof (c96_history _ (Fa (GUnsubscribe r1 ty1)) (Ma r1 ty1)) as H. rewrite map_app in H. cbn [map snd] in H.
    rewrite (gspecs_app _ _ _ _ Sp) in H. cbn [gspec fst snd drop_sub option_map] in H. rewrite K1 in H. exact H.
  - pose proof (c96_history _ (Fa (GUnsubscribe r2 ty2)) (Ma r2 ty2)) as H. rewrite map_app in H. cbn [map snd] in H.
    rewrite (gspecs_app _ _ _ _ Sp) in H. cbn [gspec fst snd drop_sub option_map] in H. rewrite K, K1 in H. cbn [option_map] in H.
    destruct H as [b [xs [Hr [_ A]]]]. destruct (ganswers_last _ _ _ _ _ Sp A) as [ys [x [-> X]]].
    cbn [ganswer fst existsb] in X. rewrite K, K1 in X. subst x. exists b, ys. exact Hr.
Qed.

(** A sender can be taken out of a subscription. *)
Fixpoint drop_first (u : uid) (l : list uid) : list uid :=
  match l with [] => [] | a :: t => if N.eqb a u then t else a :: drop_first u t end.
Lemma remove_from_ok ord s u : any_orders ord -> (N.of_nat (length (gs_senders s)) <= limit)%N -> forall n i,
  i + n = length (gs_senders s) -> ~ In u (firstn i (gs_senders s)) ->
  gs_remove_from ord s u i n =
    if mem u (skipn i (gs_senders s)) then
      Ret (mkGSub (gs_receiver s) (gs_type s)
             (firstn i (gs_senders s) ++ drop_first u (skipn i (gs_senders s))), true)
    else Ret (s, false).
Proof.
  intros O L. induction n as [|n IH]; intros i H Ni.
  - cbn [gs_remove_from]. rewrite skipn_all2 by lia. reflexivity.
  - cbn [gs_remove_from]. destruct (nth_error (gs_senders s) i) as [v|] eqn:E; [|apply nth_error_None in E; lia].
    assert (Sk : skipn i (gs_senders s) = v :: skipn (S i) (gs_senders s)).
    { clear - E. revert i E. induction (gs_senders s) as [|a l IH]; intros [|i] E; try discriminate.
      - injection E as ->. reflexivity.
      - cbn [skipn nth_error] in *. now rewrite (IH i E). }
    assert (Fn : firstn (S i) (gs_senders s) = firstn i (gs_senders s) ++ [v]).
    { clear - E. revert i E. induction (gs_senders s) as [|a l IH]; intros [|i] E; try discriminate.
      - injection E as ->. reflexivity.
      - cbn [nth_error] in E. cbn [firstn app]. f_equal. now apply IH. }
    destruct (N.eqb_spec v u) as [->|Hv].
    + destruct (from_std_ok (gs_senders s)) as [w [-> V]]. cbn [obind].
      destruct (h_erase_ok (mkElem true 0%N (fun x => x) N.eqb) ord w _ i (i + 1) O V L (or_introl eq_refl)) as [w' [-> V']].
      cbn [obind]. destruct (vok_contains _ _ V') as [-> _]. cbn [obind list_op].
      rewrite Sk. cbn [existsb drop_first]. unfold mem. cbn [existsb]. rewrite N.eqb_refl. cbn [orb].
      assert (Hi : i <? @length N (gs_senders s) = true) by (apply Nat.ltb_lt; change (i < @length uid (gs_senders s)); lia).
      assert (Hj : i <? i + 1 = true) by (apply Nat.ltb_lt; lia). rewrite Hi, Hj. cbn [andb].
      replace (i + 1) with (S i) by lia. reflexivity.
    + rewrite IH; [|lia|].
      * rewrite Sk, Fn. unfold mem. cbn [existsb drop_first]. destruct (N.eqb_spec u v) as [->|]; [congruence|]. cbn [orb].
        destruct (N.eqb_spec v u) as [|]; [congruence|]. now rewrite <- app_assoc.
      * rewrite Fn. intros X. apply in_app_or in X. destruct X as [X|[X|[]]]; [auto|congruence].
Qed.
Theorem c97_remove_sender : forall ord s u, any_orders ord -> (N.of_nat (length (gs_senders s)) <= limit)%N -> NoDup (gs_senders s) ->
  exists l, gs_remove ord s u = Ret (mkGSub (gs_receiver s) (gs_type s) l, mem u (gs_senders s)) /\
    NoDup l /\ forall v, In v l <-> In v (gs_senders s) /\ v <> u.
Proof.
  intros ord s u O L N. unfold gs_remove. rewrite remove_from_ok by (auto; lia). cbn [skipn firstn app].
  assert (R : forall l, NoDup l -> NoDup (drop_first u l) /\ forall v, In v (drop_first u l) <-> In v l /\ v <> u).
  { clear. induction l as [|a l IH]; intros N; cbn [drop_first]; [split; [constructor|]; intros v; cbn; tauto|].
    apply NoDup_cons_iff in N. destruct N as [N1 N2]. destruct (N.eqb_spec a u) as [->|H].
    - split; [assumption|]. intros v. cbn [In]. split; [|intros [[->|X] Y]; [congruence|assumption]].
      intros X. split; [auto|]. intros ->. auto.
    - destruct (IH N2) as [D I]. split.
      + constructor; [|assumption]. intros X. apply I in X. tauto.
      + intros v. cbn [In]. rewrite I. split; [intros [->|X]; tauto|tauto]. }
  destruct (R _ N) as [D I]. destruct (mem u (gs_senders s)) eqn:E.
  - eexists. split; [reflexivity|]. auto.
  - exists (gs_senders s). split; [destruct s; reflexivity|]. split; [assumption|].
    intros v. split; [|tauto]. intros X. split; [assumption|]. intros ->. apply ListLemmas.mem_In in X. congruence.
Qed.

(** ** C98: exchange with the host *)
(** A message that goes to the device and back is the same message. *)
Theorem c98_round_trip : forall ord ord' m, any_orders ord -> any_orders ord' -> (N.of_nat (payload m) <= limit)%N ->
  exists g, make_gpu ord m = Ret g /\ g_external g = true /\ make_host ord' g = Ret m /\
    g_sender g = (match m with SpikeMsg s _ _ | ImpactMsg s _ _ _ _ _ => s end) /\
    g_time g = (match m with SpikeMsg _ t _ | ImpactMsg _ t _ _ _ _ => t end) /\
    g_type g = (match m with SpikeMsg _ _ _ => 0 | ImpactMsg _ _ _ _ _ _ => 1 end).
Proof.
  intros ord ord' m O O' L. exists (as_gpu m). split; [now apply make_gpu_ok|]. split; [now destruct m|].
  assert (E : as_host (as_gpu m) = m) by now destruct m. split; [|now destruct m].
  rewrite make_host_ok; [now rewrite E|assumption|now rewrite E].
Qed.
(** To the host go, in their order, the device's own messages of this step and of
    the step before, and no others. *)
Theorem c98_to_host : forall ord step b st h, fair_call ord -> holds b st ->
  Forall (fun g => (N.of_nat (payload (as_host g)) <= limit)%N) (snd st) ->
  send_messages_to_host ord step b h =
  obind (run h (map (fun g => OSend 0 (as_host g)) (filter (for_host step) (snd st)))) (fun x => Ret (fst x)).
Proof.
  intros ord step b st h O [_ [T _]] S. unfold send_messages_to_host. rewrite T. cbn [obind]. now apply send_to_host_ok.
Qed.
(** From the host come, for one subscription of the device after the other, the
    messages the host's endpoint holds for it; all of them are marked and never go
    back. *)
Theorem c98_from_host : forall ops ord h h1 x h' tr, Forall (fun c => fair_call (fst c)) ops -> (forall k, fair_call (ord k)) ->
  moderate (map snd ops) -> forall b xs st, grun gbus_init ops = Ret (b, xs) -> gspecs ([], []) (map snd ops) = Some st ->
  exec h (OReceiveAll 0) = Ret (h1, x) ->
  run h1 (flat_map (fun s => if gs_type s <? 2 then [OUnload 0 (gs_type s) (gs_receiver s)] else []) (fst st)) = Ret (h', tr) ->
  Forall (fun m => (N.of_nat (payload m) <= limit)%N) (unloaded_msgs tr) ->
  (N.of_nat (length (snd st) + length (unloaded_msgs tr)) <= limit)%N ->
  exists b', receive_messages_from_host ord b h = Ret (b', h') /\
    holds b' (fst st, snd st ++ map as_gpu (unloaded_msgs tr)) /\
    Forall (fun g => forall step, for_host step g = false) (map as_gpu (unloaded_msgs tr)).
Proof.
  intros ops ord h h1 x h' tr F O M b xs st R Sp E Rh S L.
  pose proof (grun_ok ops gbus_init ([], []) 0 F gok_init bounded_init M) as G. rewrite Sp in G.
  destruct G as [b0 [ys [R0 [G _]]]]. rewrite R in R0. injection R0 as <- <-.
  unfold receive_messages_from_host. rewrite E. cbn [obind fst].
  destruct (vok_contains _ _ (go_subs _ _ G)) as [-> _]. cbn [obind].
  destruct (receive_loop_ok (fst st) ord b st h1 h' tr O G Rh S L) as [b' [-> [G' _]]].
  exists b'. split; [reflexivity|]. split.
  - split; [apply (vok_contains _ _ (go_subs _ _ G'))|apply (vok_contains _ _ (go_msgs _ _ G'))].
  - apply Forall_forall. intros g Hg. apply in_map_iff in Hg. destruct Hg as [m [<- _]]. intros step. now destruct m.
Qed.
(** The first step copies the subscriptions of the host's endpoint, in whatever
    order they are visited, and leaves the messages alone. *)
Theorem c98_sync : forall ops ord order h h' tr, Forall (fun c => fair_call (fst c)) ops -> (forall k, fair_call (ord k)) ->
  forall b xs st, grun gbus_init ops = Ret (b, xs) -> gspecs ([], []) (map snd ops) = Some st ->
  (N.of_nat (list_sum (map weight (map snd ops)) + list_sum (map (fun x : key * sub => (1 + length (s_senders (snd x)))%nat) order))%nat <= limit)%N ->
  Forall (fun x => fst (fst x) < 2) order ->
  run h (map (fun x => OSubscribe 0 (fst (fst x)) (snd (fst x)) (s_senders (snd x))) order) = Ret (h', tr) ->
  exists b' subs, sync_loop ord order b h = Ret (b', h') /\ holds b' (subs, snd st) /\
    NoDup (map (fun s => (gs_type s, gs_receiver s)) subs) /\
    forall r ty u, listens subs r ty u <->
      listens (fst st) r ty u \/ exists s, In ((ty, r), s) order /\ In u (s_senders s).
Proof.
  intros ops ord order h h' tr F O b xs st R Sp L T Rh.
  assert (Bd : forall ops st n st', bounded st n -> gspecs st ops = Some st' -> bounded st' (n + list_sum (map weight ops))).
  { clear. induction ops as [|o ops IH]; intros st n st' B H; cbn [gspecs] in H.
    - injection H as <-. cbn [map list_sum fold_right]. now rewrite Nat.add_0_r.
    - destruct (gspec st o) as [s1|] eqn:E; [|discriminate]. unfold list_sum. cbn [map fold_right]. rewrite Nat.add_assoc.
      apply (IH s1); [|assumption]. now apply (gspec_bounded st). }
  pose proof (grun_ok ops gbus_init ([], []) 0 F gok_init bounded_init ltac:(cbn [Nat.add]; lia)) as G. rewrite Sp in G.
  destruct G as [b0 [ys [R0 [G _]]]]. rewrite R in R0. injection R0 as <- <-.
  destruct (sync_ok order ord b st h _ h' tr O G (Bd _ _ _ _ bounded_init Sp) L T Rh) as [b' [E G']].
  exists b'. eexists. split; [exact E|]. split; [|split; [exact (go_keys _ _ G')|]].
  - split; [apply (vok_contains _ _ (go_subs _ _ G'))|apply (vok_contains _ _ (go_msgs _ _ G'))].
  - pose proof (go_keys _ _ G) as N. clear - N. destruct st as [subs ms]. cbn [fst] in *. revert subs N.
    induction order as [|[[ty0 r0] s0] order IH]; intros subs N r ty u; cbn [fold_left].
    + split; [auto|]. intros [H|[s [[] _]]]. assumption.
    + cbn [fst snd]. rewrite IH by now apply add_sub_NoDup. rewrite add_sub_listens by assumption. split.
      * intros [[H|[-> [-> H]]]|[s [H Hu]]]; [auto| |]; right; [exists s0|exists s]; split; auto; [now left|now right].
      * intros [H|[s [[H|H] Hu]]]; [auto| |]; [left; right|right; exists s; auto]. injection H as -> -> ->. auto.
Qed.

(** Two receivers on the device with the same sender on the host: the host's
    message is put on the device's bus once for each of them, and each of them
    then reads both copies.  (C01 promises one.) *)
Definition dup_ops : list ((nat -> orders) * gop) :=
  [((fun _ => in_turns), GSubscribe 11 0 [7%N]); ((fun _ => in_turns), GSubscribe 12 0 [7%N])].
Definition dup_host : outcome (bus * list (op * out)) :=
  run bus_init [OCreate; OCreate; OSubscribe 0 0 11%N [7%N]; OSubscribe 0 0 12%N [7%N];
                OSend 1 (SpikeMsg 7 3 [5%N]); ORoute].
Lemma any_fair : fair_call (fun _ => in_turns).
Proof. intros k. apply in_turns_any. Qed.
Lemma dup_fair : Forall (fun c => fair_call (fst c)) dup_ops.
Proof. repeat constructor; exact any_fair. Qed.
Theorem c98_once_refuted : exists h tr b xs b' h', dup_host = Ret (h, tr) /\ grun gbus_init dup_ops = Ret (b, xs) /\
  receive_messages_from_host (fun _ _ => in_turns) b h = Ret (b', h') /\
  to_std (g_msgs b') = Ret [GSpike 7 3 true [5%N]; GSpike 7 3 true [5%N]] /\
  exists l1 l2, unload_gpu (fun _ => in_turns) b' 0 11 = Ret l1 /\ unload_gpu (fun _ => in_turns) b' 0 12 = Ret l2 /\
    length l1 = 2 /\ length l2 = 2.
Proof.
  do 6 eexists. split; [vm_compute; reflexivity|]. split; [vm_compute; reflexivity|].
  split; [vm_compute; reflexivity|]. split; [vm_compute; reflexivity|].
  do 2 eexists. split; [vm_compute; reflexivity|]. split; [vm_compute; reflexivity|]. auto.
Qed.

(** ** A concrete case for the hypotheses of C96 - C98 *)
Definition bus_ops : list ((nat -> orders) * gop) :=
  map (fun o => ((fun _ => in_turns), o))
    [GSubscribe 11 0 [7; 8]%N; GSend (GSpike 9 1 false [0%N]); GClear; GSubscribe 12 1 [9%N]; GSubscribe 11 0 [8; 9]%N;
     GSend (GSpike 9 2 false [4%N]); GBatch [GImpact 9 2 false 1 2 true []; GSpike 6 2 false []; GSpike 7 2 false []]].
Example c96_case : Forall (fun c => fair_call (fst c)) bus_ops /\ moderate (map snd bus_ops) /\ Forall stays (map snd bus_ops) /\
  exists b xs l, grun gbus_init (bus_ops ++ [((fun _ => in_turns), GUnload 0 11)]) = Ret (b, xs ++ [GIds l]) /\ Permutation l [0; 3] /\
  xs = [GBool true; GUnit; GUnit; GBool true; GBool false; GUnit; GUnit].
Proof.
  split; [repeat constructor; exact any_fair|]. split; [vm_compute; discriminate|]. split; [repeat constructor|].
  eexists. exists [GBool true; GUnit; GUnit; GBool true; GBool false; GUnit; GUnit], [3; 0]. split; [vm_compute; reflexivity|].
  split; [apply perm_swap|reflexivity].
Qed.
Example c98_case : exists h tr h1 x h' tr', dup_host = Ret (h, tr) /\ exec h (OReceiveAll 0) = Ret (h1, x) /\
  run h1 (unload_ops [mkGSub 11 0 [7%N]; mkGSub 12 0 [7%N]]) = Ret (h', tr') /\ length (unloaded_msgs tr') = 2.
Proof. do 6 eexists. split; [vm_compute; reflexivity|]. split; [vm_compute; reflexivity|]. split; vm_compute; reflexivity. Qed.
