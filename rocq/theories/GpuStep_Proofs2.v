(** Runs of the CUDA backend. *)
From Verif Require Props_GpuNet Props_GpuBus.
From Verif Require Import Base ListLemmas Messaging_Model Projection_Model Delta_Model Delta_Spec Neuron_Model
  Gpu_Model Gpu_Spec GpuBus_Model GpuBus_Spec GpuBus_Proofs GpuBus_Proofs2
  GpuNet_Model GpuNet_Spec GpuNet_Proofs GpuNet_Proofs2 GpuStep_Model GpuStep_Spec GpuStep_Proofs.

Fixpoint chain (L : list gmsg) (recs : list grec) : Prop :=
  match recs with [] => True | r :: t => gr_bus r = L /\ chain (concat (gr_out r)) t end.
Definition timed (step : N) (r : grec) : Prop :=
  Forall (fun m => exists u p q l, m = GImpact u step false p q true l /\ l <> []) (concat (gr_out r)).
Record run_facts (sz : nat) (subs : list gsub) (s : N) (d : gdev) (L : list gmsg) (h : bus) (turns : list gturn) (recs : list grec)
  (d' : gdev) (h' : bus) : Prop := mkRF {
  rf_len : length recs = length turns;
  rf_chain : chain L recs;
  rf_timed : forall t r, nth_error recs t = Some r -> timed (s + N.of_nat t) r /\ length (gr_out r) = length (gd_projs d) /\ length (gr_pout r) = length (gd_pops d);
  rf_pop : forall i u ns, nth_error (gd_pops d) i = Some (u, ns) -> exists ns' outs,
    pop_run u s (map (pop_read i) recs) ns = Ret (ns', outs) /\ nth_error (gd_pops d') i = Some (u, ns') /\
    map (fun r => nth_error (gr_pout r) i) recs = map (fun o => Some (left_by o)) outs;
  rf_preads : forall t r i u ns, nth_error recs t = Some r -> nth_error (gd_pops d) i = Some (u, ns) ->
    places subs (for_pops r) u 1 (nth i (gr_pidx r) []);
  rf_proj : forall i p, nth_error (gd_projs d) i = Some p -> exists ords, length ords = length recs /\ Forall any_orders ords /\
    g_run sz s (map (proj_input i) (combine ords recs)) p = Ret (map (proj_sent i) recs);
  rf_qreads : forall t r i p, nth_error recs t = Some r -> nth_error (gd_projs d) i = Some p ->
    places subs (for_projs r) (gp_uid p) 0 (nth i (gr_qidx r) []);
  rf_host : exists tr, run h (host_calls subs s turns recs) = Ret (h', tr) }.

Lemma cons_facts sz subs s d d1 L h0 h h1 t turns r recs d' h' :
  gr_bus r = L -> pop_fact sz subs s d d1 r -> proj_fact sz subs s d d1 r -> (s + 1 < two64)%N ->
  (exists tr, run h0 (gt_ops t ++ step_ops subs s r) = Ret (h1, tr)) -> h = h0 ->
  run_facts sz subs (s + 1) d1 (concat (gr_out r)) h1 turns recs d' h' ->
  run_facts sz subs s d L h (t :: turns) (r :: recs) d' h'.
Proof.
  intros Eb [P1 [P2 [P3 P4]]] [Q1 [Q2 [Q3 Q4]]] B [tr Hr] -> [F1 F2 F3 F4 F5 F6 F7 [tr2 F8]]. split.
  - cbn [length]. congruence.
  - cbn [chain]. auto.
  - intros [|k] x Hx; cbn [nth_error] in Hx.
    + injection Hx as <-. rewrite N.add_0_r. split; [|auto]. unfold timed. apply Forall_concat, Forall_forall. intros l Hl.
      apply In_nth_error in Hl. destruct Hl as [i Hi]. destruct (nth_error (gd_projs d) i) as [p|] eqn:Np.
      2: { apply nth_error_None in Np. assert (i < length (gr_out r)) by (apply nth_error_Some; congruence). lia. }
      destruct (Q4 i p Np) as [idx [p1 [p2 [ord [w [out [A1 [A2 [A3 [A4 [A5 [A6 [A7 [A8 [A9 [A10 _]]]]]]]]]]]]]]]].
      assert (out = l) by congruence. subst out. rewrite Forall_forall in *. intros m Hm. destruct (A9 m Hm) as [tm [ll [-> Nl]]].
      specialize (A10 _ Hm). cbn [g_time] in A10. subst tm. eexists _, _, _, _. split; [reflexivity|exact Nl].
    + destruct (F3 k x Hx) as [T [T2 T3]]. split; [|split; congruence]. replace (s + N.of_nat (S k))%N with (s + 1 + N.of_nat k)%N by lia. exact T.
  - intros i u ns Hi. destruct (P4 i u ns Hi) as [idx [n1 [m [A1 [A2 [A3 [A4 A5]]]]]]]. destruct (F4 i u n1 A4) as [n2 [outs [C1 [C2 C3]]]].
    exists n2, (m :: outs). cbn [map pop_run]. unfold pop_read at 1. rewrite (nth_error_nth _ _ [] A1), A3. cbn [obind fst snd]. rewrite C1.
    cbn [obind fst snd]. split; [reflexivity|]. split; [exact C2|]. rewrite C3, A5. reflexivity.
  - intros [|k] x i u ns Hx Hi; cbn [nth_error] in Hx; destruct (P4 i u ns Hi) as [idx [n1 [m [A1 [A2 [A3 [A4 A5]]]]]]].
    + injection Hx as <-. now rewrite (nth_error_nth _ _ [] A1).
    + exact (F5 k x i u n1 Hx A4).
  - intros i p Hi. destruct (Q4 i p Hi) as [idx [p1 [p2 [ord [w [out [A1 [A2 [A3 [A4 [A5 [A6 [A7 [A8 _]]]]]]]]]]]]]].
    destruct (F6 i p2 A7) as [ords [C1 [C2 C3]]]. exists (ord :: ords). split; [cbn [length]; congruence|]. split; [constructor; assumption|].
    cbn [combine map g_run]. cbn [proj_input gi_bus gi_idx gi_ord fst snd]. rewrite (nth_error_nth _ _ [] A1), A3. cbn [obind].
    rewrite A5. cbn [obind snd fst]. rewrite A6. cbn [obind].
    assert (E : add64 s 1 = (s + 1)%N). { unfold add64, w64. apply N.mod_small. exact B. } rewrite E, C3. cbn [obind map].
    unfold proj_sent at 2. now rewrite (nth_error_nth _ _ [] A8).
  - intros [|k] x i p Hx Hi; cbn [nth_error] in Hx; destruct (Q4 i p Hi) as [idx [p1 [p2 [ord [w [out [A1 [A2 [A3 [A4 [A5 [A6 [A7 [A8 [_ [_ [A9 _]]]]]]]]]]]]]]]]].
    + injection Hx as <-. now rewrite (nth_error_nth _ _ [] A1).
    + rewrite <- A9. exact (F7 k x i p2 Hx A7).
  - cbn [host_calls]. rewrite app_assoc. exact (run_join _ _ _ _ _ _ _ Hr F8).
Qed.

Lemma later_steps sz subs n : 1 <= sz -> (N.of_nat (length subs) <= limit)%N -> forall turns d h L d' h' recs,
  Forall fair_turn turns -> good_dev d subs L -> (gd_step d <> 0)%N -> (gd_step d + N.of_nat (length turns) < two64)%N ->
  length (gd_pops d) = n -> (N.of_nat (length (gd_projs d)) <= limit)%N -> Forall (small_step n) recs ->
  g_steps sz turns d h = Ret (d', h', recs) -> run_facts sz subs (gd_step d) d L h turns recs d' h'.
Proof.
  intros Z Ls. induction turns as [|t turns IH]; intros d h L d' h' recs Ft G S0 B Np Lp Sm H; cbn [g_steps] in H.
  - injection H as <- <- <-. split; try (intros [|k]; discriminate); try reflexivity.
    + intros i u ns Hi. exists ns, []. auto.
    + intros i p Hi. exists []. auto.
    + eexists. reflexivity.
  - destruct (run h (gt_ops t)) as [[h0 t0]| |] eqn:E0; cbn [obind fst] in H; try discriminate.
    destruct (g_step sz (gt_ord t) (gt_order t) d h0) as [[[d1 h1] r]| |] eqn:E1; cbn [obind fst snd] in H; try discriminate.
    destruct (g_steps sz turns d1 h1) as [[[d2 h2] rs]| |] eqn:E2; cbn [obind fst snd] in H; try discriminate.
    injection H as <- <- <-. apply Forall_cons_iff in Ft. destruct Ft as [Ft0 Ft]. apply Forall_cons_iff in Sm. destruct Sm as [Sm0 Sm].
    assert (Sy : (if N.eqb (gd_step d) 0 then sync_loop (gt_ord t 0 0) (gt_order t) (gd_bus d) h0 else Ret (gd_bus d, h0)) = Ret (gd_bus d, h0)).
    { apply N.eqb_neq in S0. now rewrite S0. }
    destruct G as [G0 Gp]. cbn [length] in B.
    destruct (step_ok sz (gt_ord t) (gt_order t) d h0 d1 h1 r subs L (gd_bus d) h0 Z Ft0 Sy G0 Gp Ls Lp ltac:(now rewrite Np) E1)
      as [X1 [X2 [X3 [X4 [X5 [tr X6]]]]]].
    assert (E : add64 (gd_step d) 1 = (gd_step d + 1)%N). { unfold add64, w64. apply N.mod_small. fold two64. lia. }
    apply (cons_facts sz subs (gd_step d) d d1 L h h h1 t turns r rs d2 h2 X1 X2 X3); [lia| |reflexivity|].
    + exact (run_join _ _ _ _ _ _ _ E0 X6).
    + rewrite <- E, <- X5. apply IH; auto.
      * rewrite X5, E. lia.
      * rewrite X5, E. lia.
      * rewrite <- Np. apply X2.
      * destruct X3 as [-> _]. exact Lp.
Qed.

(** ** The subscriptions *)
Definition heads_listens (l : list gproj) (r : uid) (ty : nat) (u : uid) : Prop :=
  (ty = 0 /\ u <> 0%N /\ exists p, In p l /\ gp_uid p = r /\ gp_pre p = u) \/
  (ty = 1 /\ r <> 0%N /\ exists p, In p l /\ gp_post p = r /\ gp_uid p = u).
Lemma g_subscribe_ok : forall l o b subs n, all_fair3 o -> gok b (subs, []) -> bounded (subs, []) n ->
  (N.of_nat (n + 4 * length l) <= limit)%N ->
  exists b' subs', g_subscribe o l b = Ret b' /\ gok b' (subs', []) /\ bounded (subs', []) (n + 4 * length l) /\
    forall r ty u, Props_GpuBus.listens subs' r ty u <-> Props_GpuBus.listens subs r ty u \/ heads_listens l r ty u.
Proof.
  assert (One : forall ord b subs n r ty u, fair_call ord -> gok b (subs, []) -> bounded (subs, []) n -> (N.of_nat (n + 2) <= limit)%N ->
    exists b' x, subscribe_gpu ord b r [u] ty = Ret (b', x) /\ gok b' (add_sub subs r ty [u], []) /\ bounded (add_sub subs r ty [u], []) (n + 2)).
  { intros ord b subs n r ty u O G B L. destruct B as [B1 [B2 B3]]. cbn [fst snd] in *.
    destruct (subscribe_ok ord b (subs, []) r ty [u] O G) as [b' [E G']]; cbn [fst snd length] in *; try lia.
    { intros s Hs. apply B3 in Hs. lia. }
    exists b'. eexists. split; [exact E|]. split; [exact G'|].
    apply (gspec_bounded (subs, []) (GSubscribe r ty [u])); [repeat split; assumption|reflexivity]. }
  assert (Mono : forall st n k, bounded st n -> bounded st (n + k)).
  { intros st n k [A1 [A2 A3]]. split; [lia|]. split; [lia|]. intros s Hs. apply A3 in Hs. lia. }
  induction l as [|p l IH]; intros o b subs n O G B L.
  - exists b, subs. cbn [g_subscribe length Nat.mul]. split; [reflexivity|]. split; [exact G|]. split; [now rewrite Nat.add_0_r|].
    intros r ty u. unfold heads_listens. split; [auto|]. intros [H|[[_ [_ [q [[] _]]]]|[_ [_ [q [[] _]]]]]]. exact H.
  - cbn [g_subscribe length] in *.
    assert (S1 : exists b1 subs1, (if N.eqb (gp_pre p) 0 then Ret b else obind (subscribe_gpu (o 0 0) b (gp_uid p) [gp_pre p] 0) (fun x => Ret (fst x))) = Ret b1 /\
      gok b1 (subs1, []) /\ bounded (subs1, []) (n + 2) /\
      forall r ty u, Props_GpuBus.listens subs1 r ty u <-> Props_GpuBus.listens subs r ty u \/ (ty = 0 /\ u <> 0%N /\ gp_uid p = r /\ gp_pre p = u)).
    { destruct (N.eqb_spec (gp_pre p) 0) as [E|E].
      - exists b, subs. split; [reflexivity|]. split; [exact G|]. split; [now apply Mono|]. intros r ty u. split; [auto|].
        intros [H|[_ [H [_ H2]]]]; [exact H|congruence].
      - destruct (One (o 0 0) b subs n (gp_uid p) 0 (gp_pre p) (O 0 0) G B ltac:(lia)) as [b1 [x [-> [G1 B1]]]]. cbn [obind fst].
        exists b1. eexists. split; [reflexivity|]. split; [exact G1|]. split; [exact B1|]. intros r ty u.
        rewrite Props_GpuBus.add_sub_listens by exact (go_keys _ _ G). cbn [In]. split; (intros [H|H]; [auto|right]).
        + destruct H as [-> [-> [<-|[]]]]. auto.
        + destruct H as [-> [_ [<- <-]]]. auto. }
    destruct S1 as [b1 [s1 [E1 [G1 [B1 L1]]]]]. rewrite E1. cbn [obind]. clear E1.
    assert (S2 : exists b2 subs2, (if N.eqb (gp_post p) 0 then Ret b1 else obind (subscribe_gpu (o 0 1) b1 (gp_post p) [gp_uid p] 1) (fun x => Ret (fst x))) = Ret b2 /\
      gok b2 (subs2, []) /\ bounded (subs2, []) (n + 2 + 2) /\
      forall r ty u, Props_GpuBus.listens subs2 r ty u <-> Props_GpuBus.listens s1 r ty u \/ (ty = 1 /\ r <> 0%N /\ gp_post p = r /\ gp_uid p = u)).
    { destruct (N.eqb_spec (gp_post p) 0) as [E|E].
      - exists b1, s1. split; [reflexivity|]. split; [exact G1|]. split; [now apply Mono|]. intros r ty u. split; [auto|].
        intros [H|[_ [H [H2 _]]]]; [exact H|congruence].
      - destruct (One (o 0 1) b1 s1 (n + 2) (gp_post p) 1 (gp_uid p) (O 0 1) G1 B1 ltac:(lia)) as [b2 [x [-> [G2 B2]]]]. cbn [obind fst].
        exists b2. eexists. split; [reflexivity|]. split; [exact G2|]. split; [exact B2|]. intros r ty u.
        rewrite Props_GpuBus.add_sub_listens by exact (go_keys _ _ G1). cbn [In]. split; (intros [H|H]; [auto|right]).
        + destruct H as [-> [-> [<-|[]]]]. auto.
        + destruct H as [-> [_ [<- <-]]]. auto. }
    destruct S2 as [b2 [s2 [E2 [G2 [B2 L2]]]]]. rewrite E2. cbn [obind]. clear E2.
    destruct (IH (fun k => o (S k)) b2 s2 (n + 2 + 2) (fun a c e => O (S a) c e) G2 B2 ltac:(lia)) as [b3 [s3 [E3 [G3 [B3 L3]]]]].
    exists b3, s3. split; [exact E3|]. split; [exact G3|]. split; [replace (n + 4 * S (length l)) with (n + 2 + 2 + 4 * length l) by lia; exact B3|].
    intros r ty u. rewrite L3, L2, L1. unfold heads_listens. cbn [In]. split.
    + intros [[[H|[A [C [D E]]]]|[A [C [D E]]]]|[[A [C [q [D E]]]]|[A [C [q [D E]]]]]].
      * auto.
      * right. left. split; [exact A|]. split; [exact C|]. exists p. auto.
      * right. right. split; [exact A|]. split; [exact C|]. exists p. auto.
      * right. left. split; [exact A|]. split; [exact C|]. exists q. auto.
      * right. right. split; [exact A|]. split; [exact C|]. exists q. auto.
    + intros [H|[[A [C [q [[<-|D] E]]]]|[A [C [q [[<-|D] E]]]]]].
      * auto.
      * left. left. right. tauto.
      * right. left. split; [exact A|]. split; [exact C|]. exists q. auto.
      * left. right. tauto.
      * right. right. split; [exact A|]. split; [exact C|]. exists q. auto.
Qed.

Lemma sync_host : forall order ord b h b' h', Forall (fun x => fst (fst x) < 2) order -> sync_loop ord order b h = Ret (b', h') ->
  exists tr, run h (sync_calls order) = Ret (h', tr).
Proof.
  induction order as [|[[ty r] s] order IH]; intros ord b h b' h' T H; cbn [sync_loop] in H.
  - injection H as _ <-. eexists. reflexivity.
  - apply Forall_cons_iff in T. destruct T as [T1 T2]. cbn [fst] in T1.
    destruct (subscribe_gpu _ _ _ _ _) as [[b1 x]| |]; cbn [obind fst] in H; try discriminate.
    unfold subscribe_host in H. destruct (Nat.ltb_spec ty 2); [|lia]. unfold sync_calls. cbn [map run fst snd].
    destruct (exec h (OSubscribe 0 ty r (s_senders s))) as [[h1 y]| |]; cbn [obind fst snd] in *; try discriminate.
    destruct (IH _ _ _ _ _ T2 H) as [tr R]. unfold sync_calls in R. rewrite R. cbn [obind fst snd]. eexists. reflexivity.
Qed.

(** ** Runs from the beginning *)
Lemma whole_run sz o pops projs d0 t turns h0 d h recs : 1 <= sz -> all_fair3 o -> Forall fair_turn (t :: turns) ->
  (N.of_nat (4 * length projs + list_sum (map (fun x : key * sub => (1 + length (s_senders (snd x)))%nat) (gt_order t)))%nat <= limit)%N ->
  Forall (fun x => fst (fst x) < 2) (gt_order t) -> (N.of_nat (length (t :: turns)) < two64)%N ->
  g_init o pops projs = Ret d0 -> g_steps sz (t :: turns) d0 h0 = Ret (d, h, recs) -> Forall (small_step (length pops)) recs ->
  exists subs h1 tr0 t' , NoDup (map gkey subs) /\
    (forall r ty u, Props_GpuBus.listens subs r ty u <-> told (map fst projs) (gt_order t) r ty u) /\
    run h0 (gt_ops t ++ sync_calls (gt_order t)) = Ret (h1, tr0) /\ gt_ops t' = [] /\
    gd_pops d0 = pops /\ gd_projs d0 = map (fun x => load_projection (fst x) (snd x)) projs /\
    run_facts sz subs 0 d0 [] h1 (t' :: turns) recs d h.
Proof.
  intros Z O Ft Lm T B I H Sm. unfold g_init in I. set (l := map (fun x => load_projection (fst x) (snd x)) projs) in *.
  assert (Ll : length l = length projs) by apply map_length.
  destruct (g_subscribe_ok l o gbus_init [] 0 O gok_init bounded_init ltac:(lia)) as [b0 [s0 [E0 [G0 [B0 L0]]]]].
  rewrite E0 in I. cbn [obind] in I. injection I as <-. cbn [Nat.add] in B0.
  cbn [g_steps] in H. destruct (run h0 (gt_ops t)) as [[hh t0]| |] eqn:Er; cbn [obind fst] in H; try discriminate.
  destruct (g_step sz (gt_ord t) (gt_order t) _ hh) as [[[d1 h1] r]| |] eqn:E1; cbn [obind fst snd] in H; try discriminate.
  destruct (g_steps sz turns d1 h1) as [[[d2 h2] rs]| |] eqn:E2; cbn [obind fst snd] in H; try discriminate.
  injection H as <- <- <-. apply Forall_cons_iff in Ft. destruct Ft as [Ft0 Ft]. apply Forall_cons_iff in Sm. destruct Sm as [Sm0 Sm].
  destruct (sync_loop (gt_ord t 0 0) (gt_order t) b0 hh) as [[b1 hs]| |] eqn:Es.
  2,3: unfold g_step in E1; cbn [gd_step gd_bus] in E1; change (N.eqb 0 0) with true in E1; cbv iota in E1; rewrite Es in E1; discriminate E1.
  destruct (sync_host _ _ _ _ _ _ T Es) as [ts Rs].
  destruct (sync_ok (gt_order t) (gt_ord t 0 0) b0 (s0, []) hh (4 * length l) hs ts (fun k j => Ft0 0 0 k j) G0 B0 ltac:(rewrite Ll; exact Lm) T Rs) as [b1' [Es' G1]].
  rewrite Es in Es'. injection Es' as <-. cbn [fst snd] in G1.
  set (subs := fold_left (fun (l : list gsub) (x : nat * uid * sub) => add_sub l (snd (fst x)) (fst (fst x)) (s_senders (snd x))) (gt_order t) s0) in G1.
  assert (Bd : length subs <= 4 * length l + list_sum (map (fun x : key * sub => (1 + length (s_senders (snd x)))%nat) (gt_order t))).
  { assert (X : forall (ord : list (key * sub)) st n, length st <= n -> length (fold_left (fun l x => add_sub l (snd (fst x)) (fst (fst x)) (s_senders (snd x))) ord st)
        <= n + list_sum (map (fun x : key * sub => (1 + length (s_senders (snd x)))%nat) ord)).
    { assert (Y : forall l r ty ss, length (add_sub l r ty ss) <= S (length l)).
      { induction l0 as [|a l0 IHl]; intros r0 ty ss; cbn [add_sub length]; [lia|]. destruct (same_key r0 ty a); cbn [length]; [lia|]. specialize (IHl r0 ty ss). lia. }
      unfold list_sum. induction ord as [|x ord IHo]; intros st n Hn; cbn [fold_left map fold_right]; [lia|].
      etransitivity; [apply (IHo _ (S n)); etransitivity; [apply Y|lia]|]. lia. }
    apply X. apply B0. }
  assert (Ls : (N.of_nat (length subs) <= limit)%N) by (rewrite Ll in Bd; lia).
  assert (Lk : forall r ty u, Props_GpuBus.listens subs r ty u <-> told (map fst projs) (gt_order t) r ty u).
  { intros r0 ty u. assert (X : forall (ord : list (key * sub)) st, NoDup (map gkey st) ->
       (Props_GpuBus.listens (fold_left (fun l x => add_sub l (snd (fst x)) (fst (fst x)) (s_senders (snd x))) ord st) r0 ty u <->
        Props_GpuBus.listens st r0 ty u \/ exists s, In ((ty, r0), s) ord /\ In u (s_senders s))).
    { induction ord as [|[[ty1 r1] s1] ord IHo]; intros st Nd; cbn [fold_left].
      - split; [auto|]. intros [X|[s [[] _]]]. exact X.
      - cbn [fst snd]. rewrite IHo by now apply add_sub_NoDup. rewrite Props_GpuBus.add_sub_listens by assumption. cbn [In]. split.
        + intros [[X|[-> [-> X]]]|[s [X Y]]]; [auto|right; exists s1; auto|right; exists s; auto].
        + intros [X|[s [[X|X] Y]]]; [auto| |right; exists s; auto]. injection X as -> -> ->. auto. }
    unfold subs. rewrite X by exact (go_keys _ _ G0). rewrite L0. unfold told, heads_listens. unfold l.
    assert (In' : forall (Q : gproj -> Prop), (exists p, In p (map (fun x => load_projection (fst x) (snd x)) projs) /\ Q p) <->
       exists x, In x projs /\ Q (load_projection (fst x) (snd x))).
    { intros Q. split.
      - intros [p [Hp Hq]]. apply in_map_iff in Hp. destruct Hp as [x [<- Hx]]. eauto.
      - intros [x [Hx Hq]]. eexists. split; [apply in_map_iff; eauto|exact Hq]. }
    assert (Hd : forall (Q : phead -> Prop), (exists hd, In hd (map fst projs) /\ Q hd) <-> exists x, In x projs /\ Q (fst x)).
    { intros Q. split.
      - intros [p [Hp Hq]]. apply in_map_iff in Hp. destruct Hp as [x [<- Hx]]. eauto.
      - intros [x [Hx Hq]]. eexists. split; [apply in_map_iff; eauto|exact Hq]. }
    rewrite (In' (fun p => gp_uid p = r0 /\ gp_pre p = u)), (In' (fun p => gp_post p = r0 /\ gp_uid p = u)).
    rewrite (Hd (fun p => ph_uid p = r0 /\ ph_pre p = u)), (Hd (fun p => ph_post p = r0 /\ ph_uid p = u)).
    cbn [load_projection gp_uid gp_pre gp_post].
    assert (Nl : ~ Props_GpuBus.listens [] r0 ty u) by (intros [s [[] _]]). tauto. }
  destruct (step_ok sz (gt_ord t) (gt_order t) (mkGD b0 pops l 0) hh d1 h1 r subs [] b1 hs Z Ft0 Es G1) as [X1 [X2 [X3 [X4 [X5 [tr X6]]]]]];
    cbn [gd_pops gd_projs gd_step] in *; try assumption.
  { unfold l. apply Forall_map, Forall_forall. intros x _. exists []. apply pinv_load. }
  { rewrite Ll. lia. }
  cbn [length] in B.
  pose proof (run_join _ _ _ _ _ _ _ Er Rs) as [t1 R1].
  exists subs, hs, t1, (mkGT [] (gt_ord t) (gt_order t)). split; [exact (go_keys _ _ G1)|]. split; [exact Lk|]. split; [exact R1|].
  split; [reflexivity|]. split; [reflexivity|]. split; [reflexivity|].
  apply (cons_facts sz subs 0 (mkGD b0 pops l 0) d1 [] hs hs h1 (mkGT [] (gt_ord t) (gt_order t)) turns r rs d2 h2 X1 X2 X3); [lia| |reflexivity|].
  - cbn [gt_ops app]. eauto.
  - change (0 + 1)%N with (add64 0 1). rewrite <- X5. apply (later_steps sz subs (length pops)); auto.
    + rewrite X5. discriminate.
    + rewrite X5. change (add64 0 1) with 1%N. lia.
    + apply X2.
    + destruct X3 as [-> _]. cbn [gd_projs]. rewrite Ll. lia.
Qed.
