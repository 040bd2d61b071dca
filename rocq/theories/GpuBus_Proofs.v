(** The message bus of the CUDA backend does what GpuBus_Spec says. *)
From Verif Require Import Base ListLemmas Messaging_Model Gpu_Model Gpu_Spec Gpu_Proofs Gpu_Proofs2 Gpu_Proofs3
  GpuBus_Model GpuBus_Spec.

Lemma ofold_pure {T} (body : nat -> T -> outcome T) (f : T -> nat -> T) l : forall s,
  (forall i s, In i l -> body i s = Ret (f s i)) -> ofold body l s = Ret (fold_left f l s).
Proof.
  induction l as [|i l IH]; intros s H; [reflexivity|]. cbn [ofold fold_left].
  rewrite H by now left. cbn [obind]. apply IH. intros j s' Hj. apply H. now right.
Qed.

Lemma NoDup_front {A} (l1 l2 : list A) : NoDup (l1 ++ l2) -> NoDup l1.
Proof.
  induction l1 as [|a l1 IH]; cbn [app]; intros H; [constructor|]. apply NoDup_cons_iff in H. destruct H as [H1 H2].
  constructor; [intros X; apply H1, in_app_iff; now left|auto].
Qed.

(** ** Senders *)
Lemma fold_or (p : nat -> bool) l : forall r, fold_left (fun r i => if negb (p i) then r else true) l r = r || existsb p l.
Proof.
  induction l as [|i l IH]; intros r; cbn [fold_left existsb]; [now rewrite orb_false_r|].
  rewrite IH. destruct (p i), r; reflexivity.
Qed.
Lemma existsb_seq (l : list uid) u order : Permutation order (seq 0 (length l)) ->
  existsb (fun i => N.eqb (nth i l 0%N) u) order = mem u l.
Proof.
  intros P. apply Bool.eq_iff_eq_true. rewrite mem_In, existsb_exists. split.
  - intros [i [Hi He]]. apply N.eqb_eq in He. apply (Permutation_in _ P), in_seq in Hi. subst u. apply nth_In. lia.
  - intros H. apply (In_nth _ _ 0%N) in H. destruct H as [i [Hi He]]. exists i. split; [|now apply N.eqb_eq].
    apply (Permutation_in _ (Permutation_sym P)), in_seq. unfold uid in *. lia.
Qed.
Lemma gs_has_ok ord s u : any_orders ord -> (N.of_nat (length (gs_senders s)) <= limit)%N ->
  gs_has ord s u = Ret (mem u (gs_senders s)).
Proof.
  intros O S. unfold gs_has. destruct (gs_senders s) as [|v l] eqn:E; [reflexivity|]. rewrite <- E in *.
  match goal with |- launch _ _ _ ?b _ = _ => destruct (launch_visits ord 0 _ b false O S) as [order [P ->]] end.
  rewrite (ofold_pure _ (fun r i => if negb (N.eqb (nth i (gs_senders s) 0%N) u) then r else true)).
  - rewrite fold_or. cbn [orb]. now rewrite existsb_seq.
  - intros i r Hi. apply (Permutation_in _ P), in_seq in Hi.
    assert (N : nth_error (gs_senders s) i = Some (nth i (gs_senders s) 0%N)) by (apply nth_error_nth'; lia).
    rewrite <- (app_nil_r (map _ _)). rewrite (read_obj _ _ _ _ N). reflexivity.
Qed.
Lemma dev_has_ok l u : gs_dev_has l u = mem u l.
Proof.
  induction l as [|v l IH]; [reflexivity|]. cbn [gs_dev_has]. unfold mem in *. cbn [existsb]. rewrite IH, (N.eqb_sym v u).
  now destruct (N.eqb u v).
Qed.
Lemma gs_adds_ok ord : fair_call ord -> forall new k s,
  (N.of_nat (length (gs_senders s) + length new) <= limit)%N ->
  gs_adds ord k s new = Ret (mkGSub (gs_receiver s) (gs_type s) (add_new (gs_senders s) new)).
Proof.
  intros O. induction new as [|u new IH]; intros k [r ty l] H; cbn [gs_adds gs_receiver gs_type gs_senders] in *; [reflexivity|].
  unfold gs_add. rewrite gs_has_ok; [|apply O|cbn [gs_senders length] in *; lia]. cbn [obind gs_senders].
  unfold add_new. cbn [fold_left].
  destruct (mem u l); cbn [obind fst]; rewrite IH; cbn [gs_senders gs_receiver gs_type length] in *; rewrite ?app_length; cbn [length]; try lia; reflexivity.
Qed.
Lemma add_new_In new : forall l u, In u (add_new l new) <-> In u l \/ In u new.
Proof.
  unfold add_new. induction new as [|v new IH]; intros l u; cbn [fold_left]; [cbn [In]; tauto|].
  rewrite IH. destruct (mem v l) eqn:M.
  - apply mem_In in M. cbn [In]. split; [tauto|]. intros [H|[<-|H]]; auto.
  - rewrite in_app_iff. cbn [In]. tauto.
Qed.
Lemma add_new_NoDup new : forall l, NoDup l -> NoDup (add_new l new).
Proof.
  unfold add_new. induction new as [|v new IH]; intros l H; cbn [fold_left]; [assumption|].
  apply IH. destruct (mem v l) eqn:M; [assumption|]. apply NoDup_app_intro; [assumption|repeat constructor; auto|].
  intros x Hx [<-|[]]. apply mem_In in Hx. congruence.
Qed.
Lemma add_new_length new : forall l, length (add_new l new) <= length l + length new.
Proof.
  unfold add_new. induction new as [|v new IH]; intros l; cbn [fold_left length]; [lia|].
  etransitivity; [apply IH|]. destruct (mem v l); [lia|]. rewrite app_length. cbn [length]. lia.
Qed.

(** ** Finding a subscription *)
Definition gkey (s : gsub) := (gs_type s, gs_receiver s).
Lemma same_key_iff r ty s : same_key r ty s = true <-> gkey s = (ty, r).
Proof.
  unfold same_key, gkey. rewrite andb_true_iff, Nat.eqb_eq, N.eqb_eq. split; [intros [-> ->]; reflexivity|intros H; injection H; auto].
Qed.
Fixpoint pos r ty (l : list gsub) : nat :=
  match l with [] => 0 | s :: t => if same_key r ty s then 0 else S (pos r ty t) end.
Lemma pos_le r ty l : pos r ty l <= length l.
Proof. induction l as [|s l IH]; cbn [pos length]; [lia|]. destruct (same_key r ty s); lia. Qed.
Lemma pos_nth r ty l : pos r ty l < length l ->
  exists s, nth_error l (pos r ty l) = Some s /\ same_key r ty s = true.
Proof.
  induction l as [|s l IH]; cbn [pos length]; intros H; [lia|]. destruct (same_key r ty s) eqn:E; [now exists s|].
  apply IH. lia.
Qed.
Lemma pos_unique r ty l i s : NoDup (map gkey l) -> nth_error l i = Some s -> same_key r ty s = true -> pos r ty l = i.
Proof.
  revert i. induction l as [|x l IH]; intros i N H K; [now destruct i|]. cbn [map] in N. apply NoDup_cons_iff in N. destruct N as [N1 N2].
  cbn [pos]. destruct i as [|i]; cbn [nth_error] in H.
  - injection H as ->. now rewrite K.
  - destruct (same_key r ty x) eqn:E; [|f_equal; eauto].
    apply same_key_iff in E, K. exfalso. apply N1. rewrite E, <- K. now apply in_map, (nth_error_In _ i).
Qed.
Lemma pos_existsb r ty l : existsb (same_key r ty) l = (pos r ty l <? length l).
Proof.
  induction l as [|s l IH]; [reflexivity|]. cbn [existsb pos length]. destruct (same_key r ty s); cbn [orb]; [reflexivity|].
  rewrite IH. reflexivity.
Qed.
Lemma fold_found (p : nat -> bool) q l : forall n, (forall i, In i l -> p i = (i =? q)) ->
  fold_left (fun found i => if p i then i else found) l n = if existsb (Nat.eqb q) l then q else n.
Proof.
  induction l as [|i l IH]; intros n H; [reflexivity|]. cbn [fold_left existsb].
  rewrite IH by (intros j Hj; apply H; now right). rewrite (H i) by now left. rewrite (Nat.eqb_sym q i).
  destruct (Nat.eqb_spec i q) as [->|]; cbn [orb]; [|reflexivity]. now destruct (existsb _ l).
Qed.
Lemma find_ok ord b r ty l : any_orders ord -> vok (g_subs b) l -> (N.of_nat (length l) <= limit)%N -> NoDup (map gkey l) ->
  find_subscription ord b r ty = Ret (pos r ty l).
Proof.
  intros O [[rest D] Sz _ _ _] S N. unfold find_subscription. rewrite Sz.
  destruct (Nat.eqb_spec (length l) 0) as [H|H]; [now destruct l|].
  match goal with |- launch _ _ _ ?b _ = _ => destruct (launch_visits ord 0 _ b (length l) O S) as [order [P ->]] end.
  rewrite (ofold_pure _ (fun found i => if same_key r ty (nth i l (mkGSub 0 0 [])) then i else found)).
  - rewrite (fold_found _ (pos r ty l)).
    + f_equal. destruct (existsb (Nat.eqb (pos r ty l)) order) eqn:E; [reflexivity|].
      pose proof (pos_le r ty l). destruct (Nat.eq_dec (pos r ty l) (length l)); [congruence|].
      assert (X : existsb (Nat.eqb (pos r ty l)) order = true); [|congruence].
      apply existsb_exists. exists (pos r ty l). split; [|apply Nat.eqb_refl].
      apply (Permutation_in _ (Permutation_sym P)), in_seq. lia.
    + intros i Hi. apply (Permutation_in _ P), in_seq in Hi.
      assert (Ni : nth_error l i = Some (nth i l (mkGSub 0 0 []))) by (apply nth_error_nth'; lia).
      destruct (same_key r ty (nth i l (mkGSub 0 0 []))) eqn:K.
      * rewrite (pos_unique r ty l i _ N Ni K). symmetry. apply Nat.eqb_refl.
      * symmetry. apply Nat.eqb_neq. intros ->. destruct (pos_nth r ty l ltac:(lia)) as [s [Hs Ks]]. congruence.
  - intros i found Hi. apply (Permutation_in _ P), in_seq in Hi.
    assert (Ni : nth_error l i = Some (nth i l (mkGSub 0 0 []))) by (apply nth_error_nth'; lia).
    rewrite D, (read_obj _ _ _ _ Ni). cbn [obind]. unfold same_key.
    destruct (Nat.eqb (gs_type _) ty); cbn [negb andb]; [|reflexivity]. now destruct (N.eqb _ r).
Qed.

(** ** Tables *)
Lemma add_sub_old r ty ss l : forall s, nth_error l (pos r ty l) = Some s ->
  add_sub l r ty ss = upd l (pos r ty l) (mkGSub r ty (add_new (gs_senders s) ss)).
Proof.
  induction l as [|x l IH]; intros s H; [discriminate|]. cbn [pos add_sub] in *.
  destruct (same_key r ty x); cbn [nth_error] in H.
  - injection H as ->. reflexivity.
  - rewrite (IH s H). reflexivity.
Qed.
Lemma add_sub_new r ty ss l : pos r ty l = length l -> add_sub l r ty ss = l ++ [mkGSub r ty (add_new [] ss)].
Proof.
  induction l as [|x l IH]; intros H; [reflexivity|]. cbn [pos add_sub length] in *.
  destruct (same_key r ty x); [lia|]. cbn [app]. f_equal. apply IH. lia.
Qed.
Lemma add_sub_keys r ty ss l : map gkey (add_sub l r ty ss) =
  if existsb (same_key r ty) l then map gkey l else map gkey l ++ [(ty, r)].
Proof.
  induction l as [|x l IH]; [reflexivity|]. cbn [add_sub existsb map].
  destruct (same_key r ty x) eqn:K; cbn [map orb].
  - apply same_key_iff in K. now rewrite K.
  - rewrite IH. now destruct (existsb _ l).
Qed.
Lemma add_sub_NoDup r ty ss l : NoDup (map gkey l) -> NoDup (map gkey (add_sub l r ty ss)).
Proof.
  intros N. rewrite add_sub_keys. destruct (existsb (same_key r ty) l) eqn:E; [assumption|].
  apply NoDup_app_intro; [assumption|repeat constructor; auto|]. intros k Hk [<-|[]].
  apply in_map_iff in Hk. destruct Hk as [s [Hs Hi]].
  assert (X : existsb (same_key r ty) l = true) by (apply existsb_exists; exists s; split; [assumption|now apply same_key_iff]).
  congruence.
Qed.
Lemma drop_sub_none r ty l : pos r ty l = length l -> drop_sub l r ty = Some l.
Proof.
  induction l as [|x l IH]; intros H; [reflexivity|]. cbn [pos drop_sub length] in *.
  destruct (same_key r ty x); [lia|]. rewrite IH by lia. reflexivity.
Qed.
Lemma drop_sub_last r ty l : S (pos r ty l) = length l -> drop_sub l r ty = Some (firstn (pos r ty l) l).
Proof.
  induction l as [|x l IH]; intros H; [discriminate|]. cbn [pos drop_sub length] in *.
  destruct (same_key r ty x); [now destruct l|]. rewrite IH by lia. reflexivity.
Qed.
Lemma drop_sub_other r ty l : S (pos r ty l) < length l -> drop_sub l r ty = None.
Proof.
  induction l as [|x l IH]; intros H; cbn [pos drop_sub length] in *; [lia|].
  destruct (same_key r ty x); [destruct l; [cbn [length] in H; lia|reflexivity]|]. rewrite IH by lia. reflexivity.
Qed.

(** ** Unloading *)
Lemma unload_fold (b : gbus) s ms rest : deref (g_msgs b) = map Obj ms ++ rest -> forall order q,
  NoDup (q ++ order) -> (forall i, In i (q ++ order) -> i < length ms) ->
  (forall i, In i q -> is_my_message s (nth i ms g_default) = true) ->
  exists q', ofold (fun i st => obind (read (deref (g_msgs b)) i) (fun m =>
       if is_my_message s m
       then obind (write (snd st) (fst st) (Obj i)) (fun ind => Ret (S (fst st), ind))
       else Ret st)) order (length q, map (@Obj nat) q ++ repeat Raw (length ms - length q)) =
    Ret (length q', map (@Obj nat) q' ++ repeat Raw (length ms - length q')) /\ NoDup q' /\
    (forall i, In i q' <-> In i q \/ In i order /\ is_my_message s (nth i ms g_default) = true).
Proof.
  intros D. induction order as [|i order IH]; intros q N H Q; cbn [ofold].
  - exists q. rewrite app_nil_r in N. split; [reflexivity|]. split; [assumption|]. intros i. cbn [In]. tauto.
  - assert (Hi : i < length ms) by (apply H, in_app_iff; right; now left).
    assert (Ni : nth_error ms i = Some (nth i ms g_default)) by (now apply nth_error_nth').
    rewrite D, (read_obj _ _ _ _ Ni). rewrite <- D. cbn [obind].
    destruct (is_my_message s (nth i ms g_default)) eqn:M.
    + assert (Lq : S (length q) <= length ms).
      { assert (X : incl (q ++ [i]) (seq 0 (length ms))).
        { intros j Hj. apply in_seq. split; [lia|]. apply H. rewrite in_app_iff in *. cbn [In] in *. tauto. }
        assert (NN : NoDup (q ++ [i])).
        { replace (q ++ i :: order) with ((q ++ [i]) ++ order) in N by (rewrite <- app_assoc; reflexivity).
          now apply NoDup_front in N. }
        pose proof (NoDup_incl_length NN X) as L. rewrite app_length, seq_length in L. cbn [length] in L. lia. }
      cbn [fst snd obind]. rewrite write_upd by (rewrite app_length, map_length, repeat_length; lia). cbn [obind].
      specialize (IH (q ++ [i])). rewrite app_length in IH. cbn [length] in IH. rewrite Nat.add_1_r in IH.
      assert (U : upd (map (@Obj nat) q ++ repeat Raw (length ms - length q)) (length q) (Obj i) =
                  map (@Obj nat) (q ++ [i]) ++ repeat Raw (length ms - S (length q))).
      { replace (length ms - length q) with (S (length ms - S (length q))) by lia. cbn [repeat].
        rewrite map_app, <- app_assoc. cbn [map app].
        unfold upd. rewrite firstn_app, map_length, Nat.sub_diag. cbn [firstn].
        rewrite firstn_all2 by (rewrite map_length; lia). rewrite app_nil_r. f_equal.
        rewrite skipn_app, map_length. rewrite skipn_all2 by (rewrite map_length; lia).
        replace (S (length q) - length q) with 1 by lia. reflexivity. }
      rewrite U. destruct IH as [q' [E [N' I']]].
      * rewrite <- app_assoc. exact N.
      * intros j Hj. apply H. rewrite <- app_assoc in Hj. exact Hj.
      * intros j Hj. apply in_app_iff in Hj. destruct Hj as [Hj|[<-|[]]]; [now apply Q|assumption].
      * exists q'. split; [exact E|]. split; [assumption|]. intros j. rewrite I', in_app_iff. cbn [In]. split.
        -- intros [[?|[<-|[]]]|[? ?]]; tauto.
        -- intros [?|[[<-|?] ?]]; tauto.
    + destruct (IH q) as [q' [E [N' I']]].
      * apply NoDup_remove_1 in N. assumption.
      * intros j Hj. apply H. rewrite in_app_iff in *. cbn [In]. tauto.
      * assumption.
      * exists q'. split; [exact E|]. split; [assumption|]. intros j. rewrite I'. cbn [In]. split.
        -- tauto.
        -- intros [?|[[<-|?] ?]]; try tauto. congruence.
Qed.

Lemma is_mine r ty s m : gs_type s = ty -> gs_receiver s = r ->
  is_my_message s m = true <-> g_type m = ty /\ In (g_sender m) (gs_senders s).
Proof.
  intros <- <-. unfold is_my_message. rewrite dev_has_ok. destruct (Nat.eqb_spec (g_type m) (gs_type s)); cbn [negb].
  - rewrite mem_In. tauto.
  - split; [discriminate|]. tauto.
Qed.

Record gok (b : gbus) (st : gstate) : Prop := mkGok {
  go_subs : vok (g_subs b) (fst st); go_msgs : vok (g_msgs b) (snd st); go_keys : NoDup (map gkey (fst st)) }.

Lemma unload_ok ord b st ty r : fair_call ord -> gok b st ->
  (N.of_nat (length (fst st)) <= limit)%N -> (N.of_nat (length (snd st)) <= limit)%N ->
  exists l, unload_gpu ord b ty r = Ret l /\ NoDup l /\
    forall i, In i l <-> exists m, nth_error (snd st) i = Some m /\ mine (fst st) r ty m.
Proof.
  intros O [Vs Vm Nk] Ss Sm. destruct st as [subs ms]. cbn [fst snd] in *. unfold unload_gpu.
  rewrite (find_ok _ _ _ _ subs) by auto. cbn [obind]. rewrite (ok_size _ _ Vs), (ok_size _ _ Vm).
  destruct (Nat.leb_spec (length subs) (pos r ty subs)) as [H|H].
  - exists []. split; [reflexivity|]. split; [constructor|]. intros i. split; [easy|].
    intros [m [_ [_ [s [Hs [Hr [Ht _]]]]]]]. apply In_nth_error in Hs. destruct Hs as [j Hj].
    assert (K : same_key r ty s = true) by (apply same_key_iff; unfold gkey; congruence).
    rewrite (pos_unique r ty subs j s Nk Hj K) in H. assert (j < length subs) by (apply nth_error_Some; congruence). lia.
  - destruct (Nat.eqb_spec (length ms) 0) as [H0|H0].
    { exists []. split; [reflexivity|]. split; [constructor|]. intros i. split; [easy|]. destruct ms; [|discriminate].
      intros [m [X _]]. now destruct i. }
    destruct (pos_nth r ty subs H) as [s [Hs Ks]]. destruct Vs as [[rest D] _ _ _ _]. rewrite D, (read_obj _ _ _ _ Hs). cbn [obind].
    pose proof Ks as K. apply same_key_iff in K. unfold gkey in K. injection K as Kt Kr. rewrite Kt, Nat.eqb_refl. cbn [negb].
    destruct Vm as [[rest' D'] Szm _ _ _]. unfold find_kernel. rewrite Szm.
    match goal with |- context [launch (ord 1) 1 _ ?b ?s] => destruct (launch_visits (ord 1) 1 _ b s (O 1) Sm) as [order [P ->]] end.
    assert (No : NoDup order) by (apply (Permutation_NoDup (Permutation_sym P)), seq_NoDup).
    assert (Bo : forall i, In i order -> i < length ms) by (intros i Hi; apply (Permutation_in _ P), in_seq in Hi; lia).
    destruct (unload_fold b s ms rest' D' order [] No Bo ltac:(easy)) as [q [E [Nq Iq]]].
    cbn [length map app] in E. rewrite Nat.sub_0_r in E. rewrite E. cbn [obind fst snd].
    exists q. split; [exact (read_all_objs q _ [])|]. split; [assumption|]. intros i. rewrite Iq. split.
    + intros [[]|[Hi M]]. specialize (Bo _ Hi). exists (nth i ms g_default). split; [now apply nth_error_nth'|].
      apply (is_mine r ty) in M; try assumption. destruct M as [M1 M2]. split; [assumption|]. exists s. eauto using nth_error_In.
    + intros [m [Hm [Tm [s' [Hs' [Hr' [Ht' Hin]]]]]]]. right.
      assert (Hi : i < length ms) by (apply nth_error_Some; congruence). split.
      * apply (Permutation_in _ (Permutation_sym P)), in_seq. lia.
      * rewrite (nth_error_nth _ _ _ Hm). apply (is_mine r ty); try assumption. split; [assumption|].
        apply In_nth_error in Hs'. destruct Hs' as [j Hj].
        assert (K' : same_key r ty s' = true) by (apply same_key_iff; unfold gkey; congruence).
        rewrite (pos_unique r ty subs j s' Nk Hj K') in Hs. congruence.
Qed.

(** ** The other calls *)
Lemma subscribe_ok ord b st r ty ss : fair_call ord -> gok b st ->
  (N.of_nat (length (fst st) + 1) <= limit)%N ->
  (forall s, In s (fst st) -> (N.of_nat (length (gs_senders s) + length ss) <= limit)%N) ->
  (N.of_nat (length ss) <= limit)%N ->
  exists b', subscribe_gpu ord b r ss ty = Ret (b', negb (existsb (same_key r ty) (fst st))) /\
    gok b' (add_sub (fst st) r ty ss, snd st).
Proof.
  intros O [Vs Vm Nk] Sl Ss Sn. destruct st as [subs ms]. cbn [fst snd] in *. unfold subscribe_gpu.
  rewrite (find_ok _ _ _ _ subs) by (auto; lia). cbn [obind]. rewrite (ok_size _ _ Vs), pos_existsb.
  pose proof (pos_le r ty subs) as L.
  destruct (Nat.eqb_spec (pos r ty subs) (length subs)) as [H|H]; cbn [negb].
  - destruct (Nat.ltb_spec (pos r ty subs) (length subs)); [lia|]. cbn [negb].
    rewrite gs_adds_ok by (cbn [gs_senders length]; auto). cbn [obind gs_receiver gs_type gs_senders].
    destruct (h_push_ok gsub_elem (ord 1) (g_subs b) subs (mkGSub r ty (add_new [] ss)) (O 1) Vs Sl) as [v [-> V]].
    cbn [obind]. eexists. split; [reflexivity|]. constructor; cbn [fst snd g_subs g_msgs]; [|assumption|now apply add_sub_NoDup].
    now rewrite add_sub_new.
  - destruct (Nat.ltb_spec (pos r ty subs) (length subs)); [|lia]. cbn [negb].
    destruct (pos_nth r ty subs) as [s [Hs Ks]]; [assumption|].
    pose proof Vs as [[rest D] _ _ _ _]. rewrite D, (read_obj _ _ _ _ Hs). cbn [obind].
    rewrite gs_adds_ok by (auto; apply Ss; eauto using nth_error_In). cbn [obind].
    apply same_key_iff in Ks. unfold gkey in Ks. injection Ks as -> ->.
    destruct (h_set_ok (g_subs b) subs (pos r ty subs) (mkGSub r ty (add_new (gs_senders s) ss)) Vs) as [v [-> [V _]]].
    cbn [obind fst]. eexists. split; [reflexivity|]. constructor; cbn [fst snd g_subs g_msgs]; [|assumption|now apply add_sub_NoDup].
    destruct (Nat.ltb_spec (pos r ty subs) (length subs)); [|lia]. now rewrite (add_sub_old _ _ _ _ s).
Qed.

Lemma unsubscribe_ok ord b st r ty : fair_call ord -> gok b st -> (N.of_nat (length (fst st)) <= limit)%N ->
  match drop_sub (fst st) r ty with
  | Some l => exists b', unsubscribe_gpu ord b r ty = Ret (b', existsb (same_key r ty) (fst st)) /\ gok b' (l, snd st)
  | None => unsubscribe_gpu ord b r ty = UB
  end.
Proof.
  intros O G Sl. pose proof G as [Vs Vm Nk]. destruct st as [subs ms]. cbn [fst snd] in *. unfold unsubscribe_gpu.
  rewrite (find_ok _ _ _ _ subs) by auto. cbn [obind]. rewrite (ok_size _ _ Vs), pos_existsb.
  pose proof (pos_le r ty subs) as L.
  destruct (Nat.leb_spec (length subs) (pos r ty subs)) as [H|H].
  - rewrite drop_sub_none by lia. destruct (Nat.ltb_spec (pos r ty subs) (length subs)); [lia|]. exists b. split; [reflexivity|assumption].
  - destruct (Nat.ltb_spec (pos r ty subs) (length subs)); [|lia].
    destruct (Nat.eq_dec (S (pos r ty subs)) (length subs)) as [E|E].
    + rewrite drop_sub_last by assumption.
      destruct (h_erase_ok gsub_elem (ord 1) (g_subs b) subs (pos r ty subs) (pos r ty subs + 1) (O 1) Vs Sl) as [v [-> V]].
      { right. cbn. lia. }
      cbn [obind]. eexists. split; [reflexivity|]. cbn [list_op] in V.
      destruct (Nat.ltb_spec (pos r ty subs) (length subs)); [|lia]. destruct (Nat.ltb_spec (pos r ty subs) (pos r ty subs + 1)); [|lia].
      cbn [andb] in V. rewrite skipn_all2 in V by lia. rewrite app_nil_r in V.
      constructor; cbn [fst snd g_subs g_msgs]; try assumption.
      apply (NoDup_front _ (map gkey (skipn (pos r ty subs) subs))). now rewrite <- map_app, firstn_skipn.
    + rewrite drop_sub_other by lia. rewrite (h_erase_class gsub_elem (ord 1) (g_subs b) subs); auto. cbn. lia.
Qed.

Lemma send_ok ord b st m : any_orders ord -> gok b st -> (N.of_nat (length (snd st) + 1) <= limit)%N ->
  exists b', send_gpu ord b m = Ret b' /\ gok b' (fst st, snd st ++ [m]) /\ g_subs b' = g_subs b.
Proof.
  intros O [Vs Vm Nk] Sl. unfold send_gpu.
  destruct (h_push_ok gmsg_elem ord (g_msgs b) (snd st) m O Vm Sl) as [v [-> V]]. cbn [obind].
  eexists. split; [reflexivity|]. split; [|reflexivity]. constructor; assumption.
Qed.
Lemma clear_ok ord b st : any_orders ord -> gok b st -> (N.of_nat (length (snd st)) <= limit)%N ->
  exists b', clear_bus ord b = Ret b' /\ gok b' (fst st, []) /\ g_subs b' = g_subs b.
Proof.
  intros O [Vs Vm Nk] Sl. unfold clear_bus.
  destruct (h_clear_ok gmsg_elem ord 0 (g_msgs b) (snd st) O Vm Sl) as [v [-> [V _]]]. cbn [obind].
  eexists. split; [reflexivity|]. split; [|reflexivity]. constructor; assumption.
Qed.
Lemma batch_ok ord b st v ms : any_orders ord -> gok b st -> vok v ms ->
  (N.of_nat (length (snd st) + length ms) <= limit)%N ->
  exists b', send_batch ord b v = Ret b' /\ gok b' (fst st, snd st ++ ms) /\ g_subs b' = g_subs b.
Proof.
  intros O [Vs Vm Nk] V Sl. destruct st as [subs old]. cbn [fst snd] in *. unfold send_batch.
  rewrite (ok_size _ _ V), (ok_size _ _ Vm).
  destruct (h_resize_ok gmsg_elem ord 0 (g_msgs b) old (length old + length ms) O Vm ltac:(lia) Sl) as [w [-> [W _]]]. cbn [obind].
  rewrite firstn_all2 in W by lia. replace (length old + length ms - length old) with (length ms) in W by lia.
  destruct (Nat.eqb_spec (length ms) 0) as [H|H].
  - destruct ms; [|discriminate]. cbn [length repeat] in W. eexists. split; [reflexivity|]. split; [|reflexivity]. constructor; assumption.
  - pose proof W as [[rest D] Sz Le Cap Nul]. destruct V as [[rest' D'] _ _ _ _].
    rewrite app_length, repeat_length in Le, Sz.
    assert (Ld : length (deref w) = length old + length ms + length rest).
    { rewrite D, app_length, map_length, app_length, repeat_length. reflexivity. }
    rewrite (launch_span ord 3 _ (fun i => Obj (nth i ms g_default))) with (off := length old); try assumption; try lia.
    + cbn [obind]. rewrite map_nth_all. eexists. split; [reflexivity|]. split; [|reflexivity].
      constructor; cbn [fst snd g_subs g_msgs]; try assumption. rewrite Sz.
      assert (SP : span (deref w) (length old) (map Obj ms) = map Obj (old ++ ms) ++ rest).
      { rewrite D, !map_app, <- !app_assoc. apply span_at; [apply map_length|]. rewrite !map_length, repeat_length. reflexivity. }
      eapply vok_at; [|exact SP| | | |]; rewrite ?app_length; try assumption; try lia.
      rewrite SP, app_length, map_length, app_length. lia.
    + intros i m' Hi Lm Nm. assert (Ni : nth_error ms i = Some (nth i ms g_default)) by (apply nth_error_nth'; assumption).
      rewrite D', (read_obj _ _ _ _ Ni). cbn [obind].
      destruct (nth_objs (old ++ repeat (e_default gmsg_elem) (length ms)) rest (length old + i)) as [a [_ Na]].
      { rewrite app_length, repeat_length. lia. }
      apply (assign_upd gmsg_elem m' (length old + i) (Obj a)); [|discriminate]. rewrite Nm, D. exact Na.
Qed.

(** ** Histories *)
Definition bounded (st : gstate) (n : nat) : Prop :=
  length (fst st) <= n /\ length (snd st) <= n /\ forall s, In s (fst st) -> length (gs_senders s) <= n.
Lemma add_sub_In l r ty ss x : In x (add_sub l r ty ss) ->
  In x l \/ exists old, x = mkGSub r ty (add_new old ss) /\ (old = [] \/ exists s, In s l /\ gs_senders s = old).
Proof.
  induction l as [|s l IH]; cbn [add_sub]; [intros [<-|[]]; right; eauto|].
  destruct (same_key r ty s).
  - intros [<-|H]; [|left; now right]. right. eexists. split; [reflexivity|]. right. exists s. split; [now left|reflexivity].
  - intros [<-|H]; [left; now left|]. destruct (IH H) as [?|[old [E Ho]]]; [left; now right|]. right. exists old. split; [assumption|].
    destruct Ho as [?|[s' [? ?]]]; [now left|right; exists s'; split; [now right|assumption]].
Qed.
Lemma drop_sub_In l r ty l' : drop_sub l r ty = Some l' -> incl l' l /\ length l' <= length l.
Proof.
  revert l'. induction l as [|s l IH]; intros l' H; cbn [drop_sub] in H; [injection H as <-; split; [easy|lia]|].
  destruct (same_key r ty s).
  - destruct l; [|discriminate]. injection H as <-. split; [easy|cbn; lia].
  - destruct (drop_sub l r ty) as [l1|]; [|discriminate]. cbn [option_map] in H. injection H as <-.
    destruct (IH _ eq_refl) as [I L]. split; [|cbn [length]; lia]. intros x [<-|Hx]; [now left|right; auto].
Qed.
Lemma gspec_bounded st o st' n : bounded st n -> gspec st o = Some st' -> bounded st' (n + weight o).
Proof.
  intros [B1 [B2 B3]] H. destruct st as [subs ms]. cbn [fst snd] in *.
  destruct o; cbn [gspec fst snd weight] in *.
  - injection H as <-. unfold bounded. cbn [fst snd]. split; [|split; [lia|]].
    + assert (length (add_sub subs r ty senders) <= S (length subs)); [|lia].
      clear. induction subs as [|s l IH]; cbn [add_sub length]; [lia|]. destruct (same_key r ty s); cbn [length]; lia.
    + intros s Hs. apply add_sub_In in Hs. destruct Hs as [Hs|[old [-> Ho]]]; [apply B3 in Hs; lia|]. cbn [gs_senders].
      pose proof (add_new_length senders old). destruct Ho as [->|[s' [Hs' <-]]]; [cbn [length] in *; lia|]. apply B3 in Hs'. lia.
  - destruct (drop_sub subs r ty) as [l|] eqn:E; [|discriminate]. cbn [option_map] in H. injection H as <-.
    destruct (drop_sub_In _ _ _ _ E) as [I L]. unfold bounded. cbn [fst snd]. repeat split; try lia. intros s Hs. apply I, B3 in Hs. lia.
  - injection H as <-. unfold bounded. cbn [fst snd]. repeat split; try lia. intros s Hs. apply B3 in Hs. lia.
  - injection H as <-. unfold bounded. cbn [fst snd]. rewrite app_length. cbn [length]. repeat split; try lia. intros s Hs. apply B3 in Hs. lia.
  - injection H as <-. unfold bounded. cbn [fst snd]. rewrite app_length. repeat split; try lia. intros s Hs. apply B3 in Hs. lia.
  - injection H as <-. unfold bounded. cbn [fst snd length]. repeat split; try lia. intros s Hs. apply B3 in Hs. lia.
  - injection H as <-. unfold bounded. cbn [fst snd]. repeat split; try lia. intros s Hs. apply B3 in Hs. lia.
Qed.

Lemma gexec_ok ord b st o n : fair_call ord -> gok b st -> bounded st n -> (N.of_nat (n + weight o) <= limit)%N ->
  match gspec st o with
  | Some st' => exists b' x, gexec ord b o = Ret (b', x) /\ gok b' st' /\ ganswer st o x
  | None => gexec ord b o = UB
  end.
Proof.
  intros O G [B1 [B2 B3]] S. destruct o; cbn [gspec gexec ganswer weight] in *.
  - destruct (subscribe_ok ord b st r ty senders O G ltac:(lia)) as [b' [-> G']].
    { intros s Hs. apply B3 in Hs. lia. }
    { lia. }
    cbn [obind fst snd]. eauto.
  - pose proof (unsubscribe_ok ord b st r ty O G ltac:(lia)) as U. destruct (drop_sub (fst st) r ty); cbn [option_map].
    + destruct U as [b' [-> G']]. cbn [obind fst snd]. eauto.
    + now rewrite U.
  - unfold remove_receiver_gpu. eauto.
  - destruct (send_ok (ord 0) b st m (O 0) G ltac:(lia)) as [b' [-> [G' _]]]. cbn [obind]. eauto.
  - destruct (from_std_ok ms) as [v [-> V]]. cbn [obind].
    destruct (batch_ok (ord 0) b st v ms (O 0) G V ltac:(lia)) as [b' [-> [G' _]]]. cbn [obind]. eauto.
  - destruct (clear_ok (ord 0) b st (O 0) G ltac:(lia)) as [b' [-> [G' _]]]. cbn [obind]. eauto.
  - destruct (unload_ok ord b st ty r O G ltac:(lia) ltac:(lia)) as [l [-> [N I]]]. cbn [obind].
    exists b, (GIds l). split; [reflexivity|]. split; [assumption|]. eauto.
Qed.

Lemma grun_ok : forall ops b st n, Forall (fun c => fair_call (fst c)) ops -> gok b st -> bounded st n ->
  (N.of_nat (n + list_sum (map weight (map snd ops))) <= limit)%N ->
  match gspecs st (map snd ops) with
  | Some st' => exists b' xs, grun b ops = Ret (b', xs) /\ gok b' st' /\ ganswers st (map snd ops) xs
  | None => grun b ops = UB
  end.
Proof.
  induction ops as [|[ord o] ops IH]; intros b st n F G B S; cbn [map snd gspecs grun].
  - exists b, []. cbn [ganswers]. auto.
  - apply Forall_cons_iff in F. destruct F as [F1 F2]. cbn [fst map snd list_sum fold_right] in *.
    pose proof (gexec_ok ord b st o n F1 G B) as X. unfold list_sum in *. cbn [map snd fold_right] in S.
    specialize (X ltac:(lia)). destruct (gspec st o) as [st1|] eqn:E.
    + destruct X as [b1 [x [-> [G1 A1]]]]. cbn [obind fst snd].
      pose proof (gspec_bounded _ _ _ _ B E) as B1.
      specialize (IH b1 st1 (n + weight o) F2 G1 B1 ltac:(lia)).
      destruct (gspecs st1 (map snd ops)) as [st2|].
      * destruct IH as [b2 [xs [-> [G2 A2]]]]. cbn [obind fst snd]. exists b2, (x :: xs). split; [reflexivity|]. split; [assumption|].
        cbn [ganswers]. rewrite E. auto.
      * rewrite IH. reflexivity.
    + rewrite X. reflexivity.
Qed.
Lemma gok_init : gok gbus_init ([], []).
Proof. constructor; cbn [fst snd gbus_init g_subs g_msgs map]; [apply vok_empty|apply vok_empty|constructor]. Qed.
Lemma bounded_init : bounded ([], []) 0.
Proof. unfold bounded. cbn. repeat split; try lia. Qed.
