(** Proofs about the framework. *)
From Verif Require Import Base ListLemmas Messaging_Model Messaging_Spec Core_Model Framework_Model Framework_Spec.

(** ** Network *)
Section Net.
Context {A : Type}.
Implicit Types (l : registry A).
Lemma reg_find_Some u l x : reg_find u l = Some x -> In (u, x) l.
Proof.
  unfold reg_find. destruct (find (fun e => N.eqb (fst e) u) l) as [[v y]|] eqn:F; [|discriminate]. intros E. injection E as <-.
  apply find_some in F as [Hin Hb]. apply N.eqb_eq in Hb. cbn [fst snd] in *. now subst.
Qed.
Lemma reg_find_None u l : reg_find u l = None -> ~ In u (map fst l).
Proof.
  unfold reg_find. destruct (find (fun e => N.eqb (fst e) u) l) as [[v y]|] eqn:F; [discriminate|]. intros _ Hin.
  apply in_map_iff in Hin as (e & <- & Hin). pose proof (find_none _ _ F e Hin) as H. cbn beta in H.
  rewrite N.eqb_refl in H. discriminate.
Qed.
Lemma reg_find_In u l x : reg_find u l = Some x -> In u (map fst l).
Proof. intros H. apply reg_find_Some in H. now apply (in_map fst) in H. Qed.
Lemma reg_erase_spec u : forall l, NoDup (map fst l) ->
  match reg_erase u l with
  | Some l' => In u (map fst l) /\ l' = filter (fun p => negb (N.eqb (fst p) u)) l
  | None => ~ In u (map fst l)
  end.
Proof.
  induction l as [|[v x] t IH]; intros Hn; cbn [reg_erase map fst filter]; [auto|].
  inversion Hn as [|? ? Hni Hn']; subst. cbn [fst] in *. destruct (N.eqb_spec v u) as [E|E]; cbn [negb].
  - subst. split; [now left|]. clear -Hni. induction t as [|[w y] t IHt]; [reflexivity|]. cbn [map fst filter] in *.
    destruct (N.eqb_spec w u) as [E|E]; cbn [negb]; [subst; exfalso; apply Hni; now left|]. f_equal. apply IHt. intros H. apply Hni. now right.
  - specialize (IH Hn'). destruct (reg_erase u t) as [t'|]; cbn [In].
    + destruct IH as [H1 ->]. auto.
    + intuition.
Qed.
Lemma NoDup_filter_fst (p : uid * A -> bool) l : NoDup (map fst l) -> NoDup (map fst (filter p l)).
Proof.
  induction l as [|e t IH]; intros H; [constructor|]. cbn [map] in H. inversion H as [|? ? Hni Hn]; subst.
  cbn [filter]. destruct (p e); [|auto]. cbn [map]. constructor; [|auto].
  intros Hin. apply Hni. apply in_map_iff in Hin as (e' & E & Hin). apply filter_In in Hin as [Hin _].
  rewrite <- E. now apply in_map.
Qed.
Lemma reg_exec_right l o l' x : NoDup (map fst l) -> checked o = true -> reg_exec l o = (l', x) ->
  right_answer l o x /\ l' = live_step l (o, x) /\ NoDup (map fst l').
Proof.
  intros Hn Hc H. destruct o as [u v|u v|u|u|u|]; cbn [checked] in Hc; try discriminate; cbn [reg_exec] in H.
  - unfold reg_add in H. destruct (reg_find u l) eqn:F; injection H as <- <-; cbn [right_answer live_step].
    + split; [eapply reg_find_In; eauto|auto].
    + apply reg_find_None in F. split; [exact F|]. split; [reflexivity|]. unfold reg_add_variant.
      rewrite map_app. cbn [map fst]. apply NoDup_app_intro; [exact Hn|repeat constructor; cbn; tauto|].
      intros a Ha [<-|[]]. contradiction.
  - pose proof (reg_erase_spec u l Hn) as HE. destruct (reg_erase u l); injection H as <- <-; cbn [right_answer live_step].
    + destruct HE as [H1 ->]. split; [exact H1|]. split; [reflexivity|now apply NoDup_filter_fst].
    + auto.
  - destruct (reg_find u l) eqn:F; injection H as <- <-; cbn [right_answer live_step].
    + split; [now apply reg_find_Some|auto].
    + split; [now apply reg_find_None|auto].
  - injection H as <- <-. cbn [right_answer live_step]. split; [|auto]. destruct (reg_find u l) eqn:F.
    + split; [intros _; eapply reg_find_In; eauto|reflexivity].
    + split; [discriminate|]. intros Hin. apply reg_find_None in F. contradiction.
  - injection H as <- <-. cbn [right_answer live_step]. auto.
Qed.
Lemma reg_run_right : forall ops l l' tr, NoDup (map fst l) -> forallb checked ops = true -> reg_run l ops = (l', tr) ->
  l' = fold_left live_step tr l /\ NoDup (map fst l') /\
  forall pre o x post, tr = pre ++ (o, x) :: post -> right_answer (fold_left live_step pre l) o x.
Proof.
  induction ops as [|o ops IH]; intros l l' tr Hn Hc H; cbn [reg_run] in H.
  - injection H as <- <-. split; [reflexivity|]. split; [exact Hn|]. intros pre o x post E. destruct pre; discriminate.
  - cbn [forallb] in Hc. apply andb_true_iff in Hc as [Hc1 Hc2].
    destruct (reg_exec l o) as [l1 x] eqn:E. destruct (reg_run l1 ops) as [l2 tr2] eqn:E2. injection H as <- <-.
    destruct (reg_exec_right l o l1 x Hn Hc1 E) as (Hr & -> & Hn1).
    destruct (IH _ _ _ Hn1 Hc2 E2) as (Hl & Hn2 & Hall). cbn [fold_left]. split; [exact Hl|]. split; [exact Hn2|].
    intros pre o' x' post Et. destruct pre as [|e pre]; cbn [app] in Et; injection Et as <- Et.
    + rewrite <- Et. exact Hr.
    + cbn [fold_left]. eapply Hall; eauto.
Qed.
End Net.

(** ** Loader *)
Lemma In_channels b c ps : In (c, ps) (channels_of b) <->
  exists bucket p, In bucket b /\ nth_error bucket 0 = Some (c, p) /\ ps = map snd bucket.
Proof.
  unfold channels_of. rewrite in_flat_map. split.
  - intros (bucket & Hb & H). destruct bucket as [|[c' p'] t]; [contradiction|]. destruct H as [H|[]].
    injection H as <- <-. exists ((c', p') :: t), p'. auto.
  - intros (bucket & p & Hb & H & ->). exists bucket. split; [exact Hb|]. destruct bucket as [|[c' p'] t]; [discriminate|].
    cbn [nth_error] in H. injection H as -> ->. now left.
Qed.
Section Layout.
Variables (h : uid -> nat) (entries : list (uid * uid)) (b : buckets).
Hypothesis HL : layout h entries b.

Lemma In_bucket bucket : In bucket b -> exists i, i < length b /\ nth i b [] = bucket.
Proof. intros H. apply (In_nth _ _ []) in H as (i & Hi & E). eauto. Qed.
Lemma bucket_entry i e : In e (nth i b []) <-> In e entries /\ h (fst e) = i.
Proof.
  destruct HL as [H _]. split.
  - intros He. apply (Permutation_in _ (H i)) in He. apply filter_In in He as [H1 H2]. apply Nat.eqb_eq in H2. auto.
  - intros [H1 H2]. apply (Permutation_in _ (Permutation_sym (H i))). apply filter_In. split; [exact H1|now apply Nat.eqb_eq].
Qed.

Lemma channel_peers c ps : separated h entries -> In (c, ps) (channels_of b) -> forall p, In p ps <-> In (c, p) entries.
Proof.
  intros Hs H p. apply In_channels in H as (bucket & p0 & Hb & H0 & ->). apply In_bucket in Hb as (i & _ & <-).
  apply nth_error_In in H0. apply bucket_entry in H0 as (Hc & Hi). split.
  - intros Hp. apply in_map_iff in Hp as ([c' p'] & Ep & Hin). cbn [snd] in Ep. subst p'.
    apply bucket_entry in Hin as (Hin & Hi'). cbn [fst] in *.
    assert (c' = c) as -> by exact (Hs _ _ Hin Hc (eq_trans Hi' (eq_sym Hi))). exact Hin.
  - intros Hp. apply in_map_iff. exists (c, p). split; [reflexivity|]. apply bucket_entry. auto.
Qed.
Lemma channel_exists c p : separated h entries -> In (c, p) entries -> In c (map fst (channels_of b)).
Proof.
  intros Hs Hin. pose proof (proj2 HL _ Hin) as Hlt. cbn [fst] in Hlt.
  assert (Hb : In (nth (h c) b []) b) by now apply nth_In.
  destruct (nth (h c) b []) as [|[c' p'] t] eqn:E.
  - exfalso. assert (In (c, p) (nth (h c) b [])) by (apply bucket_entry; auto). rewrite E in H. contradiction.
  - assert (c' = c) as ->.
    { assert (In (c', p') (nth (h c) b [])) as H by (rewrite E; now left). apply bucket_entry in H as [H1 H2].
      exact (Hs _ _ H1 Hin H2). }
    apply in_map_iff. exists (c, map snd ((c, p') :: t)). split; [reflexivity|]. apply In_channels.
    exists ((c, p') :: t), p'. auto.
Qed.
Lemma channel_key c : In c (map fst (channels_of b)) -> exists p, In (c, p) entries.
Proof.
  intros H. apply in_map_iff in H as ([c' ps] & E & H). cbn [fst] in E. subst c'.
  apply In_channels in H as (bucket & p & Hb & H0 & _). apply In_bucket in Hb as (i & _ & <-).
  apply nth_error_In in H0. apply bucket_entry in H0 as [H0 _]. eauto.
Qed.
End Layout.
Lemma channels_NoDup h entries : forall b, layout h entries b -> NoDup (map fst (channels_of b)).
Proof.
  intros b HL.
  assert (G : forall bs n, (forall i, n <= i -> forall e, In e (nth (i - n) bs []) -> h (fst e) = i) ->
            NoDup (map fst (channels_of bs)) /\ forall c, In c (map fst (channels_of bs)) -> n <= h c).
  { induction bs as [|bk bs IH]; intros n Hn; [split; [constructor|contradiction]|].
    destruct (IH (S n)) as [IH1 IH2].
    { intros i Hi e He. apply Hn; [lia|]. replace (i - n) with (S (i - S n)) by lia. exact He. }
    unfold channels_of in *. cbn [flat_map]. destruct bk as [|[c p] t]; cbn [app map fst].
    - split; [exact IH1|]. intros c Hc. specialize (IH2 c Hc). lia.
    - assert (Hc : h c = n).
      { apply (Hn n (le_n n) (c, p)). rewrite Nat.sub_diag. now left. }
      split.
      + constructor; [|exact IH1]. intros H. specialize (IH2 c H). lia.
      + intros c' [<-|H]; [lia|]. specialize (IH2 c' H). lia. }
  apply (G b 0). intros i _ e He. rewrite Nat.sub_0_r in He. exact (proj2 (proj1 (bucket_entry h entries b HL i e) He)).
Qed.

Lemma gen_inputs_spec gens : forall chs,
  match gen_inputs gens chs with
  | Ret (cs, ops) => cs = map fst chs /\ (forall c, In c cs -> In c gens) /\
      ops = flat_map (fun x => OCreate :: map (fun p => OSubscribe 0 0 p [fst x]) (snd x)) chs
  | Throw => exists c, In c (map fst chs) /\ ~ In c gens
  | UB => False
  end.
Proof.
  induction chs as [|[c ps] t IH]; cbn [gen_inputs map fst snd flat_map].
  - repeat split; auto. intros c [].
  - destruct (mem c gens) eqn:Em.
    + destruct (gen_inputs gens t) as [[cs ops]| |]; cbn [obind fst snd].
      * destruct IH as (-> & H2 & ->). split; [reflexivity|]. split; [|reflexivity].
        intros c' [<-|H]; [now apply mem_In|now apply H2].
      * destruct IH as (c' & H1 & H2). exists c'. split; [now right|exact H2].
      * exact IH.
    + exists c. split; [now left|]. intros H. apply mem_In in H. congruence.
Qed.

Definition senders_of (o : option (list uid)) : list uid := match o with Some l => l | None => [] end.
Lemma listens_iff ops id r s : listens ops id r s <-> In s (senders_of (hist_senders ops id 0 r)).
Proof.
  unfold listens. destruct (hist_senders ops id 0 r) as [l|]; cbn [senders_of In].
  - split; [intros (l' & E & H); now injection E as <-|eauto].
  - split; [intros (l' & E & _); discriminate|contradiction].
Qed.
Lemma hist_subs_map id r (c : uid) : forall ps acc s,
  In s (senders_of (fold_left (hist_step id 0 r) (map (fun p => OSubscribe id 0 p [c]) ps) acc)) <->
  In s (senders_of acc) \/ (s = c /\ In r ps).
Proof.
  induction ps as [|p ps IH]; intros acc s; cbn [map fold_left In]; [intuition|]. rewrite IH. cbn [hist_step].
  rewrite !Nat.eqb_refl. cbn [andb]. destruct (N.eqb_spec p r) as [E|E].
  - subst. destruct acc as [l|]; cbn [senders_of]; [rewrite in_app_iff|]; cbn [In]; intuition.
  - intuition.
Qed.
Lemma hist_inputs r s : forall chs acc,
  In s (senders_of (fold_left (hist_step 0 0 r)
     (flat_map (fun x => OCreate :: map (fun p => OSubscribe 0 0 p [fst x]) (snd x)) chs) acc)) <->
  In s (senders_of acc) \/ exists ps, In (s, ps) chs /\ In r ps.
Proof.
  induction chs as [|[c ps] t IH]; intros acc; cbn [flat_map].
  - cbn [fold_left]. split; [auto|]. intros [H|(ps & [] & _)]. exact H.
  - cbn [app fold_left hist_step]. rewrite fold_left_app, IH, hist_subs_map. cbn [fst snd In]. split.
    + intros [[H|[-> H]]|(ps' & H1 & H2)]; [auto|right; eauto|right; eauto].
    + intros [H|(ps' & [E|H1] & H2)]; [auto| |right; eauto]. injection E as -> ->. auto.
Qed.

(** ** Output channel *)
Lemma sorted_app_inv {A} (R : A -> A -> Prop) l1 l2 : StronglySorted R (l1 ++ l2) ->
  StronglySorted R l1 /\ StronglySorted R l2 /\ forall x y, In x l1 -> In y l2 -> R x y.
Proof.
  induction l1 as [|a l1 IH]; cbn [app]; intros H.
  - split; [constructor|]. split; [exact H|]. intros x y [].
  - apply StronglySorted_inv in H as [H1 H2]. destruct (IH H1) as (S1 & S2 & S3). rewrite Forall_app in H2. destruct H2 as [F1 F2].
    split; [now constructor|]. split; [exact S2|]. intros x y [<-|Hx] Hy; [|auto]. rewrite Forall_forall in F2. auto.
Qed.
Lemma sorted_app {A} (R : A -> A -> Prop) l1 l2 : StronglySorted R l1 -> StronglySorted R l2 ->
  (forall x y, In x l1 -> In y l2 -> R x y) -> StronglySorted R (l1 ++ l2).
Proof.
  induction 1 as [|a l1 H1 IH HF]; cbn [app]; intros H2 Hx; [exact H2|]. constructor.
  - apply IH; [exact H2|]. intros x y Hxx Hy. apply Hx; [now right|exact Hy].
  - apply Forall_app. split; [exact HF|]. apply Forall_forall. intros y Hy. apply Hx; [now left|exact Hy].
Qed.
Lemma sorted_filter {A} (R : A -> A -> Prop) p l : StronglySorted R l -> StronglySorted R (filter p l).
Proof.
  induction 1 as [|a l H IH HF]; cbn [filter]; [constructor|]. destruct (p a); [|exact IH]. constructor; [exact IH|].
  rewrite Forall_forall in *. intros y Hy. apply filter_In in Hy as [Hy _]. auto.
Qed.
Lemma filter_none {A} (p : A -> bool) l : (forall x, In x l -> p x = false) -> filter p l = [].
Proof.
  induction l as [|a l IH]; intros H; [reflexivity|]. cbn [filter]. rewrite (H a) by now left. apply IH. intros; apply H; now right.
Qed.
Lemma filter_all {A} (p : A -> bool) l : (forall x, In x l -> p x = true) -> filter p l = l.
Proof.
  induction l as [|a l IH]; intros H; [reflexivity|]. cbn [filter]. rewrite (H a) by now left. f_equal. apply IH. intros; apply H; now right.
Qed.

Definition down (p : message -> bool) : Prop := forall m m', earlier m m' -> p m' = true -> p m = true.
Lemma prefix_parts p l : down p -> StronglySorted earlier l ->
  bound p l = Ret (prefix_length p l) /\
  firstn (prefix_length p l) l = filter p l /\ skipn (prefix_length p l) l = filter (fun m => negb (p m)) l.
Proof.
  intros Hd. induction 1 as [|m l HS IH HF]; [cbn; auto|].
  unfold bound in *. cbn [prefix_length filter]. destruct (p m) eqn:Ep; cbn [negb].
  - cbn [skipn firstn]. destruct (forallb (fun m0 => negb (p m0)) (skipn (prefix_length p l) l)) eqn:Ef.
    + destruct IH as (_ & I2 & I3). rewrite I2, I3. auto.
    + destruct IH as (I1 & _). discriminate.
  - cbn [skipn firstn]. assert (Hall : forall x, In x l -> p x = false).
    { intros x Hx. destruct (p x) eqn:E; [|reflexivity]. rewrite Forall_forall in HF. rewrite (Hd m x (HF x Hx) E) in Ep. discriminate. }
    rewrite (filter_none p l Hall). rewrite (filter_all (fun m => negb (p m)) l) by (intros x Hx; now rewrite (Hall x Hx)).
    cbn [forallb]. rewrite Ep. cbn [negb andb].
    replace (forallb (fun m0 => negb (p m0)) l) with true; [auto|]. symmetry. apply forallb_forall. intros x Hx. now rewrite (Hall x Hx).
Qed.
Lemma prefix_mono p q l : (forall m, p m = true -> q m = true) -> prefix_length p l <= prefix_length q l.
Proof.
  intros H. induction l as [|m l IH]; cbn [prefix_length]; [lia|]. destruct (p m) eqn:E; [rewrite (H m E); lia|lia].
Qed.
Lemma down_lt a : down (fun m => (msg_time m <? a)%N).
Proof. intros m m' H. unfold earlier in H. lia. Qed.
Lemma down_le b : down (fun m => (msg_time m <=? b)%N).
Proof. intros m m' H. unfold earlier in H. lia. Qed.
Lemma firstn_minus {A} (l : list A) i j : firstn (j - i) (skipn i l) = skipn i (firstn j l).
Proof. rewrite skipn_firstn_comm. reflexivity. Qed.
Lemma prefix_length_le p l : prefix_length p l <= length l.
Proof. induction l as [|m l IH]; cbn [prefix_length length]; [lia|]. destruct (p m); lia. Qed.

Lemma oc_read_exact limit a b buf : StronglySorted earlier buf -> (a <= b)%N -> (a + b + 1 <= limit)%N -> (limit < two64)%N ->
  oc_read limit a b buf = Ret (filter (in_interval a b) buf, filter (fun m => negb (in_interval a b m)) buf).
Proof.
  intros HS Hab Hl Hl64. unfold oc_read.
  assert (Hw : add64 (add64 a b) 1 = (a + b + 1)%N).
  { unfold add64, w64. rewrite (N.mod_small (a + b)) by lia. apply N.mod_small. lia. }
  rewrite Hw. replace (limit <? a + b + 1)%N with false by lia.
  destruct (prefix_parts _ buf (down_lt a) HS) as (B1 & F1 & S1).
  destruct (prefix_parts _ buf (down_le b) HS) as (B2 & F2 & S2).
  rewrite B1. cbn [obind]. rewrite B2. cbn [obind].
  set (i := prefix_length (fun m => (msg_time m <? a)%N) buf) in *.
  set (j := prefix_length (fun m => (msg_time m <=? b)%N) buf) in *.
  assert (Hij : i <= j) by (apply prefix_mono; intros m; lia).
  replace (Nat.ltb j i) with false by lia. rewrite firstn_minus. f_equal. f_equal.
  - rewrite F2.
    assert (E : skipn i (filter (fun m => (msg_time m <=? b)%N) buf) =
                filter (fun m => negb (msg_time m <? a)%N) (filter (fun m => (msg_time m <=? b)%N) buf)).
    { destruct (prefix_parts _ (filter (fun m => (msg_time m <=? b)%N) buf) (down_lt a) (sorted_filter _ _ _ HS)) as (_ & _ & E).
      rewrite <- E. f_equal. unfold i. clear -Hab HS. induction HS as [|m l HS IH HF]; [reflexivity|].
      cbn [prefix_length filter]. destruct (msg_time m <? a)%N eqn:E1.
      - replace (msg_time m <=? b)%N with true by lia. cbn [prefix_length]. rewrite E1. now rewrite IH.
      - destruct (msg_time m <=? b)%N eqn:E2; [cbn [prefix_length]; now rewrite E1|].
        rewrite filter_none; [reflexivity|]. intros x Hx. rewrite Forall_forall in HF. specialize (HF x Hx). unfold earlier in HF. lia. }
    rewrite E. clear. induction buf as [|m l IH]; [reflexivity|]. cbn [filter]. unfold in_interval at 1.
    destruct (msg_time m <=? b)%N eqn:E; cbn [filter].
    + rewrite IH. replace (a <=? msg_time m)%N with (negb (msg_time m <? a)%N) by lia. rewrite andb_true_r. reflexivity.
    + rewrite andb_false_r. exact IH.
  - rewrite F1, S2. clear -Hab HS. induction HS as [|m l HS IH HF]; [reflexivity|]. cbn [filter]. unfold in_interval at 1.
    destruct (msg_time m <? a)%N eqn:E1.
    + replace (msg_time m <=? b)%N with true by lia. cbn [negb]. replace (a <=? msg_time m)%N with false by lia. cbn [andb negb app].
      f_equal. exact IH.
    + replace (a <=? msg_time m)%N with true by lia. cbn [andb].
      rewrite filter_none in *.
      * cbn [app] in *. destruct (msg_time m <=? b)%N; cbn [negb]; [exact IH|f_equal; exact IH].
      * intros x Hx. rewrite Forall_forall in HF. specialize (HF x Hx). unfold earlier in HF. lia.
      * intros x Hx. rewrite Forall_forall in HF. specialize (HF x Hx). unfold earlier in HF. lia.
Qed.
Lemma oc_run_exact limit : (limit < two64)%N -> forall ops buf, StronglySorted earlier (buf ++ arriving ops) ->
  Forall (read_ok limit) ops -> oc_run limit buf ops = Ret (oc_expected buf ops).
Proof.
  intros Hl. induction ops as [|[ms|a b] ops IH]; intros buf HS HF; cbn [oc_run oc_expected]; [reflexivity| |];
    inversion HF as [|? ? H1 H2]; subst.
  - apply IH; [|exact H2]. unfold oc_update. cbn [arriving flat_map] in HS. rewrite <- app_assoc. exact HS.
  - destruct H1 as [Hab Hlim]. cbn [arriving flat_map app] in HS. fold (arriving ops) in HS.
    destruct (sorted_app_inv _ _ _ HS) as (S1 & S2 & S3).
    rewrite (oc_read_exact limit a b buf S1 Hab Hlim Hl). cbn [obind fst snd]. rewrite IH; [|apply sorted_app|exact H2].
    + cbn [obind]. destruct (oc_expected _ ops). reflexivity.
    + now apply sorted_filter.
    + exact S2.
    + intros x y Hx Hy. apply filter_In in Hx as [Hx _]. auto.
Qed.
Lemma oc_read_reversed limit a b buf : StronglySorted earlier buf -> (add64 (add64 a b) 1 <= limit)%N ->
  (exists m, In m buf /\ (b < msg_time m < a)%N) -> oc_read limit a b buf = UB.
Proof.
  intros HS Hl (m & Hin & Hm). unfold oc_read. replace (limit <? _)%N with false by lia.
  destruct (prefix_parts _ buf (down_lt a) HS) as (B1 & F1 & _).
  destruct (prefix_parts _ buf (down_le b) HS) as (B2 & F2 & _).
  rewrite B1. cbn [obind]. rewrite B2. cbn [obind].
  set (i := prefix_length (fun m => (msg_time m <? a)%N) buf) in *.
  set (j := prefix_length (fun m => (msg_time m <=? b)%N) buf) in *.
  destruct (Nat.ltb j i) eqn:E; [reflexivity|]. exfalso. apply Nat.ltb_ge in E.
  assert (Hmem : In m (firstn i buf)) by (rewrite F1; apply filter_In; split; [exact Hin|lia]).
  assert (Hmem' : In m (firstn j buf)).
  { rewrite <- (firstn_skipn i (firstn j buf)). apply in_or_app. left. rewrite firstn_firstn. now rewrite Nat.min_l by lia. }
  rewrite F2 in Hmem'. apply filter_In in Hmem' as [_ H]. lia.
Qed.

(** ** Executor *)
Lemma executor_app chans data : forall a b i,
  executor_events chans data i (a ++ b) =
  executor_events chans data i a ++
  executor_events chans data (i + length (filter (fun e => match e with EPre _ _ => true | _ => false end) a)) b.
Proof.
  induction a as [|e a IH]; intros b i; cbn [app executor_events filter length]; [now rewrite Nat.add_0_r|].
  destruct e; cbn [length app]; rewrite IH; try reflexivity.
  rewrite <- app_assoc. cbn [app]. do 4 f_equal. lia.
Qed.
Lemma In_inputs_sent chans data i s m : In m (inputs_sent chans data i s) <->
  exists j c, nth_error chans j = Some c /\ data i j s <> [] /\ m = SpikeMsg c s (data i j s).
Proof.
  unfold inputs_sent. rewrite in_flat_map.
  assert (Hc : forall (l : list uid) n x, In x (combine (seq n (length l)) l) <->
            n <= fst x /\ nth_error l (fst x - n) = Some (snd x)).
  { induction l as [|c l IH]; intros n x; cbn [length seq combine In].
    - split; [contradiction|]. intros [_ H]. destruct (fst x - n); discriminate.
    - rewrite IH. split.
      + intros [<-|[H1 H2]]; cbn [fst snd].
        * rewrite Nat.sub_diag. auto.
        * split; [lia|]. replace (fst x - n) with (S (fst x - S n)) by lia. exact H2.
      + intros [H1 H2]. destruct (Nat.eq_dec (fst x) n) as [E|E].
        * left. rewrite E, Nat.sub_diag in H2. injection H2 as ->. destruct x; cbn in *; now subst.
        * right. split; [lia|]. replace (fst x - n) with (S (fst x - S n)) in H2 by lia. exact H2. }
  split.
  - intros ([j c] & Hx & Hm). apply Hc in Hx as [_ Hx]. cbn [fst snd] in *. rewrite Nat.sub_0_r in Hx.
    exists j, c. split; [exact Hx|]. unfold ic_send in Hm. destruct (data i j s) eqn:E; [contradiction|].
    destruct Hm as [<-|[]]. split; [discriminate|reflexivity].
  - intros (j & c & Hn & Hd & ->). exists (j, c). split; [apply Hc; cbn [fst snd]; rewrite Nat.sub_0_r; auto with arith|].
    cbn [fst snd]. unfold ic_send. destruct (data i j s); [contradiction|now left].
Qed.

(** ** Output converters *)
Lemma upd_length {A} (f : A -> A) : forall l i, length (upd i f l) = length l.
Proof. induction l as [|x l IH]; intros [|i]; cbn [upd length]; auto. Qed.
Lemma upd_nth {A} (f : A -> A) : forall l i k, nth_error (upd i f l) k =
  if Nat.eqb i k then option_map f (nth_error l k) else nth_error l k.
Proof.
  induction l as [|x l IH]; intros [|i] [|k]; cbn [upd nth_error Nat.eqb option_map]; auto.
  destruct (Nat.eqb i k); reflexivity.
Qed.
Lemma iter_swap' {A} (f : A -> A) n x : Nat.iter n f (f x) = Nat.iter (S n) f x.
Proof. induction n as [|n IH]; [reflexivity|]. cbn [Nat.iter nat_rect] in *. now f_equal. Qed.
Lemma fold_upd_nth {A} (f : A -> A) size : forall idx (r : list A) k, length r = size -> k < size ->
  nth_error (fold_left (fun r i => if (i <? N.of_nat size)%N then upd (N.to_nat i) f r else r) idx r) k =
  option_map (Nat.iter (length (filter (fun i => N.eqb i (N.of_nat k)) idx)) f) (nth_error r k).
Proof.
  induction idx as [|i idx IH]; intros r k Hr Hk; cbn [fold_left filter length].
  - destruct (nth_error r k); reflexivity.
  - rewrite IH; [|destruct (i <? N.of_nat size)%N; [now rewrite upd_length|exact Hr]|exact Hk].
    destruct (N.eqb_spec i (N.of_nat k)) as [E|E].
    + subst i. replace (N.of_nat k <? N.of_nat size)%N with true by lia. rewrite Nat2N.id, upd_nth, Nat.eqb_refl.
      cbn [length]. destruct (nth_error r k); cbn [option_map]; [|reflexivity].
      f_equal. rewrite iter_swap'. reflexivity.
    + destruct (i <? N.of_nat size)%N eqn:El; [|reflexivity]. rewrite upd_nth.
      replace (Nat.eqb (N.to_nat i) k) with false by (symmetry; apply Nat.eqb_neq; lia). reflexivity.
Qed.
Lemma fold_upd_length {A} (f : A -> A) size : forall idx (r : list A),
  length (fold_left (fun r i => if (i <? N.of_nat size)%N then upd (N.to_nat i) f r else r) idx r) = length r.
Proof.
  induction idx as [|i idx IH]; intros r; cbn [fold_left]; [reflexivity|]. rewrite IH.
  destruct (i <? N.of_nat size)%N; [apply upd_length|reflexivity].
Qed.
Lemma nth_error_repeat' {A} (x : A) n k : k < n -> nth_error (repeat x n) k = Some x.
Proof. revert k. induction n as [|n IH]; intros [|k] H; cbn [repeat nth_error]; try lia; auto. apply IH. lia. Qed.
Lemma iter_true n : Nat.iter n (fun _ : bool => true) false = negb (Nat.eqb n 0).
Proof. destruct n; reflexivity. Qed.
Lemma iter_count n : Nat.iter n (fun c => add64 c 1) 0%N = w64 (N.of_nat n).
Proof.
  induction n as [|n IH]; [reflexivity|]. cbn [Nat.iter nat_rect]. change (nat_rect _ _ _ n) with (Nat.iter n (fun c => add64 c 1) 0%N).
  rewrite IH. unfold add64, w64. rewrite N.add_mod_idemp_l by discriminate. f_equal. lia.
Qed.
Lemma filter_zero (idx : list N) k : Nat.eqb (length (filter (fun i => N.eqb i k) idx)) 0 = false <-> In k idx.
Proof.
  rewrite Nat.eqb_neq. split.
  - intros H. destruct (filter _ idx) as [|x l] eqn:E; [cbn in H; lia|].
    assert (In x (filter (fun i => N.eqb i k) idx)) by (rewrite E; now left). apply filter_In in H0 as [H0 H1].
    apply N.eqb_eq in H1. now subst.
  - intros H H'. apply length_zero_iff_nil in H'. assert (In k (filter (fun i => N.eqb i k) idx)) by (apply filter_In; split; [exact H|apply N.eqb_refl]).
    rewrite H' in H0. contradiction.
Qed.
Lemma set_insert_In x y : forall l, In y (set_insert x l) <-> y = x \/ In y l.
Proof.
  induction l as [|z l IH]; cbn [set_insert]; [cbn [In]; intuition|].
  destruct (x <? z)%N; [cbn [In]; intuition|]. destruct (N.eqb_spec x z); [subst; cbn [In]; intuition|]. cbn [In]. rewrite IH. intuition.
Qed.
Lemma set_insert_sorted x : forall l, StronglySorted N.lt l -> StronglySorted N.lt (set_insert x l).
Proof.
  induction l as [|z l IH]; intros H; cbn [set_insert]; [repeat constructor|].
  apply StronglySorted_inv in H as [H1 H2]. destruct (N.ltb_spec x z) as [E|E].
  - constructor; [constructor; auto|]. constructor; [exact E|]. eapply Forall_impl; [|exact H2]. intros a Ha. cbn beta in *. lia.
  - destruct (N.eqb_spec x z); [constructor; auto|]. constructor; [auto|]. apply Forall_forall. intros y Hy.
    apply set_insert_In in Hy as [->|Hy]; [lia|]. rewrite Forall_forall in H2. auto.
Qed.
Lemma set_fold : forall idx s, StronglySorted N.lt s ->
  StronglySorted N.lt (fold_left (fun s i => set_insert i s) idx s) /\
  forall x, In x (fold_left (fun s i => set_insert i s) idx s) <-> In x s \/ In x idx.
Proof.
  induction idx as [|i idx IH]; intros s Hs; cbn [fold_left In]; [intuition|].
  destruct (IH _ (set_insert_sorted i s Hs)) as [H1 H2]. split; [exact H1|]. intros x. rewrite H2, set_insert_In. intuition.
Qed.

(** ** Input converters *)
Lemma sequence_spec {V} (interpret : V -> bool) : forall size i stream, i + size <= N.to_nat two32 ->
  match sequence_from interpret i size stream with
  | Ret (r, rest) => size <= length stream /\ rest = skipn size stream /\
      (forall k, In k r <-> exists j v, k = N.of_nat (i + j) /\ j < size /\ nth_error stream j = Some v /\ interpret v = true) /\
      StronglySorted N.lt r
  | UB => length stream < size
  | Throw => False
  end.
Proof.
  induction size as [|n IH]; intros i stream Hb; cbn [sequence_from].
  - split; [lia|]. split; [reflexivity|]. split; [|constructor]. intros k. split; [intros []|]. intros (j & v & _ & H & _). lia.
  - destruct stream as [|v t]; [cbn [length]; lia|]. specialize (IH (S i) t ltac:(lia)).
    destruct (sequence_from interpret (S i) n t) as [[r rest]| |]; cbn [obind fst snd]; [|contradiction|cbn [length]; lia].
    destruct IH as (H1 & -> & H2 & H3).
    assert (Hw : w32 (N.of_nat i) = N.of_nat i) by (apply N.mod_small; lia).
    assert (HS : forall k, In k r -> (N.of_nat i < k)%N) by (intros k Hk; apply H2 in Hk as (j & v' & -> & _); lia).
    split; [cbn [length]; lia|]. split; [reflexivity|]. split.
    + intros k. rewrite in_app_iff, H2. split.
      * intros [Hk|(j & v' & -> & Hj & Hn & Hv)].
        -- destruct (interpret v) eqn:Ev; [|contradiction]. destruct Hk as [<-|[]]. exists 0, v.
           rewrite Hw, Nat.add_0_r. repeat split; auto; lia.
        -- exists (S j), v'. repeat split; auto; lia.
      * intros (j & v' & -> & Hj & Hn & Hv). destruct j as [|j]; cbn [nth_error] in Hn.
        -- injection Hn as ->. left. rewrite Hv, Hw, Nat.add_0_r. now left.
        -- right. exists j, v'. repeat split; auto; try lia.
    + destruct (interpret v); cbn [app]; [|exact H3]. constructor; [exact H3|]. rewrite Hw. apply Forall_forall. exact HS.
Qed.

(** Texts. *)
Definition digits (ds : list N) : Prop := ds <> [] /\ Forall (fun d => (d < 10)%N) ds.
Lemma digit_char d : (d < 10)%N -> is_digit (d + 48) = true.
Proof. intros H. unfold is_digit. lia. Qed.
Lemma take_digits_text : forall ds rest acc, Forall (fun d => (d < 10)%N) ds ->
  match rest with c :: _ => is_digit c = false | [] => True end ->
  take_digits acc (text_of ds ++ rest) = fold_left (fun v d => (v * 10 + d)%N) ds acc.
Proof.
  induction ds as [|d ds IH]; intros rest acc HF Hr; cbn [text_of map app fold_left].
  - destruct rest as [|c t]; [reflexivity|]. cbn [take_digits]. now rewrite Hr.
  - inversion HF as [|? ? Hd HF']; subst. cbn [take_digits]. rewrite (digit_char d Hd).
    fold (text_of ds). rewrite (IH rest _ HF' Hr). replace (d + 48 - 48)%N with d by lia. reflexivity.
Qed.
Lemma stoul_text ds rest : digits ds -> (denotes ds < two64)%N ->
  match rest with c :: _ => is_digit c = false | [] => True end ->
  stoul (text_of ds ++ rest) = Ret (denotes ds).
Proof.
  intros [Hne HF] Hd Hr. unfold stoul. pose proof (take_digits_text ds rest 0%N HF Hr) as HT.
  destruct ds as [|d ds]; [contradiction|]. cbn [text_of map app] in *. fold (text_of ds) in *.
  inversion HF as [|? ? H1 H2]; subst.
  cbn [skip_spaces]. assert (Hs : is_space (d + 48) = false) by (unfold is_space; lia). rewrite Hs.
  replace (N.eqb (d + 48) 43) with false by lia. replace (N.eqb (d + 48) 45) with false by lia.
  rewrite (digit_char d H1), HT. unfold denotes in Hd. replace (_ <? two64)%N with true by lia. reflexivity.
Qed.
Lemma find_delim_text delim : is_digit delim = false -> forall ds pos rest, Forall (fun d => (d < 10)%N) ds ->
  find_delim delim pos (text_of ds ++ rest) = find_delim delim (pos + length ds) rest.
Proof.
  intros Hd. induction ds as [|d ds IH]; intros pos rest HF; cbn [text_of map app length]; [now rewrite Nat.add_0_r|].
  inversion HF as [|? ? H1 H2]; subst. cbn [find_delim].
  destruct (N.eqb_spec (d + 48) delim) as [E|E]; [rewrite <- E, (digit_char d H1) in Hd; discriminate|].
  fold (text_of ds). rewrite IH by exact H2. f_equal. lia.
Qed.
Lemma text_length ds : length (text_of ds) = length ds.
Proof. apply map_length. Qed.

Lemma index_loop_text delim : is_digit delim = false -> forall numbers pre fuel second,
  Forall (fun ds => digits ds /\ (denotes ds < two32)%N) numbers ->
  (numbers = [] \/ S second = length pre \/ (pre = [] /\ second = 0)) ->
  length (joined delim numbers) < fuel -> second <= length pre ->
  index_loop delim (pre ++ joined delim numbers) (length pre) second fuel = Ret (map denotes numbers).
Proof.
  intros Hdel. induction numbers as [|ds numbers IH]; intros pre fuel second HF Hsec Hfuel Hle.
  - cbn [joined map]. rewrite app_nil_r. destruct fuel; cbn [index_loop]; [reflexivity|]. now rewrite Nat.eqb_refl.
  - inversion HF as [|? ? [[Hne Hds] Hv] HF']; subst. destruct Hsec as [Hsec|Hsec]; [discriminate|].
    destruct fuel as [|f]; [lia|].
    set (rest := match numbers with [] => [] | _ => delim :: joined delim numbers end).
    assert (EJ : joined delim (ds :: numbers) = text_of ds ++ rest).
    { unfold rest. destruct numbers; [cbn [joined]; now rewrite app_nil_r|reflexivity]. }
    rewrite EJ in *. cbn [index_loop]. set (line := pre ++ text_of ds ++ rest).
    assert (Hdl : 0 < length ds) by (destruct ds; [contradiction|cbn; lia]).
    assert (Hll : length line = length pre + (length ds + length rest)) by (unfold line; now rewrite !app_length, text_length).
    replace (Nat.eqb (length pre) (length line)) with false by (symmetry; apply Nat.eqb_neq; lia).
    assert (Hrest : match rest with c :: _ => is_digit c = false | [] => True end) by (unfold rest; destruct numbers; auto).
    assert (Hrf : forall pos, find_delim delim pos rest = pos).
    { intros pos. unfold rest. destruct numbers; [reflexivity|]. cbn [find_delim]. now rewrite N.eqb_refl. }
    assert (Hfind : find_delim delim (S second) (skipn (S second) line) = length pre + length ds).
    { destruct Hsec as [Hsec|[Hp Hs0]].
      - rewrite Hsec. unfold line. rewrite skipn_app, Nat.sub_diag, skipn_all. cbn [app skipn].
        rewrite (find_delim_text delim Hdel ds) by exact Hds. apply Hrf.
      - subst pre second. unfold line. cbn [app length]. destruct ds as [|d ds']; [contradiction|].
        cbn [text_of map app skipn length]. fold (text_of ds').
        rewrite (find_delim_text delim Hdel ds') by (now inversion Hds). rewrite Hrf. lia. }
    rewrite Hfind.
    assert (Hsk : skipn (length pre) line = text_of ds ++ rest).
    { unfold line. rewrite skipn_app, Nat.sub_diag, skipn_all. reflexivity. }
    rewrite Hsk.
    assert (Hfn : exists r', firstn (length pre + length ds) (text_of ds ++ rest) = text_of ds ++ r' /\
              match r' with c :: _ => is_digit c = false | [] => True end).
    { exists (firstn (length pre) rest). rewrite Nat.add_comm, <- (text_length ds), firstn_app_2. split; [reflexivity|].
      destruct rest as [|c t]; [now rewrite firstn_nil|]. destruct (length pre); cbn [firstn]; auto. }
    destruct Hfn as (r' & Efn & Hr'). rewrite Efn.
    rewrite (stoul_text ds r' (conj Hne Hds)); [|change two64 with 18446744073709551616%N; change two32 with 4294967296%N in Hv; lia|exact Hr'].
    cbn [obind]. assert (Hw : w32 (denotes ds) = denotes ds) by (apply N.mod_small; exact Hv). rewrite Hw.
    destruct (Nat.eqb_spec (length pre + length ds) (length line)) as [E|E].
    + assert (length rest = 0) as Hr0 by lia. unfold rest in Hr0. destruct numbers; [reflexivity|cbn in Hr0; lia].
    + assert (Hn : numbers <> []).
      { intros ->. apply E. rewrite Hll. unfold rest. cbn [length]. lia. }
      assert (Er : rest = delim :: joined delim numbers) by (unfold rest; destruct numbers; [contradiction|reflexivity]).
      assert (El : line = (pre ++ text_of ds ++ [delim]) ++ joined delim numbers).
      { unfold line. rewrite Er, <- !app_assoc. reflexivity. }
      assert (Hlp : length (pre ++ text_of ds ++ [delim]) = S (length pre + length ds)).
      { rewrite !app_length, text_length. cbn [length]. lia. }
      rewrite El, <- Hlp. rewrite (IH (pre ++ text_of ds ++ [delim]) f (length pre + length ds)); auto.
      * rewrite app_length, text_length, Er in Hfuel. cbn [length] in Hfuel. lia.
      * lia.
Qed.

(** ** More on loader and executor *)
Lemma hist_outputs_ignored r : forall chs id0 id acc, id < id0 ->
  fold_left (hist_step id 0 r) (snd (gen_outputs id0 chs)) acc = acc.
Proof.
  induction chs as [|[c ps] t IH]; intros id0 id acc H; cbn [gen_outputs]; [reflexivity|].
  destruct (gen_outputs (S id0) t) as [cs ops] eqn:E. cbn [snd fold_left hist_step].
  replace (Nat.eqb id0 id) with false by (symmetry; apply Nat.eqb_neq; lia). cbn [andb].
  specialize (IH (S id0) id acc ltac:(lia)). rewrite E in IH. exact IH.
Qed.
Lemma gen_outputs_spec r : forall chs id0,
  fst (gen_outputs id0 chs) = map fst chs /\
  forall k, hist_senders (snd (gen_outputs id0 chs)) (id0 + k) 0 r =
            match nth_error chs k with
            | Some (c, ps) => if N.eqb c r then Some ps else None
            | None => None
            end.
Proof.
  induction chs as [|[c ps] t IH]; intros id0; cbn [gen_outputs map fst].
  - split; [reflexivity|]. intros [|k]; reflexivity.
  - destruct (IH (S id0)) as [I1 I2]. destruct (gen_outputs (S id0) t) as [cs ops] eqn:E. cbn [fst snd] in *.
    split; [now rewrite I1|]. intros k. unfold hist_senders in *. cbn [fold_left hist_step].
    destruct k as [|k]; cbn [nth_error].
    + rewrite Nat.add_0_r, Nat.eqb_refl. cbn [andb Nat.eqb].
      pose proof (hist_outputs_ignored r t (S id0) id0) as H. rewrite E in H. cbn [snd] in H.
      destruct (N.eqb c r); apply H; lia.
    + replace (Nat.eqb id0 (id0 + S k)) with false by (symmetry; apply Nat.eqb_neq; lia). cbn [andb].
      replace (id0 + S k) with (S id0 + k) by lia. apply I2.
Qed.

Lemma inputs_sent_due chans data i s : inputs_sent chans data i s = due_inputs chans (data i) s.
Proof.
  unfold inputs_sent. generalize (data i). clear data i. intros d.
  assert (G : forall n (d : nat -> N -> list N), flat_map (fun x => ic_send (snd x) s (d (fst x) s)) (combine (seq n (length chans)) chans) =
    due_inputs chans (fun j => d (n + j)) s).
  { induction chans as [|c l IH]; intros n d'; [reflexivity|]. cbn [length seq combine flat_map due_inputs fst snd].
    rewrite IH, Nat.add_0_r. f_equal.
    - unfold ic_send. destruct (d' n s); reflexivity.
    - clear. generalize (n : nat). revert d'. intros d' n0.
      assert (H : forall l d1 d2, (forall j, d1 j s = d2 j s) -> due_inputs l d1 s = due_inputs l d2 s).
      { clear. induction l as [|c l IH]; intros d1 d2 H; cbn [due_inputs]; [reflexivity|]. rewrite (H 0). f_equal. apply IH. intros j. apply H. }
      apply H. intros j. f_equal. lia. }
  rewrite (G 0 d). reflexivity.
Qed.
Lemma executor_events_sent chans data : forall evs i,
  sent_in (executor_events chans data i evs) = all_due chans data i (pre_steps evs) /\
  calls_in (executor_events chans data i evs) = evs.
Proof.
  assert (HX : forall ms, sent_in (map XSend ms) = ms /\ calls_in (map XSend ms) = []).
  { induction ms as [|m ms [I1 I2]]; [auto|]. unfold sent_in, calls_in in *. cbn [map flat_map app]. rewrite I1, I2. auto. }
  induction evs as [|e evs IH]; intros i; [auto|]. cbn [executor_events pre_steps flat_map].
  destruct e as [|s a|s a|s a]; try (destruct (IH i) as [I1 I2]; unfold sent_in, calls_in in *; cbn [flat_map app]; rewrite I1, I2; auto).
  destruct (IH (S i)) as [I1 I2]. destruct (HX (inputs_sent chans data i s)) as [H1 H2]. unfold sent_in, calls_in in *.
  rewrite !flat_map_app. cbn [flat_map app]. rewrite H1, H2, I1, I2. cbn [app all_due]. rewrite inputs_sent_due. auto.
Qed.
