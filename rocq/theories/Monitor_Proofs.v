From Verif Require Import Base ListLemmas Framework_Proofs Messaging_Model Monitor_Model Monitor_Spec.
From Coq Require Import String Ascii Permutation Sorted.
Open Scope list_scope.

(** ** Strings *)
Lemma N_of_ascii_inj a b : N_of_ascii a = N_of_ascii b -> a = b.
Proof. intros H. rewrite <- (ascii_N_embedding a), <- (ascii_N_embedding b). now rewrite H. Qed.
Lemma str_cmp_eq a b : str_cmp a b = Eq <-> a = b.
Proof.
  revert b. induction a as [|x a IH]; intros [|y b]; cbn [str_cmp]; try (split; congruence).
  destruct (N.compare_spec (N_of_ascii x) (N_of_ascii y)) as [E|L|L].
  - rewrite IH. split; [intros ->; f_equal; now apply N_of_ascii_inj|congruence].
  - split; [discriminate|]. intros [= -> ->]. lia.
  - split; [discriminate|]. intros [= -> ->]. lia.
Qed.
Lemma str_cmp_refl a : str_cmp a a = Eq. Proof. now apply str_cmp_eq. Qed.
Lemma str_cmp_sym a b : str_cmp b a = CompOpp (str_cmp a b).
Proof.
  revert b. induction a as [|x a IH]; intros [|y b]; cbn [str_cmp]; try reflexivity.
  rewrite N.compare_antisym. destruct (N.compare (N_of_ascii x) (N_of_ascii y)); cbn [CompOpp]; auto.
Qed.
Lemma str_cmp_trans a b c : str_cmp a b = Lt -> str_cmp b c = Lt -> str_cmp a c = Lt.
Proof.
  revert b c. induction a as [|x a IH]; intros [|y b] [|z c]; cbn [str_cmp]; try congruence.
  destruct (N.compare_spec (N_of_ascii x) (N_of_ascii y)) as [E|L|L]; destruct (N.compare_spec (N_of_ascii y) (N_of_ascii z)) as [E'|L'|L']; try congruence; intros H1 H2.
  - rewrite E, E', N.compare_refl. eauto.
  - rewrite E. apply N.compare_lt_iff in L'. now rewrite L'.
  - rewrite <- E'. apply N.compare_lt_iff in L. now rewrite L.
  - assert (X : (N_of_ascii x < N_of_ascii z)%N) by lia. apply N.compare_lt_iff in X. now rewrite X.
Qed.
Definition slt (a b : string) : Prop := str_cmp a b = Lt.
Lemma slt_irrefl a : ~ slt a a. Proof. unfold slt. now rewrite str_cmp_refl. Qed.

(** ** The map *)
Lemma map_insert_keys k v m : StronglySorted slt (map fst m) ->
  StronglySorted slt (map fst (map_insert k v m)) /\ (forall x, In x (map fst (map_insert k v m)) <-> x = k \/ In x (map fst m)).
Proof.
  induction m as [|[k' v'] m IH]; intros S; cbn [map_insert].
  - cbn. split; [repeat constructor|]. intuition.
  - cbn [map fst] in S. inversion S as [|? ? S1 S2]; subst. destruct (str_cmp k k') eqn:C.
    + apply str_cmp_eq in C as ->. cbn [map fst]. split; [exact S|]. cbn [In]. intuition.
    + cbn [map fst]. split.
      * constructor; [exact S|]. constructor; [exact C|]. eapply Forall_impl; [|exact S2]. intros a Ha. exact (str_cmp_trans _ _ _ C Ha).
      * cbn [In]. intuition.
    + destruct (IH S1) as [I1 I2]. cbn [map fst]. split.
      * constructor; [exact I1|]. apply Forall_forall. intros x Hx. apply I2 in Hx as [->|Hx]; [|rewrite Forall_forall in S2; auto].
        unfold slt. rewrite str_cmp_sym, C. reflexivity.
      * intros x. cbn [In]. rewrite I2. intuition.
Qed.
Lemma map_insert_zero k m : (forall p, In p m -> snd p = 0%N) -> forall p, In p (map_insert k 0%N m) -> snd p = 0%N.
Proof.
  induction m as [|[k' v'] m IH]; intros H p; cbn [map_insert].
  - intros [<-|[]]. reflexivity.
  - destruct (str_cmp k k').
    + apply H.
    + intros [<-|Hp]; [reflexivity|auto].
    + intros [<-|Hp]; [apply H; now left|]. apply IH; [|exact Hp]. intros q Hq. apply H. now right.
Qed.
Definition keys (ns : names) : list string := map fst (reset ns).
Lemma reset_facts ns : StronglySorted slt (keys ns) /\ (forall x, In x (keys ns) <-> In x (map snd ns)) /\ (forall p, In p (reset ns) -> snd p = 0%N).
Proof.
  unfold keys, reset. assert (X : forall m, StronglySorted slt (map fst m) -> (forall p, In p m -> snd p = 0%N) ->
    let r := fold_left (fun m p => map_insert (snd p) 0%N m) ns m in
    StronglySorted slt (map fst r) /\ (forall x, In x (map fst r) <-> In x (map fst m) \/ In x (map snd ns)) /\ (forall p, In p r -> snd p = 0%N)).
  { induction ns as [|[u s] ns IH]; intros m S Z; cbn [fold_left map snd].
    - split; [exact S|]. split; [|exact Z]. cbn. intuition.
    - destruct (map_insert_keys s 0%N m S) as [I1 I2]. specialize (IH _ I1 (map_insert_zero s m Z)). cbn zeta in IH. destruct IH as (J1 & J2 & J3).
      split; [exact J1|]. split; [|exact J3]. intros x. rewrite J2, I2. cbn [In]. intuition. }
  specialize (X []). cbn zeta in X. destruct X as (X1 & X2 & X3); [constructor|intros p []|]. split; [exact X1|]. split; [|exact X3]. intros x. rewrite X2. cbn. intuition.
Qed.
Definition table (ns : names) (f : string -> N) : counter := map (fun n => (n, f n)) (keys ns).
Lemma reset_table ns : reset ns = table ns (fun _ => 0%N).
Proof.
  unfold table, keys. rewrite map_map. destruct (reset_facts ns) as (_ & _ & Z). rewrite <- (map_id (reset ns)) at 1. apply map_ext_in. intros [k v] H. specialize (Z _ H). cbn in *. congruence.
Qed.
Lemma map_add_table l k x f : StronglySorted slt l -> In k l ->
  map_add k x (map (fun n => (n, f n)) l) = map (fun n => (n, if string_dec k n then add64 (f n) x else f n)) l.
Proof.
  induction l as [|a l IH]; intros S H; [destruct H|]. inversion S as [|? ? S1 S2]; subst. cbn [map map_add].
  destruct (str_cmp k a) eqn:C.
  - apply str_cmp_eq in C as ->. destruct (string_dec a a) as [_|N]; [|congruence]. f_equal. apply map_ext_in. intros n Hn. destruct (string_dec a n) as [<-|]; [|reflexivity].
    rewrite Forall_forall in S2. elim (slt_irrefl a (S2 a Hn)).
  - exfalso. destruct H as [<-|H]; [rewrite str_cmp_refl in C; discriminate|]. rewrite Forall_forall in S2. specialize (S2 k H). unfold slt in S2. rewrite str_cmp_sym, C in S2. discriminate.
  - destruct H as [<-|H]; [rewrite str_cmp_refl in C; discriminate|]. rewrite (IH S1 H). f_equal. destruct (string_dec k a) as [->|]; [rewrite str_cmp_refl in C; discriminate|reflexivity].
Qed.
Lemma name_in ns u s : name_of ns u = Some s -> In s (map snd ns).
Proof.
  unfold name_of. destruct (find (fun p => N.eqb (fst p) u) ns) as [p|] eqn:F; cbn [option_map]; [|discriminate]. intros [= <-]. apply find_some in F as [F _]. apply in_map_iff. eauto.
Qed.
Lemma w64_add_l a b : w64 (w64 a + b) = w64 (a + b).
Proof. unfold w64. apply N.add_mod_idemp_l. discriminate. Qed.
Lemma add64_w64 a b : add64 (w64 a) b = w64 (a + b). Proof. unfold add64. apply w64_add_l. Qed.
Lemma add_message_table ns f msg : add_message ns (table ns (fun n => w64 (f n))) msg = table ns (fun n => w64 (f n + spikes_of_message ns n msg)).
Proof.
  assert (Z : forall (P : Prop), P -> table ns (fun n => w64 (f n)) = table ns (fun n => w64 (f n + 0))) by (intros; apply map_ext; intros n; now rewrite N.add_0_r).
  destruct msg as [s t idx|s t pre post fc im]; cbn [add_message spikes_of_message]; [|apply (Z True I)].
  destruct (name_of ns s) as [k|] eqn:E; [|apply (Z True I)]. destruct (reset_facts ns) as (S & K & _). unfold table. rewrite map_add_table; [|exact S|apply K; eapply name_in; exact E].
  apply map_ext. intros n. destruct (string_dec k n); f_equal; [apply add64_w64|now rewrite N.add_0_r].
Qed.
Lemma add_messages_table ns msgs : forall f, fold_left (add_message ns) msgs (table ns (fun n => w64 (f n))) = table ns (fun n => w64 (f n + total (spikes_of_message ns n) msgs)).
Proof.
  induction msgs as [|m msgs IH]; intros f; cbn [fold_left total fold_right].
  - apply map_ext. intros n. now rewrite N.add_0_r.
  - rewrite add_message_table, IH. apply map_ext. intros n. do 2 f_equal. now rewrite N.add_assoc.
Qed.
Lemma total_app {A} (f : A -> N) a b : total f (a ++ b) = (total f a + total f b)%N.
Proof. induction a as [|x a IH]; cbn [app total fold_right]; [reflexivity|]. fold (total f (a ++ b)) (total f a). rewrite IH. lia. Qed.

(** ** The log *)
Definition steps (first : N) (n : nat) : list N := map (fun k => (first + N.of_nat k)%N) (seq 0 n).
Lemma steps_S first n : steps first (S n) = first :: steps (first + 1) n.
Proof. unfold steps. cbn [seq map]. rewrite N.add_0_r. f_equal. rewrite <- seq_shift, map_map. apply map_ext. intros k. lia. Qed.
Lemma steps_ge first n x : In x (steps first n) -> (first <= x)%N.
Proof. unfold steps. intros H. apply in_map_iff in H as (k & <- & _). lia. Qed.
Definition numbered := list (N * list message).
Definition win (p t : N) (d : numbered) : numbered := filter (fun q => N.leb t (fst q + p) && N.ltb (fst q) t) d.
Definition since_last (p t : N) (d : numbered) : numbered := filter (fun q => N.leb (p * ((t - 1) / p)) (fst q)) d.
Definition lines_for (ns : names) (p : N) (d : numbered) (ts : list N) : list line :=
  map (fun t => (t, map (fun n => w64 (spikes_of_calls ns n (map snd (win p t d)))) (keys ns))) (filter (fun t => N.eqb (t mod p) 0) ts).
Lemma spikes_snoc ns n l c : spikes_of_calls ns n (l ++ [c]) = (spikes_of_calls ns n l + total (spikes_of_message ns n) c)%N.
Proof. unfold spikes_of_calls. rewrite total_app. cbn [total fold_right]. fold (total (spikes_of_message ns n) c). lia. Qed.
Lemma run_eq ns p : (0 < p)%N -> forall calls t d m log,
  (forall q, In q d -> (fst q < t)%N) -> (t = 0%N -> d = []) ->
  m = table ns (fun n => w64 (spikes_of_calls ns n (map snd (since_last p t d)))) ->
  exists m', aggregated_run ns p t calls (m, log) = Ret (m', log ++ lines_for ns p (d ++ combine (steps t (List.length calls)) calls) (steps t (List.length calls))) /\
   m' = table ns (fun n => w64 (spikes_of_calls ns n (map snd (since_last p (t + N.of_nat (List.length calls)) (d ++ combine (steps t (List.length calls)) calls))))).
Proof.
  intros Hp. induction calls as [|c calls IH]; intros t d m log Hd Hz Hm.
  - exists m. cbn [aggregated_run List.length]. unfold lines_for, steps. cbn [seq map filter combine]. rewrite !app_nil_r, N.add_0_r. auto.
  - cbn [aggregated_run List.length]. rewrite steps_S. cbn [combine]. replace (d ++ (t, c) :: combine (steps (t + 1) (List.length calls)) calls) with ((d ++ [(t, c)]) ++ combine (steps (t + 1) (List.length calls)) calls) by now rewrite <- app_assoc.
    unfold aggregated_call. assert (E0 : N.eqb p 0 = false) by (apply N.eqb_neq; lia). rewrite E0.
    assert (Hd' : forall q, In q (d ++ [(t, c)]) -> (fst q < t + 1)%N). { intros q Hq. apply in_app_or in Hq as [Hq|[<-|[]]]; [specialize (Hd q Hq); lia|cbn; lia]. }
    assert (Hz' : (t + 1)%N = 0%N -> d ++ [(t, c)] = []) by lia.
    remember (combine (steps (t + 1) (List.length calls)) calls) as rest eqn:Er.
    assert (W : win p t ((d ++ [(t, c)]) ++ rest) = win p t d).
    { unfold win. rewrite !filter_app. cbn [filter fst]. rewrite N.ltb_irrefl, Bool.andb_false_r, app_nil_r.
      rewrite (filter_none _ rest); [apply app_nil_r|]. intros [x y] Hq. rewrite Er in Hq. apply in_combine_l in Hq. apply steps_ge in Hq. cbn [fst]. destruct (N.ltb_spec x t); [lia|]. apply Bool.andb_false_r. }
    destruct (N.eqb (t mod p) 0) eqn:D.
    + apply N.eqb_eq in D.
      assert (SL : since_last p t d = win p t d).
      { unfold since_last, win. apply filter_ext_in. intros q Hq. specialize (Hd q Hq). assert (T : t <> 0%N) by lia.
        assert (X : (p * ((t - 1) / p) + p = t)%N).
        { pose proof (N.div_mod t p ltac:(lia)) as E. rewrite D in E. assert (Y : ((t - 1) / p = t / p - 1)%N).
          { symmetry. apply N.div_unique with (r := (p - 1)%N); [lia|]. assert (t / p <> 0)%N by (intros Z; rewrite Z in E; lia). nia. }
          rewrite Y. assert (t / p <> 0)%N by (intros Z; rewrite Z in E; lia). nia. }
        destruct (N.ltb_spec (fst q) t); [|lia]. rewrite Bool.andb_true_r. destruct (N.leb_spec (p * ((t - 1) / p)) (fst q)), (N.leb_spec t (fst q + p)); auto; lia. }
      destruct (IH (t + 1)%N (d ++ [(t, c)]) (fold_left (add_message ns) c (reset ns)) (log ++ [(t, map snd m)]) Hd' Hz') as (m' & R & M).
      { rewrite reset_table. change (fun _ : string => 0%N) with (fun _ : string => w64 0). rewrite (add_messages_table ns c (fun _ => 0%N)). apply map_ext. intros n. do 2 f_equal.
        assert (Q : since_last p (t + 1) (d ++ [(t, c)]) = [(t, c)]).
        { unfold since_last. replace (t + 1 - 1)%N with t by lia. pose proof (N.div_mod t p ltac:(lia)) as E. rewrite D, N.add_0_r in E. rewrite <- E. rewrite filter_app. cbn [filter fst]. rewrite N.leb_refl.
          rewrite (filter_none _ d); [reflexivity|]. intros q Hq. specialize (Hd q Hq). destruct (N.leb_spec t (fst q)); [lia|reflexivity]. }
        rewrite Q. cbn [map snd]. unfold spikes_of_calls. cbn [total fold_right]. fold (total (spikes_of_message ns n) c). lia. }
      exists m'. cbn [obind]. rewrite <- Er in R, M. rewrite R, M. assert (Nn : (t + 1 + N.of_nat (List.length calls) = t + N.of_nat (S (List.length calls)))%N) by lia. split; [|rewrite Nn; reflexivity].
      f_equal. f_equal. rewrite <- app_assoc. f_equal. unfold lines_for. cbn [filter map]. rewrite D, N.eqb_refl. cbn [map app]. f_equal. f_equal. rewrite W, <- SL, Hm. unfold table. now rewrite map_map.
    + apply N.eqb_neq in D.
      destruct (IH (t + 1)%N (d ++ [(t, c)]) (fold_left (add_message ns) c m) log Hd' Hz') as (m' & R & M).
      { rewrite Hm, (add_messages_table ns c (fun n => spikes_of_calls ns n (map snd (since_last p t d)))). apply map_ext. intros n. do 2 f_equal.
        assert (Q : since_last p (t + 1) (d ++ [(t, c)]) = since_last p t d ++ [(t, c)]).
        { unfold since_last. replace (t + 1 - 1)%N with t by lia. assert (X : ((t - 1) / p = t / p)%N).
          { symmetry. apply N.div_unique with (r := (t mod p - 1)%N); [pose proof (N.mod_lt t p ltac:(lia)); lia|]. pose proof (N.div_mod t p ltac:(lia)). lia. }
          rewrite X, filter_app. f_equal. cbn [filter fst]. destruct (N.leb_spec (p * (t / p)) t); [reflexivity|]. pose proof (N.mul_div_le t p ltac:(lia)). lia. }
        rewrite Q, map_app. cbn [map snd]. now rewrite spikes_snoc. }
      exists m'. cbn [obind]. rewrite <- Er in R, M. rewrite R, M. assert (Nn : (t + 1 + N.of_nat (List.length calls) = t + N.of_nat (S (List.length calls)))%N) by lia. split; [|rewrite Nn; reflexivity].
      unfold lines_for. cbn [filter]. apply N.eqb_neq in D. rewrite D. reflexivity.
Qed.
