(** Proofs about the evaluation of inference results. *)
From Verif Require Import Base ListLemmas Classify_Model Classify_Spec Classify_Proofs.

Definition hits (classes c : N) (l : list N) : N := N.of_nat (length (filter (fun s => N.eqb (s mod classes) c) l)).
Lemma hits_app classes c a b : hits classes c (a ++ b) = (hits classes c a + hits classes c b)%N.
Proof. unfold hits. rewrite filter_app, app_length. lia. Qed.
Lemma hits_le classes c l : (hits classes c l <= N.of_nat (length l))%N.
Proof. unfold hits. induction l as [|x l IH]; cbn [filter length]; [lia|]. destruct (N.eqb (x mod classes) c); cbn [length]; lia. Qed.

(** ** Votes *)
Lemma vote_map (h : nat -> N) : forall n a i, i < n ->
  vote (map h (seq a n)) i = Ret (map (fun c => if Nat.eqb c (a + i) then add64 (h c) 1 else h c) (seq a n)).
Proof.
  induction n as [|n IH]; intros a i Hi; [lia|]. cbn [seq map]. destruct i as [|i]; cbn [vote].
  - rewrite Nat.add_0_r, Nat.eqb_refl. f_equal. f_equal. apply map_ext_in. intros c Hc. apply in_seq in Hc.
    replace (Nat.eqb c a) with false; [reflexivity|]. symmetry. apply Nat.eqb_neq. lia.
  - rewrite IH by lia. cbn [obind]. f_equal. f_equal.
    + replace (Nat.eqb a (a + S i)) with false; [reflexivity|]. symmetry. apply Nat.eqb_neq. lia.
    + apply map_ext. intros c. replace (S a + i) with (a + S i) by lia. reflexivity.
Qed.
Lemma vote_all_map classes : (0 < classes)%N -> forall spikes (h : nat -> N),
  (forall c, h c + N.of_nat (length spikes) < two64)%N ->
  vote_all classes spikes (map h (seq 0 (N.to_nat classes))) =
    Ret (map (fun c => h c + hits classes (N.of_nat c) spikes)%N (seq 0 (N.to_nat classes))).
Proof.
  intros Hc. induction spikes as [|s t IH]; intros h Hh; cbn [vote_all].
  - f_equal. apply map_ext. intros c. unfold hits. cbn. lia.
  - unfold mod_. replace (N.eqb classes 0) with false by lia. cbn [obind].
    pose proof (N.mod_lt s classes ltac:(lia)) as Hm. rewrite vote_map by lia. cbn [obind]. cbn [length] in Hh.
    assert (Ha : forall c, add64 (h c) 1 = (h c + 1)%N) by (intros c; unfold add64, w64; apply N.mod_small; specialize (Hh c); lia).
    rewrite IH.
    + f_equal. apply map_ext. intros c. rewrite Ha. unfold hits. cbn [filter].
      destruct (Nat.eqb_spec c (0 + N.to_nat (s mod classes))) as [E|E]; destruct (N.eqb_spec (s mod classes) (N.of_nat c)) as [E'|E']; cbn [length]; lia.
    + intros c. rewrite Ha. specialize (Hh c). destruct (Nat.eqb c (0 + N.to_nat (s mod classes))); lia.
Qed.

(** ** The best class *)
Lemma best_spec : forall votes i cur,
  (best i votes cur = cur /\ forall v, In v votes -> (v <= snd cur)%N) \/
  (exists j v, nth_error votes j = Some v /\ best i votes cur = (i + N.of_nat j, v)%N /\ (snd cur < v)%N /\
     forall j' v', nth_error votes j' = Some v' -> (v' <= v)%N /\ (j' < j -> (v' < v)%N)).
Proof.
  induction votes as [|w votes IH]; intros i cur; cbn [best]; [left; split; [reflexivity|intros v []]|].
  destruct (N.ltb_spec (snd cur) w) as [C|C].
  - right. destruct (IH (i + 1)%N (i, w)) as [[E H]|(j & v & Hj & E & Hv & H)].
    + exists 0, w. split; [reflexivity|]. split; [rewrite E; f_equal; lia|]. split; [exact C|]. intros [|j'] v' Hj'; cbn [nth_error] in Hj'.
      * injection Hj' as <-. split; [lia|lia].
      * apply nth_error_In in Hj'. apply H in Hj'. cbn [snd] in Hj'. split; [exact Hj'|lia].
    + exists (S j), v. split; [exact Hj|]. split; [rewrite E; f_equal; lia|]. cbn [snd] in Hv. split; [lia|].
      intros [|j'] v' Hj'; cbn [nth_error] in Hj'.
      * injection Hj' as <-. split; lia.
      * destruct (H j' v' Hj') as [A B]. split; [exact A|]. intros K. apply B. lia.
  - destruct (IH (i + 1)%N cur) as [[E H]|(j & v & Hj & E & Hv & H)].
    + left. split; [exact E|]. intros v [<-|Hv]; [exact C|now apply H].
    + right. exists (S j), v. split; [exact Hj|]. split; [rewrite E; f_equal; lia|]. split; [exact Hv|].
      intros [|j'] v' Hj'; cbn [nth_error] in Hj'.
      * injection Hj' as <-. split; lia.
      * destruct (H j' v' Hj') as [A B]. split; [exact A|]. intros K. apply B. lia.
Qed.

(** ** Messages by time *)
Definition by_time (a b : spike_message) : Prop := (fst a <= fst b)%N.
Definition from_time (k : N) (ms : list spike_message) := filter (fun m => (k <=? fst m)%N) ms.
Definition at_time (k : N) (ms : list spike_message) : list N := flat_map (fun m => if N.eqb (fst m) k then snd m else []) ms.
Definition window (lo hi : N) (ms : list spike_message) : list N :=
  flat_map (fun m => if (lo <=? fst m)%N && (fst m <? hi)%N then snd m else []) ms.
Lemma take_sorted k : forall ms, StronglySorted by_time ms ->
  take_step k (from_time k ms) = (at_time k ms, from_time (k + 1) ms).
Proof.
  induction ms as [|[t idx] ms IH]; intros Hs; [reflexivity|]. inversion Hs as [|? ? Hs' HF]; subst. specialize (IH Hs').
  unfold from_time, at_time in *. cbn [filter flat_map fst snd].
  destruct (N.leb_spec k t) as [C|C].
  - cbn [take_step]. destruct (N.eqb_spec t k) as [->|E].
    + rewrite IH. replace (k + 1 <=? k)%N with false by lia. reflexivity.
    + replace (k + 1 <=? t)%N with true by lia. cbn [app].
      assert (Hall : forall m, In m ms -> (t <= fst m)%N) by (intros m Hm; rewrite Forall_forall in HF; exact (HF m Hm)).
      assert (E1 : filter (fun m => (k <=? fst m)%N) ms = ms).
      { clear -Hall C. induction ms as [|m ms IH]; [reflexivity|]. cbn [filter]. replace (k <=? fst m)%N with true by (specialize (Hall m (or_introl eq_refl)); lia).
        f_equal. apply IH. intros m' Hm'. apply Hall. now right. }
      assert (E2 : filter (fun m => (k + 1 <=? fst m)%N) ms = ms).
      { clear -Hall C E. induction ms as [|m ms IH]; [reflexivity|]. cbn [filter]. replace (k + 1 <=? fst m)%N with true by (specialize (Hall m (or_introl eq_refl)); lia).
        f_equal. apply IH. intros m' Hm'. apply Hall. now right. }
      assert (E3 : flat_map (fun m : N * list N => if N.eqb (fst m) k then snd m else []) ms = []).
      { clear -Hall C E. induction ms as [|m ms IH]; [reflexivity|]. cbn [flat_map]. replace (N.eqb (fst m) k) with false by (specialize (Hall m (or_introl eq_refl)); lia).
        apply IH. intros m' Hm'. apply Hall. now right. }
      rewrite E1, E2, E3. reflexivity.
  - replace (N.eqb t k) with false by lia. replace (k + 1 <=? t)%N with false by lia. exact IH.
Qed.
Lemma window_next classes c lo k ms : (lo <= k)%N ->
  hits classes c (window lo (k + 1) ms) = (hits classes c (window lo k ms) + hits classes c (at_time k ms))%N.
Proof.
  intros H. induction ms as [|[t idx] ms IH]; [reflexivity|]. unfold window, at_time in *. cbn [flat_map fst snd]. rewrite !hits_app, IH.
  destruct (N.leb_spec lo t); destruct (N.ltb_spec t (k + 1)); destruct (N.ltb_spec t k); destruct (N.eqb_spec t k); cbn [andb]; try lia; unfold hits; cbn; lia.
Qed.
Lemma window_empty k ms : window k k ms = [].
Proof.
  induction ms as [|[t idx] ms IH]; [reflexivity|]. unfold window in *. cbn [flat_map fst snd]. rewrite IH, app_nil_r.
  destruct (N.leb_spec k t); destruct (N.ltb_spec t k); cbn [andb]; try reflexivity; lia.
Qed.
Lemma window_frame spf f ms : (0 < spf)%N -> window (f * spf) ((f + 1) * spf) ms = spikes_of_frame spf f ms.
Proof.
  intros H. induction ms as [|[t idx] ms IH]; [reflexivity|]. unfold window, spikes_of_frame in *. cbn [flat_map fst snd]. rewrite IH. f_equal.
  assert (E : (f * spf <=? t)%N && (t <? (f + 1) * spf)%N = N.eqb (t / spf) f).
  { pose proof (N.div_mod t spf ltac:(lia)). pose proof (N.mod_lt t spf ltac:(lia)).
    destruct (N.eqb_spec (t / spf) f) as [<-|E]; [apply andb_true_intro; split; lia|].
    apply andb_false_iff. destruct (N.lt_trichotomy (t / spf) f) as [L|[L|L]]; [left|congruence|right]; nia. }
  now rewrite E.
Qed.
Lemma hits_window_bound classes c lo hi ms : (hits classes c (window lo hi ms) <= N.of_nat (length (flat_map snd ms)))%N.
Proof.
  etransitivity; [apply hits_le|]. assert (length (window lo hi ms) <= length (flat_map snd ms)); [|lia].
  induction ms as [|[t idx] ms IH]; [cbn; lia|]. unfold window in *. cbn [flat_map fst snd]. rewrite !app_length.
  destruct ((lo <=? t)%N && (t <? hi)%N); cbn [length]; lia.
Qed.
Lemma at_time_bound classes lo k c ms : (lo <= k)%N -> (hits classes c (window lo k ms) + N.of_nat (length (at_time k ms)) <= N.of_nat (length (flat_map snd ms)))%N.
Proof.
  intros H. assert (G : length (window lo k ms) + length (at_time k ms) <= length (flat_map snd ms)).
  { induction ms as [|[t idx] ms IH]; [cbn; lia|]. unfold window, at_time in *. cbn [flat_map fst snd]. rewrite !app_length.
    destruct (N.eqb_spec t k) as [->|E]; [replace (k <? k)%N with false by lia; rewrite andb_false_r; cbn [length]; lia|].
    destruct ((lo <=? t)%N && (t <? k)%N); cbn [length]; lia. }
  pose proof (hits_le classes c (window lo k ms)). lia.
Qed.

(** ** The loop over steps *)
Definition guess (d : dataset) (ms : list spike_message) (f : nat) : N * N :=
  best 0 (map (fun c => hits (ds_classes d) (N.of_nat c) (spikes_of_frame (ds_spf d) (N.of_nat f) ms)) (seq 0 (N.to_nat (ds_classes d)))) (0, 0)%N.
Definition state_at (d : dataset) (ms : list spike_message) (k : N) : list (N * N) * list N :=
  (map (guess d ms) (seq 0 (N.to_nat (k / ds_spf d))),
   map (fun c => hits (ds_classes d) (N.of_nat c) (window (k / ds_spf d * ds_spf d) k ms)) (seq 0 (N.to_nat (ds_classes d)))).
Lemma eval_steps_spec d ms : StronglySorted by_time ms -> (0 < ds_classes d)%N -> (0 < ds_spf d)%N ->
  (N.of_nat (length (flat_map snd ms)) < two64)%N -> forall n k, (k + N.of_nat n < two64)%N ->
  eval_steps d n k (from_time k ms) (state_at d ms k) = Ret (state_at d ms (k + N.of_nat n)).
Proof.
  intros Hs Hc Hf Hb. induction n as [|n IH]; intros k Hk; cbn [eval_steps]; [do 2 f_equal; lia|].
  rewrite (take_sorted k ms Hs). unfold process_spikes. unfold state_at at 1 2. cbn [fst snd].
  set (spf := ds_spf d) in *. set (classes := ds_classes d) in *.
  pose proof (N.div_mod k spf ltac:(lia)) as Hd. pose proof (N.mod_lt k spf ltac:(lia)) as Hm.
  assert (Hlo : (k / spf * spf <= k)%N) by lia.
  rewrite vote_all_map.
  2: exact Hc.
  2: { intros c. pose proof (at_time_bound classes (k / spf * spf) k (N.of_nat c) ms Hlo). lia. }
  cbn [obind]. unfold mod_. replace (N.eqb spf 0) with false by lia. cbn [obind].
  assert (Ha : add64 k 1 = (k + 1)%N) by (unfold add64, w64; apply N.mod_small; lia). rewrite Ha.
  replace (k + N.of_nat (S n))%N with (k + 1 + N.of_nat n)%N by lia.
  assert (Hv : map (fun c => hits classes (N.of_nat c) (window (k / spf * spf) k ms) + hits classes (N.of_nat c) (at_time k ms))%N (seq 0 (N.to_nat classes)) =
               map (fun c => hits classes (N.of_nat c) (window (k / spf * spf) (k + 1) ms)) (seq 0 (N.to_nat classes))).
  { apply map_ext. intros c. symmetry. now apply window_next. }
  rewrite Hv.
  destruct (N.eqb_spec ((k + 1) mod spf) 0) as [E|E].
  - pose proof (N.div_mod (k + 1) spf ltac:(lia)) as Hd'.
    assert (Eq : ((k + 1) / spf = k / spf + 1)%N) by nia. assert (Ek : (k + 1 = (k / spf + 1) * spf)%N) by lia.
    cbn [obind fst snd]. rewrite <- (IH (k + 1)%N) by lia. f_equal. unfold state_at. fold spf classes. rewrite Eq. f_equal.
    + replace (N.to_nat (k / spf + 1)) with (S (N.to_nat (k / spf))) by lia. rewrite seq_S, map_app. cbn [map]. f_equal. f_equal.
      unfold guess. fold spf classes. f_equal. apply map_ext. intros c. f_equal. rewrite Nat.add_0_l, N2Nat.id, <- window_frame by lia. now rewrite Ek.
    + rewrite map_length, seq_length. apply nth_error_ext. intros j. rewrite nth_error_map.
      destruct (Nat.lt_ge_cases j (N.to_nat classes)) as [C|C].
      * rewrite nth_error_nth' with (d := 0) by (now rewrite seq_length). rewrite nth_error_nth' with (d := 0%N) by (now rewrite repeat_length).
        rewrite nth_repeat. cbn [option_map]. rewrite Ek, window_empty. reflexivity.
      * assert (E1 : nth_error (seq 0 (N.to_nat classes)) j = None) by (apply nth_error_None; rewrite seq_length; lia). rewrite E1.
        cbn [option_map]. apply nth_error_None. rewrite repeat_length. lia.
  - assert (Eq : ((k + 1) / spf = k / spf)%N).
    { pose proof (N.div_mod (k + 1) spf ltac:(lia)) as Hd'. pose proof (N.mod_lt (k + 1) spf ltac:(lia)).
      assert (H1 : (spf * ((k + 1) / spf) <= k)%N) by lia. nia. }
    cbn [obind fst snd]. rewrite <- (IH (k + 1)%N) by lia. f_equal. unfold state_at. fold spf classes. now rewrite Eq.
Qed.

(** ** Results *)
Lemma bump_map (g : result -> result) (h : nat -> result) : forall n a i, i < n ->
  bump g i (map h (seq a n)) = Ret (map (fun c => if Nat.eqb c (a + i) then g (h c) else h c) (seq a n)).
Proof.
  induction n as [|n IH]; intros a i Hi; [lia|]. cbn [seq map]. destruct i as [|i]; cbn [bump].
  - rewrite Nat.add_0_r, Nat.eqb_refl. f_equal. f_equal. apply map_ext_in. intros c Hc. apply in_seq in Hc.
    replace (Nat.eqb c a) with false; [reflexivity|]. symmetry. apply Nat.eqb_neq. lia.
  - rewrite IH by lia. cbn [obind]. f_equal. f_equal.
    + replace (Nat.eqb a (a + S i)) with false; [reflexivity|]. symmetry. apply Nat.eqb_neq. lia.
    + apply map_ext. intros c. replace (S a + i) with (a + S i) by lia. reflexivity.
Qed.
Definition label_at (d : dataset) (f : nat) : N := fst (nth (N.to_nat (ds_train d) + f) (ds_data d) (0%N, [])).
Definition upd_res (p : N * N) (label : N) (r : result) : result :=
  if N.eqb (snd p) 0 then mkRes (r_tp r) (add64 (r_fn r) 1) (r_fp r) (r_tn r)
  else if negb (N.eqb (fst p) label) then mkRes (r_tp r) (r_fn r) (add64 (r_fp r) 1) (r_tn r)
  else mkRes (add64 (r_tp r) 1) (r_fn r) (r_fp r) (r_tn r).
Definition tallied (d : dataset) (pr : nat -> N * N) (c : nat) (l : list nat) (r : result) : result :=
  fold_left (fun r f => if Nat.eqb c (N.to_nat (label_at d f)) then upd_res (pr f) (label_at d f) r else r) l r.
Lemma tally_spec d pr classes : forall m i h,
  (forall j, i <= j < i + m -> N.to_nat (ds_train d) + j < length (ds_data d) /\ N.to_nat (label_at d j) < classes) ->
  tally d (N.of_nat i) (map pr (seq i m)) (map h (seq 0 classes)) =
    Ret (map (fun c => tallied d pr c (seq i m) (h c)) (seq 0 classes)).
Proof.
  induction m as [|m IH]; intros i h H; cbn [seq map tally]; [reflexivity|].
  destruct (H i ltac:(lia)) as [H1 H2]. destruct (pr i) as [c v] eqn:Ep.
  unfold at_. replace (N.to_nat (ds_train d + N.of_nat i)) with (N.to_nat (ds_train d) + i) by lia.
  assert (En : nth_error (ds_data d) (N.to_nat (ds_train d) + i) = Some (nth (N.to_nat (ds_train d) + i) (ds_data d) (0%N, []))) by now apply nth_error_nth'.
  rewrite En. cbn [obind]. fold (label_at d i). rewrite bump_map by exact H2. cbn [obind].
  replace (N.of_nat i + 1)%N with (N.of_nat (S i)) by lia. rewrite IH by (intros j Hj; apply H; lia). f_equal. apply map_ext. intros k.
  unfold tallied. cbn [fold_left]. rewrite Nat.add_0_l. rewrite Ep. reflexivity.
Qed.
Lemma tallied_counts d pr c : forall l r,
  (r_tp r + N.of_nat (length l) < two64)%N -> (r_fn r + N.of_nat (length l) < two64)%N -> (r_fp r + N.of_nat (length l) < two64)%N ->
  let is_c f := Nat.eqb c (N.to_nat (label_at d f)) in
  let none f := N.eqb (snd (pr f)) 0 in
  let right f := N.eqb (fst (pr f)) (label_at d f) in
  tallied d pr c l r =
    mkRes (r_tp r + N.of_nat (length (filter (fun f => is_c f && (negb (none f) && right f)) l)))
          (r_fn r + N.of_nat (length (filter (fun f => is_c f && none f) l)))
          (r_fp r + N.of_nat (length (filter (fun f => is_c f && (negb (none f) && negb (right f))) l)))
          (r_tn r).
Proof.
  induction l as [|f l IH]; intros r H1 H2 H3 is_c none right; unfold tallied; cbn [fold_left filter length] in *.
  - destruct r; cbn. f_equal; lia.
  - fold (tallied d pr c l).
    match goal with |- fold_left _ l ?x = _ => change (tallied d pr c l x = mkRes (r_tp r + N.of_nat (length (if is_c f && (negb (none f) && right f) then f :: filter (fun f => is_c f && (negb (none f) && right f)) l else filter (fun f => is_c f && (negb (none f) && right f)) l)))
      (r_fn r + N.of_nat (length (if is_c f && none f then f :: filter (fun f => is_c f && none f) l else filter (fun f => is_c f && none f) l)))
      (r_fp r + N.of_nat (length (if is_c f && (negb (none f) && negb (right f)) then f :: filter (fun f => is_c f && (negb (none f) && negb (right f))) l else filter (fun f => is_c f && (negb (none f) && negb (right f))) l)))
      (r_tn r)) end.
    assert (Ha : forall x, (x + N.of_nat (S (length l)) < two64)%N -> add64 x 1 = (x + 1)%N) by (intros x Hx; unfold add64, w64; apply N.mod_small; lia).
    subst is_c none right. cbn beta. unfold upd_res.
    destruct (Nat.eqb c (N.to_nat (label_at d f))); cbn [andb]; [|rewrite IH by lia; reflexivity].
    destruct (N.eqb (snd (pr f)) 0); cbn [negb andb]; [|destruct (N.eqb (fst (pr f)) (label_at d f)); cbn [negb andb]];
      rewrite IH by (cbn [r_tp r_fn r_fp]; rewrite ?Ha by assumption; lia); cbn [r_tp r_fn r_fp r_tn length]; rewrite Ha by assumption; f_equal; lia.
Qed.
