(** Proofs about message handlers. *)
From Verif Require Import Base ListLemmas Messaging_Model Handlers_Model Handlers_Spec.

Lemma set_nth_app {A} (x y : A) : forall a b, set_nth (length a) x (a ++ y :: b) = a ++ x :: b.
Proof. induction a as [|z a IH]; intros b; cbn [length app set_nth]; [reflexivity|now f_equal]. Qed.
Lemma nth_error_middle {A} (a : list A) x b : nth_error (a ++ x :: b) (length a) = Some x.
Proof. rewrite nth_error_app2, Nat.sub_diag by lia. reflexivity. Qed.
Lemma swap_same {A} (a : list A) x b : swap (length a) (length a) (a ++ x :: b) = a ++ x :: b.
Proof. unfold swap. now rewrite nth_error_middle, !set_nth_app. Qed.
Lemma swap_parts {A} (a : list A) x b y c :
  swap (length a) (length a + S (length b)) (a ++ x :: b ++ y :: c) = a ++ y :: b ++ x :: c.
Proof.
  assert (E : a ++ x :: b ++ y :: c = (a ++ x :: b) ++ y :: c) by now rewrite <- app_assoc.
  assert (L : length a + S (length b) = length (a ++ x :: b)) by (rewrite app_length; reflexivity).
  unfold swap. rewrite nth_error_middle. rewrite L, E at 1. rewrite nth_error_middle, set_nth_app.
  assert (E' : a ++ y :: b ++ y :: c = (a ++ y :: b) ++ y :: c) by now rewrite <- app_assoc.
  assert (L' : length a + S (length b) = length (a ++ y :: b)) by (rewrite app_length; reflexivity).
  rewrite L', E', set_nth_app, <- app_assoc. reflexivity.
Qed.

(** One round: [front] is what can still be drawn. *)
Lemma swap_round (f1 : list N) x f2 back :
  exists front', swap (length f1) (length (f1 ++ x :: f2) - 1) ((f1 ++ x :: f2) ++ back) = front' ++ x :: back /\
                 Permutation (x :: front') (f1 ++ x :: f2).
Proof.
  destruct f2 as [|z f2] using rev_ind.
  - exists f1. rewrite <- app_assoc, app_length. cbn [app length]. replace (length f1 + 1 - 1) with (length f1) by lia.
    rewrite swap_same. split; [reflexivity|]. apply Permutation_cons_append.
  - clear IHf2. exists (f1 ++ z :: f2). split.
    + replace (length (f1 ++ x :: f2 ++ [z]) - 1) with (length f1 + S (length f2))
        by (rewrite app_length; cbn [length]; rewrite app_length; cbn [length]; lia).
      replace ((f1 ++ x :: f2 ++ [z]) ++ back) with (f1 ++ x :: f2 ++ z :: back)
        by (rewrite <- app_assoc; cbn [app]; now rewrite <- app_assoc).
      rewrite swap_parts, <- app_assoc. reflexivity.
    + etransitivity; [apply Permutation_middle|]. apply Permutation_app_head. apply perm_skip. apply Permutation_cons_append.
Qed.
Lemma select_loop_choice : forall n r i front back, length back = i -> n <= length front ->
  length (select_loop r i n (front ++ back)) = n /\
  exists rest, Permutation (select_loop r i n (front ++ back) ++ rest) front.
Proof.
  induction n as [|n IH]; intros r i front back Hb Hn; cbn [select_loop].
  - split; [reflexivity|]. exists front. reflexivity.
  - assert (EL : length (front ++ back) - i = length front) by (rewrite app_length; lia). rewrite EL.
    assert (EP : length (front ++ back) - 1 - i = length front - 1) by (rewrite app_length; lia). rewrite EP.
    set (index := N.to_nat (r i mod N.of_nat (length front))).
    assert (Hi : index < length front).
    { unfold index. assert (r i mod N.of_nat (length front) < N.of_nat (length front))%N by (apply N.mod_lt; lia). lia. }
    rewrite nth_error_app1 by exact Hi.
    destruct (nth_error front index) as [x|] eqn:Ex; [|apply nth_error_None in Ex; lia].
    apply nth_error_split in Ex as (f1 & f2 & Ef & El). rewrite Ef, <- El.
    destruct (swap_round f1 x f2 back) as (front' & Es & Hp). rewrite Es.
    assert (Hl : length front' = n + (length front - S n)).
    { apply Permutation_length in Hp. rewrite <- Ef in Hp. cbn [length] in Hp. lia. }
    replace (front' ++ x :: back) with (front' ++ (x :: back)) by reflexivity.
    destruct (IH r (S i) front' (x :: back)) as (H1 & rest & H2); [cbn; lia|lia|].
    split; [cbn [length]; now rewrite H1|]. exists rest. rewrite <- Hp. cbn [app]. now apply perm_skip.
Qed.
Lemma select_random_choice r input n : choice n input (fst (select_random_n r input n)).
Proof.
  unfold select_random_n, choice. destruct (Nat.leb_spec (length input) n) as [H|H]; cbn [fst].
  - split; [lia|]. exists []. now rewrite app_nil_r.
  - destruct (select_loop_choice n r 0 input [] eq_refl ltac:(lia)) as [H1 H2]. rewrite app_nil_r in H1, H2.
    split; [lia|exact H2].
Qed.

(** Every choice can be drawn. *)
Lemma select_loop_ext : forall n r r' i l, (forall k, i <= k -> r k = r' k) -> select_loop r i n l = select_loop r' i n l.
Proof.
  induction n as [|n IH]; intros r r' i l H; cbn [select_loop]; [reflexivity|]. rewrite (H i) by lia.
  destruct (nth_error l _); [|reflexivity]. f_equal. apply IH. intros k Hk. apply H. lia.
Qed.
Lemma select_loop_complete : forall sel i front back rest, length back = i -> Permutation (sel ++ rest) front ->
  exists r, select_loop r i (length sel) (front ++ back) = sel.
Proof.
  induction sel as [|x sel IH]; intros i front back rest Hb Hp; [exists (fun _ => 0%N); reflexivity|].
  assert (Hin : In x front) by (apply (Permutation_in _ Hp); now left).
  apply in_split in Hin as (f1 & f2 & ->).
  destruct (swap_round f1 x f2 back) as (front' & Es & Hp').
  assert (Hq : Permutation (sel ++ rest) front').
  { apply (Permutation_cons_inv (a := x)). rewrite Hp'. exact Hp. }
  destruct (IH (S i) front' (x :: back) rest ltac:(cbn; lia) Hq) as (r & Hr).
  exists (fun k => if Nat.eqb k i then N.of_nat (length f1) else r k).
  cbn [length select_loop]. rewrite Nat.eqb_refl.
  set (front := f1 ++ x :: f2) in *.
  assert (EL : length (front ++ back) - i = length front) by (rewrite app_length; lia). rewrite EL.
  assert (EP : length (front ++ back) - 1 - i = length front - 1) by (rewrite app_length; lia). rewrite EP.
  assert (Hlt : length f1 < length front) by (unfold front; rewrite app_length; cbn [length]; lia).
  rewrite N.mod_small by lia. rewrite Nat2N.id. rewrite nth_error_app1 by exact Hlt.
  unfold front at 1. rewrite nth_error_middle, Es. f_equal. rewrite <- Hr at 2.
  apply select_loop_ext. intros k Hk. replace (Nat.eqb k i) with false; [reflexivity|]. symmetry. apply Nat.eqb_neq. lia.
Qed.

(** ** Groups *)
Lemma insert_sorted_perm x l : Permutation (insert_sorted x l) (x :: l).
Proof.
  induction l as [|y l IH]; cbn [insert_sorted]; [reflexivity|]. destruct (x <=? y)%N; [reflexivity|].
  rewrite IH. apply perm_swap.
Qed.
Lemma insert_sorted_sorted x l : StronglySorted N.le l -> StronglySorted N.le (insert_sorted x l).
Proof.
  induction 1 as [|y l HS IH HF]; cbn [insert_sorted]; [repeat constructor|]. destruct (N.leb_spec x y) as [E|E].
  - constructor; [now constructor|]. constructor; [exact E|]. eapply Forall_impl; [|exact HF]. intros a Ha. cbn beta in *. lia.
  - constructor; [exact IH|]. apply Forall_forall. intros z Hz. apply (Permutation_in _ (insert_sorted_perm x l)) in Hz as [<-|Hz]; [lia|].
    rewrite Forall_forall in HF. auto.
Qed.
Lemma sort_borders_perm l : Permutation (sort_borders l) l.
Proof. induction l as [|x l IH]; [reflexivity|]. cbn [sort_borders fold_right]. rewrite insert_sorted_perm. now apply perm_skip. Qed.
Lemma sort_borders_sorted l : StronglySorted N.le (sort_borders l).
Proof. induction l as [|x l IH]; [constructor|]. cbn [sort_borders fold_right]. now apply insert_sorted_sorted. Qed.
Lemma Permutation_filter' {A} (p : A -> bool) l l' : Permutation l l' -> Permutation (filter p l) (filter p l').
Proof.
  induction 1 as [|x l l' H IH|x y l|l1 l2 l3 H1 IH1 H2 IH2]; cbn [filter].
  - reflexivity.
  - destruct (p x); [now apply perm_skip|exact IH].
  - destruct (p x), (p y); try reflexivity. apply perm_swap.
  - now transitivity (filter p l2).
Qed.
Lemma upper_bound_group s l : StronglySorted N.le l -> upper_bound s l = group_of l s.
Proof.
  induction 1 as [|b l HS IH HF]; [reflexivity|]. unfold group_of in *. cbn [upper_bound filter].
  destruct (N.ltb_spec s b) as [E|E].
  - replace (b <=? s)%N with false by lia.
    replace (filter (fun b0 => (b0 <=? s)%N) l) with (@nil N); [reflexivity|].
    symmetry. clear IH HS. induction l as [|c l IH]; [reflexivity|]. inversion HF as [|? ? H1 H2]; subst. cbn [filter].
    replace (c <=? s)%N with false by lia. auto.
  - replace (b <=? s)%N with true by lia. cbn [length]. now f_equal.
Qed.
Lemma group_of_perm l l' s : Permutation l l' -> group_of l s = group_of l' s.
Proof. intros H. unfold group_of. apply Permutation_length. now apply Permutation_filter'. Qed.
Lemma upper_bound_sorted s borders : upper_bound s (sort_borders borders) = group_of borders s.
Proof. rewrite upper_bound_group by apply sort_borders_sorted. apply group_of_perm, sort_borders_perm. Qed.
Lemma upper_bound_le s l : upper_bound s l <= length l.
Proof. induction l as [|b l IH]; cbn [upper_bound length]; [lia|]. destruct (s <? b)%N; lia. Qed.

Lemma push_to_nth {A} (x : A) : forall gs i k, nth_error (push_to i x gs) k =
  if Nat.eqb i k then option_map (fun g => g ++ [x]) (nth_error gs k) else nth_error gs k.
Proof.
  induction gs as [|g gs IH]; intros [|i] [|k]; cbn [push_to nth_error Nat.eqb option_map]; auto.
  destruct (Nat.eqb i k); reflexivity.
Qed.
Lemma push_to_length {A} (x : A) : forall gs i, length (push_to i x gs) = length gs.
Proof. induction gs as [|g gs IH]; intros [|i]; cbn [push_to length]; auto. Qed.
Lemma groups_fold borders : forall spikes (gs : list (list N)) k,
  nth_error (fold_left (fun gs s => push_to (upper_bound s borders) s gs) spikes gs) k =
  option_map (fun g => g ++ filter (fun s => Nat.eqb (upper_bound s borders) k) spikes) (nth_error gs k).
Proof.
  induction spikes as [|s spikes IH]; intros gs k; cbn [fold_left filter].
  - destruct (nth_error gs k); cbn [option_map]; [now rewrite app_nil_r|reflexivity].
  - rewrite IH, push_to_nth. destruct (Nat.eqb (upper_bound s borders) k); destruct (nth_error gs k); cbn [option_map]; try reflexivity.
    rewrite <- app_assoc. reflexivity.
Qed.
Lemma nth_error_seq n : forall start k, nth_error (seq start n) k = if Nat.ltb k n then Some (start + k) else None.
Proof.
  induction n as [|n IH]; intros start k; cbn [seq]; [destruct k; reflexivity|]. destruct k as [|k]; cbn [nth_error].
  - now rewrite Nat.add_0_r.
  - rewrite IH. replace (Nat.ltb (S k) (S n)) with (Nat.ltb k n) by reflexivity. destruct (Nat.ltb k n); [|reflexivity]. f_equal. lia.
Qed.
Lemma nth_error_repeat_all {A} (x : A) n k : nth_error (repeat x n) k = if Nat.ltb k n then Some x else None.
Proof.
  revert k. induction n as [|n IH]; intros [|k]; cbn [repeat nth_error]; try reflexivity. rewrite IH.
  replace (Nat.ltb (S k) (S n)) with (Nat.ltb k n) by reflexivity. reflexivity.
Qed.
Lemma groups_eq borders spikes : spikes_per_group (sort_borders borders) spikes = groups borders spikes.
Proof.
  apply nth_error_ext. intros k. unfold spikes_per_group. rewrite groups_fold.
  assert (L : length (sort_borders borders) = length borders) by apply Permutation_length, sort_borders_perm.
  unfold groups. rewrite nth_error_map, nth_error_seq, nth_error_repeat_all, L.
  destruct (Nat.ltb k (S (length borders))); cbn [option_map app]; [|reflexivity]. rewrite Nat.add_0_l. f_equal.
  unfold group. apply filter_ext. intros s. now rewrite upper_bound_sorted.
Qed.
(** The groups are a partition of the spikes. *)
Lemma filter_split_perm {A} (f : A -> nat) n : forall l, (forall x, In x l -> f x < n) ->
  Permutation (flat_map (fun j => filter (fun x => Nat.eqb (f x) j) l) (seq 0 n)) l.
Proof.
  induction l as [|x l IH]; intros H.
  - clear H. cbn [filter]. induction (seq 0 n) as [|j js IHj]; [reflexivity|]. cbn [flat_map app]. exact IHj.
  - specialize (IH (fun y Hy => H y (or_intror Hy))). pose proof (H x (or_introl eq_refl)) as Hx.
    assert (G : forall js, NoDup js -> In (f x) js ->
      Permutation (flat_map (fun j => filter (fun y => Nat.eqb (f y) j) (x :: l)) js)
                  (x :: flat_map (fun j => filter (fun y => Nat.eqb (f y) j) l) js)).
    { assert (G0 : forall js, ~ In (f x) js -> flat_map (fun j => filter (fun y => Nat.eqb (f y) j) (x :: l)) js =
                  flat_map (fun j => filter (fun y => Nat.eqb (f y) j) l) js).
      { induction js as [|j js IHj]; intros Hn; [reflexivity|]. cbn [flat_map]. rewrite IHj by (intros Hq; apply Hn; now right).
        f_equal. cbn [filter]. replace (Nat.eqb (f x) j) with false; [reflexivity|]. symmetry. apply Nat.eqb_neq. intros E. apply Hn. now left. }
      induction js as [|j js IHj]; intros Hnd Hin; [contradiction|]. inversion Hnd as [|? ? Hni Hnd']; subst.
      cbn [flat_map]. destruct (Nat.eq_dec j (f x)) as [->|E].
      - rewrite (G0 js Hni). cbn [filter]. rewrite Nat.eqb_refl. reflexivity.
      - destruct Hin as [Hin|Hin]; [congruence|]. rewrite (IHj Hnd' Hin). cbn [filter].
        replace (Nat.eqb (f x) j) with false by (symmetry; apply Nat.eqb_neq; congruence).
        symmetry. apply Permutation_middle. }
    rewrite G; [now apply perm_skip|apply seq_NoDup|apply in_seq; lia].
Qed.
Lemma group_of_le borders s : group_of borders s <= length borders.
Proof. unfold group_of. induction borders as [|b l IH]; cbn [filter length]; [lia|]. destruct (b <=? s)%N; cbn [length]; lia. Qed.
Lemma groups_partition borders spikes : Permutation (concat (groups borders spikes)) spikes.
Proof.
  unfold groups. rewrite <- flat_map_concat_map. apply (filter_split_perm (group_of borders)).
  intros s _. pose proof (group_of_le borders s). lia.
Qed.

Lemma select_groups_spec winners : forall gs r, exists sels,
  fst (select_groups r winners gs) = concat sels /\ Forall2 (choice winners) gs sels.
Proof.
  induction gs as [|g gs IH]; intros r; cbn [select_groups].
  - exists []. split; [reflexivity|constructor].
  - destruct (select_random_n r g winners) as [a r1] eqn:Ea. destruct (IH r1) as (sels & H1 & H2).
    destruct (select_groups r1 winners gs) as [b r2] eqn:Eb. cbn [fst] in *. exists (a :: sels). subst b.
    split; [reflexivity|]. constructor; [|exact H2]. pose proof (select_random_choice r g winners) as H. now rewrite Ea in H.
Qed.

(** ** Winning groups *)
Lemma filter_three (l : list (list N)) n :
  Permutation (filter (fun g => Nat.ltb n (length g)) l ++ filter (fun g => Nat.eqb (length g) n) l ++ filter (fun g => Nat.ltb (length g) n) l) l.
Proof.
  induction l as [|g l IH]; [reflexivity|]. cbn [filter]. destruct (Nat.ltb_spec n (length g)) as [E|E].
  - replace (Nat.eqb (length g) n) with false by (symmetry; apply Nat.eqb_neq; lia).
    replace (Nat.ltb (length g) n) with false by (symmetry; apply Nat.ltb_ge; lia). cbn [app]. now apply perm_skip.
  - destruct (Nat.eqb_spec (length g) n) as [E2|E2].
    + replace (Nat.ltb (length g) n) with false by (symmetry; apply Nat.ltb_ge; lia). cbn [app].
      rewrite <- Permutation_middle. now apply perm_skip.
    + replace (Nat.ltb (length g) n) with true by (symmetry; apply Nat.ltb_lt; lia).
      rewrite app_assoc, <- Permutation_middle, <- app_assoc. now apply perm_skip.
Qed.
Lemma concat_firstn_eq {A} : forall n (l : list (list A)), concat_firstn n l = concat (firstn n l).
Proof. induction n as [|n IH]; intros [|g l]; cbn [concat_firstn firstn concat]; try reflexivity. now rewrite IH. Qed.
Lemma sorted_big_prefix (l : list (list N)) k last : StronglySorted bigger_first l -> nth_error l k = Some last ->
  length (filter (fun g => Nat.ltb (length last) (length g)) l) <= k /\
  k < length (filter (fun g => Nat.ltb (length last) (length g)) l) + length (filter (fun g => Nat.eqb (length g) (length last)) l).
Proof.
  intros HS. revert k. induction HS as [|g l HS IH HF]; intros [|k] Hn; cbn [nth_error] in Hn; try discriminate.
  - injection Hn as ->. cbn [filter]. rewrite Nat.ltb_irrefl, Nat.eqb_refl. cbn [length].
    replace (filter (fun g => Nat.ltb (length last) (length g)) l) with (@nil (list N)); [cbn [length]; lia|].
    symmetry. clear IH HS. induction l as [|h l IH]; [reflexivity|]. inversion HF as [|? ? H1 H2]; subst. cbn [filter].
    replace (Nat.ltb (length last) (length h)) with false; [auto|]. symmetry. apply Nat.ltb_ge. exact H1.
  - specialize (IH k Hn). apply nth_error_In in Hn. rewrite Forall_forall in HF. specialize (HF last Hn). unfold bigger_first in HF.
    cbn [filter]. destruct (Nat.ltb_spec (length last) (length g)) as [E|E]; cbn [length].
    + replace (Nat.eqb (length g) (length last)) with false by (symmetry; apply Nat.eqb_neq; lia). lia.
    + replace (Nat.eqb (length g) (length last)) with true by (symmetry; apply Nat.eqb_eq; lia). cbn [length]. lia.
Qed.
Lemma winners_split (B T S : list (list N)) n k : length B <= k -> k < length B + length T ->
  (forall g, In g B -> n < length g) -> (forall g, In g T -> length g = n) -> (forall g, In g S -> length g < n) ->
  forall g h, In g (firstn (Datatypes.S k) (B ++ T ++ S)) -> In h (skipn (Datatypes.S k) (B ++ T ++ S)) -> length h <= length g.
Proof.
  intros H1 H2 HB HT HS g h Hg Hh.
  rewrite firstn_app in Hg. rewrite skipn_app in Hh.
  rewrite firstn_all2 in Hg by lia. rewrite skipn_all2 in Hh by lia. cbn [app] in Hh.
  set (m := Datatypes.S k - length B) in *.
  rewrite firstn_app in Hg. rewrite skipn_app in Hh.
  replace (m - length T) with 0 in * by lia. cbn [firstn skipn] in *. rewrite app_nil_r in Hg.
  assert (Hge : n <= length g).
  { apply in_app_or in Hg as [Hg|Hg]; [specialize (HB g Hg); lia|].
    assert (In g T) by (rewrite <- (firstn_skipn m T); apply in_or_app; now left). specialize (HT g H). lia. }
  assert (Hle : length h <= n).
  { apply in_app_or in Hh as [Hh|Hh]; [|specialize (HS h Hh); lia].
    assert (In h T) by (rewrite <- (firstn_skipn m T); apply in_or_app; now right). specialize (HT h H). lia. }
  lia.
Qed.
Lemma group_wta_spec srt shf borders winners m t result :
  sorts srt -> shuffles shf -> group_wta srt shf borders winners (m :: t) = Ret result ->
  winners <= length borders -> spikes_of m <> [] ->
  exists chosen rest, Permutation (chosen ++ rest) (groups borders (spikes_of m)) /\ length chosen = winners /\
    result = concat chosen /\ forall g h, In g chosen -> In h rest -> length h <= length g.
Proof.
  intros Hs Hf H Hw Hne. unfold group_wta in H.
  assert (L : length (sort_borders borders) = length borders) by apply Permutation_length, sort_borders_perm.
  rewrite L in H. replace (Nat.ltb (length borders) winners) with false in H by (symmetry; apply Nat.ltb_ge; lia).
  destruct (spikes_of m) as [|s ss] eqn:Em; [contradiction|]. rewrite <- Em in *. clear Em s ss. rewrite groups_eq in H.
  destruct winners as [|k]; [discriminate|].
  destruct (Hs (groups borders (spikes_of m))) as [Hp HS]. set (G := srt (groups borders (spikes_of m))) in *.
  destruct (nth_error G k) as [last|] eqn:En; [|discriminate].
  apply (f_equal (fun o => match o with Ret x => x | _ => [] end)) in H. cbn beta iota in H. subst result.
  rewrite concat_firstn_eq.
  set (B := filter (fun g => Nat.ltb (length last) (length g)) G).
  set (T := filter (fun g => Nat.eqb (length g) (length last)) G).
  set (S' := filter (fun g => Nat.ltb (length g) (length last)) G).
  destruct (sorted_big_prefix G k last HS En) as [HB HT]. fold B in HB, HT. fold T in HT.
  assert (Hperm : Permutation (B ++ shf T ++ S') G).
  { rewrite (Hf T). apply filter_three. }
  assert (HTl : length (shf T) = length T) by (apply Permutation_length, Hf).
  exists (firstn (S k) (B ++ shf T ++ S')), (skipn (S k) (B ++ shf T ++ S')). split; [|split; [|split; [reflexivity|]]].
  - rewrite firstn_skipn, Hperm. exact Hp.
  - rewrite firstn_length, !app_length, HTl. lia.
  - apply (winners_split B (shf T) S' (length last) k); try lia.
    + intros g Hg. apply filter_In in Hg as [_ Hg]. now apply Nat.ltb_lt.
    + intros g Hg. apply (Permutation_in _ (Hf T)) in Hg. apply filter_In in Hg as [_ Hg]. now apply Nat.eqb_eq.
    + intros g Hg. apply filter_In in Hg as [_ Hg]. now apply Nat.ltb_lt.
Qed.
Lemma group_wta_returns srt shf borders winners messages :
  sorts srt -> 0 < winners -> exists result, group_wta srt shf borders winners messages = Ret result.
Proof.
  intros Hs Hw. unfold group_wta. destruct messages as [|m t]; [eauto|].
  assert (L : length (sort_borders borders) = length borders) by apply Permutation_length, sort_borders_perm.
  rewrite L. destruct (Nat.ltb_spec (length borders) winners) as [E|E]; [eauto|].
  destruct (spikes_of m) as [|s ss] eqn:Em; [eauto|]. rewrite <- Em, groups_eq. destruct winners as [|k]; [lia|].
  destruct (nth_error (srt (groups borders (spikes_of m))) k) eqn:En; [eauto|].
  apply nth_error_None in En. destruct (Hs (groups borders (spikes_of m))) as [Hp _]. apply Permutation_length in Hp.
  unfold groups in Hp at 2. rewrite map_length, seq_length in Hp. lia.
Qed.
