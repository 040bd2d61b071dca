(** The vector in device memory behaves as a sequence. *)
From Verif Require Import Base ListLemmas Gpu_Model Gpu_Spec Gpu_Proofs.

Record vok {A} (v : vec A) (l : list A) : Prop := mkVok {
  ok_mem : exists rest, deref v = map Obj l ++ rest;
  ok_size : v_size v = length l;
  ok_le : length l <= v_cap v;
  ok_cap : v_cap v <= length (deref v);
  ok_null : v_mem v = None -> v_cap v = 0 }.

Lemma vok_empty {A} : vok (@v_empty A) [].
Proof. constructor; cbn; auto. exists []. reflexivity. Qed.

Lemma nth_objs {A} (l : list A) rest i : i < length l ->
  exists a, nth_error l i = Some a /\ nth_error (map Obj l ++ rest) i = Some (Obj a).
Proof.
  intros H. destruct (nth_error l i) as [a|] eqn:E; [|apply nth_error_None in E; lia].
  exists a. split; [reflexivity|]. rewrite nth_error_app1 by (rewrite map_length; lia).
  rewrite nth_error_map, E. reflexivity.
Qed.
Lemma read_obj {A} (l : list A) rest i a : nth_error l i = Some a -> read (map Obj l ++ rest) i = Ret a.
Proof.
  intros E. unfold read. assert (H : i < length l) by (apply nth_error_Some; congruence).
  destruct (nth_objs l rest i H) as [b [Eb ->]]. congruence.
Qed.
Lemma read_all_objs {A} (l : list A) rest : forall pre,
  read_all (map Obj (pre ++ l) ++ rest) (length pre) (length l) = Ret l.
Proof.
  induction l as [|a l IH]; intros pre; [reflexivity|]. cbn [length read_all].
  rewrite (read_obj _ _ _ a); [|rewrite nth_error_app2, Nat.sub_diag by lia; reflexivity].
  cbn [obind]. specialize (IH (pre ++ [a])). rewrite <- app_assoc in IH. cbn [app] in IH.
  rewrite app_length in IH. cbn [length] in IH. rewrite Nat.add_1_r in IH. rewrite IH. reflexivity.
Qed.
Lemma vok_contains {A} (v : vec A) l : vok v l -> contains v l.
Proof.
  intros [[rest D] S _ _ _]. split; [|assumption]. unfold to_std. rewrite D, S. exact (read_all_objs l rest []).
Qed.
Lemma vok_with {A} (v : vec A) m l rest : m = map Obj l ++ rest -> length m = length (deref v) ->
  v_cap v <= length (deref v) -> (v_mem v = None -> v_cap v = 0) -> length l <= v_cap v ->
  vok (with_mem v m (length l)) l.
Proof.
  intros -> L C Hn Hl. unfold with_mem. constructor; cbn [v_mem v_cap v_size].
  - destruct (v_mem v) as [m0|] eqn:M; [exists rest; reflexivity|].
    exists []. specialize (Hn eq_refl). destruct l; [reflexivity|cbn [length] in Hl; lia].
  - reflexivity.
  - assumption.
  - destruct (v_mem v) as [m0|] eqn:M; [unfold deref at 1; cbn [v_mem]; lia|].
    specialize (Hn eq_refl). lia.
  - destruct (v_mem v); [discriminate|auto].
Qed.

Lemma vok_at {A} (v : vec A) m n l rest : n = length l -> m = map Obj l ++ rest -> length m = length (deref v) ->
  v_cap v <= length (deref v) -> (v_mem v = None -> v_cap v = 0) -> length l <= v_cap v ->
  vok (with_mem v m n) l.
Proof. intros ->. apply vok_with. Qed.

(** ** Spans of cells *)
Lemma span_app {A} (a b c new : list A) : length new = length b ->
  span (a ++ b ++ c) (length a) new = a ++ new ++ c.
Proof.
  intros H. unfold span. rewrite firstn_app, firstn_all, Nat.sub_diag. cbn [firstn]. rewrite app_nil_r.
  rewrite H. f_equal. f_equal. rewrite skipn_app. rewrite skipn_all2 by lia. cbn [app].
  replace (length a + length b - length a) with (length b) by lia.
  rewrite skipn_app, skipn_all, Nat.sub_diag. reflexivity.
Qed.
Lemma span_at {A} (a b c new : list A) n : length a = n -> length new = length b ->
  span (a ++ b ++ c) n new = a ++ new ++ c.
Proof. intros <-. apply span_app. Qed.
Lemma map_nth_seq {A B} (g : A -> B) (l : list A) d off :
  map (fun i => g (nth i l d)) (seq off (length l - off)) = map g (skipn off l).
Proof.
  revert off. induction l as [|a l IH]; intros off.
  - cbn [length Nat.sub seq map]. now destruct off.
  - destruct off.
    + cbn [length Nat.sub seq map skipn nth]. f_equal. rewrite <- seq_shift, map_map.
      specialize (IH 0). rewrite Nat.sub_0_r in IH. exact IH.
    + cbn [length Nat.sub skipn]. rewrite <- IH, <- seq_shift, map_map. reflexivity.
Qed.
Lemma map_nth_all {A B} (g : A -> B) (l : list A) d : map (fun i => g (nth i l d)) (seq 0 (length l)) = map g l.
Proof. pose proof (map_nth_seq g l d 0) as H. rewrite Nat.sub_0_r in H. exact H. Qed.
Lemma map_const {A B} (l : list A) (c : B) : map (fun _ => c) l = repeat c (length l).
Proof. induction l; cbn [map length repeat]; congruence. Qed.
Lemma upd_same {A} (m : list A) i c : nth_error m i = Some c -> upd m i c = m.
Proof.
  intros H. assert (L : i < length m) by (apply nth_error_Some; congruence).
  apply nth_error_ext. intros j. rewrite nth_upd_cell by assumption.
  destruct (Nat.eqb_spec j i) as [->|]; congruence.
Qed.

Section Ops.
Context {A : Type} (E : elem A).
Let d := e_default E.

Definition destroyable (m : list (cell A)) (off n : nat) : Prop :=
  forall i, i < n -> exists c, nth_error m (off + i) = Some c /\ (c = Raw -> e_triv E = true).

Lemma destroy_upd (m : list (cell A)) i c : nth_error m i = Some c -> (c = Raw -> e_triv E = true) ->
  destroy E m i = Ret (upd m i Raw).
Proof.
  intros H T. unfold destroy. rewrite H. destruct c.
  - rewrite T by reflexivity. now rewrite upd_same.
  - apply write_upd. apply nth_error_Some. congruence.
Qed.
Lemma assign_upd (m : list (cell A)) i c a : nth_error m i = Some c -> (c = Raw -> e_triv E = true) ->
  assign E m i a = Ret (upd m i (Obj a)).
Proof.
  intros H T. assert (L : i < length m) by (apply nth_error_Some; congruence).
  unfold assign. rewrite H. destruct c; [rewrite T by reflexivity|]; now apply write_upd.
Qed.
Lemma objs_destroyable (l : list A) rest off n : off + n <= length l -> destroyable (map Obj l ++ rest) off n.
Proof.
  intros H i Hi. destruct (nth_objs l rest (off + i)) as [a [_ N]]; [lia|].
  exists (Obj a). split; [assumption|discriminate].
Qed.
Lemma triv_destroyable m off n : e_triv E = true -> off + n <= length m -> destroyable m off n.
Proof.
  intros T H i Hi. destruct (nth_error m (off + i)) as [c|] eqn:N; [now exists c|].
  apply nth_error_None in N. lia.
Qed.
Lemma destroyable_len m off n : destroyable m off n -> 0 < n -> off + n <= length m.
Proof.
  intros D H. destruct (D (n - 1)) as [c [N _]]; [lia|].
  assert (off + (n - 1) < length m) by (apply nth_error_Some; congruence). lia.
Qed.
Lemma span_nil (m : list (cell A)) off : span m off [] = m.
Proof. unfold span. cbn [length app]. rewrite Nat.add_0_r. apply firstn_skipn. Qed.

Lemma destruct_kernel_ok ord k m off n : any_orders ord -> (N.of_nat n <= limit)%N ->
  destroyable m off n -> destruct_kernel E ord k m off n = Ret (span m off (repeat Raw n)).
Proof.
  intros O S D. destruct (Nat.eq_dec n 0) as [->|Hn].
  - unfold destruct_kernel, launch. destruct (launch_visits ord k 0 (fun i m => destroy E m (off + i)) m O S) as [l [P Hl]].
    unfold launch in Hl. rewrite Hl. apply Permutation_sym, Permutation_nil in P. subst l. cbn [ofold repeat].
    now rewrite span_nil.
  - pose proof (destroyable_len m off n D ltac:(lia)) as L.
    unfold destruct_kernel. rewrite (launch_span ord k _ (fun _ => Raw)) with (off := off); try assumption.
    + now rewrite map_const, seq_length.
    + intros i m' Hi _ Hm. destruct (D i Hi) as [c [N T]]. apply (destroy_upd _ _ c); [congruence|exact T].
Qed.

Lemma copy_construct_ok ord k to off (l : list A) from rest : any_orders ord -> (N.of_nat (length l) <= limit)%N ->
  off + length l <= length to -> from = map Obj l ++ rest ->
  copy_construct_kernel ord k to off (length l) from 0 = Ret (span to off (map Obj l)).
Proof.
  intros O S L ->. unfold copy_construct_kernel.
  rewrite (launch_span ord k _ (fun i => Obj (nth i l d))) with (off := off); try assumption.
  - now rewrite map_nth_all.
  - intros i m' Hi Lm _. cbn [Nat.add].
    assert (N : nth_error l i = Some (nth i l d)) by (apply nth_error_nth'; assumption).
    rewrite (read_obj _ _ _ _ N). cbn [obind]. apply write_upd. lia.
Qed.

Lemma construct_ok ord k m off n : any_orders ord -> (N.of_nat n <= limit)%N -> off + n <= length m ->
  construct_kernel E ord k m off n = Ret (span m off (map Obj (repeat d n))).
Proof.
  intros O S L. unfold construct_kernel.
  rewrite (launch_span ord k _ (fun _ => Obj d)) with (off := off); try assumption.
  - rewrite map_const, seq_length. f_equal. f_equal. clear. induction n; cbn [repeat map]; congruence.
  - intros i m' Hi Lm _. apply write_upd. lia.
Qed.

(** ** Host *)
Lemma h_reserve_ok ord k (v : vec A) l n : any_orders ord -> vok v l -> (N.of_nat (length l) <= limit)%N ->
  exists v', h_reserve E ord k v n = Ret v' /\ vok v' l /\ v_cap v' = Nat.max n (v_cap v).
Proof.
  intros O V S. destruct V as [[rest D] Sz Le Cap Nul]. unfold h_reserve.
  destruct (Nat.leb_spec n (v_cap v)).
  - exists v. split; [reflexivity|]. split; [constructor; eauto|lia].
  - destruct n as [|n]; [lia|]. cbn [allocate deref v_mem].
    rewrite Sz, (copy_construct_ok ord k _ 0 l _ rest); try assumption; [|rewrite repeat_length; lia].
    cbn [obind]. rewrite destruct_kernel_ok; try assumption; [|rewrite D; apply objs_destroyable; lia].
    cbn [obind]. eexists. split; [reflexivity|]. cbn [v_cap]. split; [|lia].
    assert (L : length (span (repeat Raw (Datatypes.S n)) 0 (map Obj l)) = Datatypes.S n).
    { rewrite span_length; rewrite repeat_length; [reflexivity|]. rewrite map_length. lia. }
    constructor; cbn [v_mem v_cap v_size deref]; try lia; try congruence.
    eexists. unfold span. cbn [firstn app]. reflexivity.
Qed.

Lemma span_objs (l : list A) rest new : length new <= length rest ->
  span (map Obj l ++ rest) (length l) (map (@Obj A) new) = map Obj (l ++ new) ++ skipn (length new) rest.
Proof.
  intros H. rewrite <- (firstn_skipn (length new) rest) at 1.
  rewrite <- (map_length Obj l) at 1. rewrite span_app by (rewrite map_length, firstn_length_le; lia).
  now rewrite map_app, <- app_assoc.
Qed.
Lemma span_cut (l : list A) rest n (new : list (cell A)) : n <= length l -> length new = length l - n ->
  span (map Obj l ++ rest) n new = map Obj (firstn n l) ++ new ++ rest.
Proof.
  intros H L. rewrite <- (firstn_skipn n l) at 1. rewrite map_app, <- app_assoc.
  replace n with (length (map (@Obj A) (firstn n l))) at 3 by (rewrite map_length, firstn_length_le; lia).
  apply span_app. rewrite map_length, skipn_length. lia.
Qed.

Lemma h_resize_ok ord k (v : vec A) l n : any_orders ord -> vok v l -> (N.of_nat (length l) <= limit)%N ->
  (N.of_nat n <= limit)%N ->
  exists v', h_resize E ord k v n = Ret v' /\ vok v' (firstn n l ++ repeat d (n - length l)) /\
             v_cap v <= v_cap v'.
Proof.
  intros O V S Sn. pose proof V as [[rest D] Sz Le Cap Nul]. unfold h_resize.
  destruct (Nat.eqb_spec n (v_size v)) as [->|Hne].
  { exists v. split; [reflexivity|]. rewrite Sz, firstn_all, Nat.sub_diag. cbn [repeat]. now rewrite app_nil_r. }
  destruct (Nat.ltb_spec (v_size v) n).
  - destruct (h_reserve_ok ord k v l n O V S) as [v1 [E1 [V1 C1]]]. rewrite E1. cbn [obind].
    destruct V1 as [[rest1 D1] Sz1 Le1 Cap1 Nul1].
    rewrite construct_ok; try assumption; [|lia|lia]. cbn [obind].
    rewrite Sz1 in *. rewrite Sz in *.
    rewrite (firstn_all2 l) by lia.
    assert (Lr : length (deref v1) = length l + length rest1) by (rewrite D1, app_length, map_length; lia).
    assert (L : length (l ++ repeat d (n - length l)) = n) by (rewrite app_length, repeat_length; lia).
    eexists. split; [reflexivity|].
    rewrite <- L at 2. split; [|unfold with_mem; cbn [v_cap]; lia].
    eapply vok_with with (rest := skipn (n - length l) rest1).
    + rewrite D1, span_objs by (rewrite repeat_length; lia). now rewrite repeat_length.
    + apply span_length. rewrite map_length, repeat_length. lia.
    + assumption.
    + assumption.
    + lia.
  - rewrite destruct_kernel_ok; try assumption; [|lia|rewrite D; apply objs_destroyable; lia].
    cbn [obind]. eexists. split; [reflexivity|]. rewrite Sz in *.
    replace (n - length l) with 0 by lia. cbn [repeat]. rewrite app_nil_r.
    assert (L : length (firstn n l) = n) by (rewrite firstn_length_le; lia).
    rewrite <- L at 3. split; [|unfold with_mem; cbn [v_cap]; lia].
    eapply vok_with with (rest := repeat Raw (length l - n) ++ rest).
    + rewrite D. apply span_cut; [lia|apply repeat_length].
    + apply span_length. rewrite repeat_length. rewrite D, app_length, map_length. lia.
    + assumption.
    + assumption.
    + lia.
Qed.

Lemma h_clear_ok ord k (v : vec A) l : any_orders ord -> vok v l -> (N.of_nat (length l) <= limit)%N ->
  exists v', h_clear E ord k v = Ret v' /\ vok v' [] /\ v_cap v' = v_cap v.
Proof.
  intros O V S. pose proof V as [[rest D] Sz Le Cap Nul]. unfold h_clear.
  destruct (Nat.eqb_spec (v_size v) 0) as [H0|H0].
  { exists v. split; [reflexivity|]. destruct l; [now split|cbn [length] in *; lia]. }
  rewrite destruct_kernel_ok; try assumption; [|lia|rewrite D; apply objs_destroyable; lia].
  cbn [obind]. eexists. split; [reflexivity|]. split; [|reflexivity].
  refine (vok_with v _ [] (repeat Raw (length l) ++ rest) _ _ _ _ _).
  - rewrite D, Sz. rewrite span_cut; [reflexivity|lia|rewrite repeat_length; lia].
  - apply span_length. rewrite repeat_length. rewrite D, app_length, map_length. lia.
  - assumption.
  - assumption.
  - cbn [length]. lia.
Qed.

Lemma upd_objs (l : list A) rest i a : i < length l ->
  upd (map Obj l ++ rest) i (Obj a) = map (@Obj A) (upd l i a) ++ rest.
Proof.
  intros H. unfold upd. rewrite firstn_app, skipn_app, map_length, firstn_map, skipn_map.
  replace (i - length l) with 0 by lia. replace (S i - length l) with 0 by lia.
  rewrite firstn_O, skipn_O, app_nil_r, map_app, <- app_assoc. reflexivity.
Qed.
Lemma h_set_ok (v : vec A) l i a : vok v l ->
  exists v', h_set v i a = Ret (v', i <? length l) /\
             vok v' (if i <? length l then upd l i a else l) /\ v_cap v' = v_cap v.
Proof.
  intros V. pose proof V as [[rest D] Sz Le Cap Nul]. unfold h_set. rewrite Sz.
  destruct (Nat.leb_spec (length l) i); destruct (Nat.ltb_spec i (length l)); try lia.
  - now exists v.
  - assert (L : i < length (deref v)) by lia.
    rewrite write_upd by assumption. cbn [obind]. eexists. split; [reflexivity|]. split; [|reflexivity].
    rewrite <- (upd_length l i a) at 1 by assumption.
    eapply vok_with with (rest := rest).
    + rewrite D. now apply upd_objs.
    + now apply upd_length.
    + assumption.
    + assumption.
    + rewrite upd_length; lia.
Qed.

Lemma h_push_ok ord (v : vec A) l a : any_orders ord -> vok v l -> (N.of_nat (length l + 1) <= limit)%N ->
  exists v', h_push E ord v a = Ret v' /\ vok v' (l ++ [a]).
Proof.
  intros O V S. pose proof (ok_size _ _ V) as Sz. unfold h_push.
  assert (R : exists v1, (if v_size v =? v_cap v then h_reserve E ord 0 v ((v_size v + 1) * 2) else Ret v) = Ret v1
              /\ vok v1 l).
  { destruct (v_size v =? v_cap v); [|now exists v].
    destruct (h_reserve_ok ord 0 v l ((v_size v + 1) * 2) O V ltac:(lia)) as [v1 [E1 [V1 _]]]. eauto. }
  destruct R as [v1 [-> V1]]. cbn [obind].
  pose proof (ok_size _ _ V1) as Sz1. rewrite Sz1.
  destruct (h_resize_ok ord 2 v1 l (length l + 1) O V1 ltac:(lia) ltac:(lia)) as [v2 [-> [V2 _]]].
  cbn [obind]. rewrite (firstn_all2 l) in V2 by lia.
  replace (length l + 1 - length l) with 1 in V2 by lia. cbn [repeat] in V2.
  destruct (h_set_ok v2 _ (v_size v2 - 1) a V2) as [v3 [-> [V3 _]]]. cbn [obind fst].
  exists v3. split; [reflexivity|].
  pose proof (ok_size _ _ V2) as Sz2. rewrite app_length in Sz2. cbn [length] in Sz2.
  rewrite Sz2, app_length in V3. cbn [length] in V3.
  replace (length l + 1 - 1) with (length l) in V3 by lia.
  destruct (Nat.ltb_spec (length l) (length l + 1)); [|lia].
  unfold upd in V3. rewrite firstn_app, firstn_all, Nat.sub_diag in V3. cbn [firstn] in V3.
  rewrite app_nil_r, skipn_all2 in V3 by (rewrite app_length; cbn [length]; lia). exact V3.
Qed.

(** Moving between two blocks of memory. *)
Lemma ofold_two {T U} (body : nat -> list T * list U -> outcome (list T * list U)) (g : nat -> T) (h : nat -> U)
    off foff nt (f0 : list U) : forall l t f,
  NoDup l -> length t = nt -> length f = length f0 ->
  (forall i, In i l -> off + i < nt /\ foff + i < length f0 /\ nth_error f (foff + i) = nth_error f0 (foff + i)) ->
  (forall i t' f', In i l -> length t' = nt -> length f' = length f0 ->
     nth_error f' (foff + i) = nth_error f0 (foff + i) ->
     body i (t', f') = Ret (upd t' (off + i) (g i), upd f' (foff + i) (h i))) ->
  exists t1 f1, ofold body l (t, f) = Ret (t1, f1) /\
    ofold (fun i t => Ret (upd t (off + i) (g i))) l t = Ret t1 /\
    ofold (fun i f => Ret (upd f (foff + i) (h i))) l f = Ret f1.
Proof.
  induction l as [|i l IH]; intros t f ND Lt Lf H B.
  - exists t, f. auto.
  - apply NoDup_cons_iff in ND. destruct ND as [Hi ND].
    destruct (H i (or_introl eq_refl)) as [H1 [H2 H3]].
    cbn [ofold]. rewrite (B i t f (or_introl eq_refl) Lt Lf H3). cbn [obind].
    apply IH; try assumption.
    + rewrite upd_length; lia.
    + rewrite upd_length; lia.
    + intros x Hx. destruct (H x (or_intror Hx)) as [X1 [X2 X3]]. repeat split; try assumption.
      rewrite nth_upd_cell by lia. destruct (Nat.eqb_spec (foff + x) (foff + i)); [|assumption].
      exfalso. apply Hi. now replace i with x by lia.
    + intros x t' f' Hx. apply B. now right.
Qed.

Lemma move_construct_ok ord k to off (w : list A) pre rest : any_orders ord ->
  (N.of_nat (length w) <= limit)%N -> off + length w <= length to ->
  exists q, length q = length w /\
  move_construct_kernel E ord k to off (length w) (pre ++ map Obj w ++ rest) (length pre) =
  Ret (span to off (map Obj w), pre ++ map Obj q ++ rest).
Proof.
  intros O S L. exists (map (e_gone E) w). split; [apply map_length|].
  set (from := pre ++ map Obj w ++ rest).
  assert (Lf : length from = length pre + length w + length rest)
    by (unfold from; rewrite !app_length, map_length; lia).
  assert (Nf : forall i, i < length w -> nth_error from (length pre + i) = Some (Obj (nth i w d))).
  { intros i Hi. unfold from. rewrite nth_error_app2 by lia.
    replace (length pre + i - length pre) with i by lia.
    rewrite nth_error_app1 by (rewrite map_length; lia).
    rewrite nth_error_map, (nth_error_nth' w d) by lia. reflexivity. }
  unfold move_construct_kernel.
  match goal with |- launch _ _ _ ?b ?s = _ => destruct (launch_visits ord k (length w) b s O S) as [l [P ->]] end.
  assert (In_lt : forall i, In i l -> i < length w).
  { intros i Hi. apply (Permutation_in _ P), in_seq in Hi. lia. }
  match goal with |- ofold ?b l _ = _ =>
    destruct (ofold_two b (fun i => Obj (nth i w d)) (fun i => Obj (e_gone E (nth i w d))) off (length pre)
                (length to) from l to from) as [t1 [f1 [Eq [T1 F1]]]] end.
  - apply (Permutation_NoDup (Permutation_sym P)), seq_NoDup.
  - reflexivity.
  - reflexivity.
  - intros i Hi. apply In_lt in Hi. split; [lia|split; [lia|reflexivity]].
  - intros i t' f' Hi Lt' Lf' N. apply In_lt in Hi. rewrite Nf in N by assumption. cbn [fst snd].
    unfold read at 1. rewrite N. cbn [obind]. rewrite write_upd by lia. cbn [obind].
    unfold construct. rewrite write_upd by lia. reflexivity.
  - rewrite Eq. rewrite (ofold_span _ (fun i => Obj (nth i w d)) to off (length w) l P L) in T1 by reflexivity.
    rewrite (ofold_span _ (fun i => Obj (e_gone E (nth i w d))) from (length pre) (length w) l P) in F1
      by (try reflexivity; lia).
    assert (Et : t1 = span to off (map Obj w)).
    { rewrite <- (map_nth_all Obj w d). now injection T1. }
    assert (Ef : f1 = span from (length pre) (map Obj (map (e_gone E) w))).
    { rewrite map_map. rewrite <- (map_nth_all (fun a => Obj (e_gone E a)) w d). now injection F1. }
    rewrite Et, Ef. unfold from at 1. now rewrite span_app by (rewrite !map_length; reflexivity).
Qed.

Lemma split3 (l : list A) b e : b < e -> e <= length l ->
  exists p q w, l = p ++ q ++ w /\ length p = b /\ length q = e - b /\ length w = length l - e /\
                firstn b l = p /\ skipn e l = w.
Proof.
  intros H1 H2. exists (firstn b l), (firstn (e - b) (skipn b l)), (skipn e l). repeat split.
  - rewrite <- (firstn_skipn b l) at 1. f_equal. rewrite <- (firstn_skipn (e - b) (skipn b l)) at 1. f_equal.
    clear - H1. revert b e H1. induction l as [|x l IH]; intros b e H.
    + now rewrite !skipn_nil.
    + destruct b; [now rewrite Nat.sub_0_r|].
      destruct e; [lia|]. cbn [Nat.sub skipn]. apply IH. lia.
  - rewrite firstn_length_le; lia.
  - rewrite firstn_length_le; [reflexivity|]. rewrite skipn_length. lia.
  - apply skipn_length.
Qed.

Lemma span0 (m new : list (cell A)) : length new = length m -> span m 0 new = new.
Proof.
  intros H. unfold span. cbn [firstn app Nat.add]. rewrite H, skipn_all. apply app_nil_r.
Qed.

Lemma h_erase_ok ord (v : vec A) l b e : any_orders ord -> vok v l -> (N.of_nat (length l) <= limit)%N ->
  (e_triv E = true \/ ~ middle_erase l (VErase b e)) ->
  exists v', h_erase E ord v b e = Ret v' /\ vok v' (list_op d l (VErase b e)).
Proof.
  intros O V S T. pose proof V as [[rest D] Sz Le Cap Nul]. unfold h_erase. cbn [list_op]. rewrite Sz.
  destruct (Nat.leb_spec (length l) b); destruct (Nat.ltb_spec b (length l)); try lia; cbn [andb]; [now exists v|].
  destruct (Nat.leb_spec e b); destruct (Nat.ltb_spec b e); try lia; [now exists v|].
  destruct (Nat.leb_spec (length l) e).
  - replace (length l - (Nat.min e (length l) - b)) with b by lia.
    destruct (h_resize_ok ord 0 v l b O V S ltac:(lia)) as [v' [Er [V' _]]].
    exists v'. split; [assumption|]. rewrite (skipn_all2 l) by lia.
    replace (b - length l) with 0 in V' by lia. exact V'.
  - assert (Tr : e_triv E = true) by (destruct T as [T|T]; [assumption|exfalso; apply T; split; assumption]).
    destruct (split3 l b e) as [p [q [w [El [Lp [Lq [Lw [-> ->]]]]]]]]; try lia.
    rewrite <- Lw.
    assert (Dv : deref v = map Obj (p ++ q) ++ map Obj w ++ rest).
    { rewrite D, El, !map_app, <- !app_assoc. reflexivity. }
    assert (Lpq : length (map (@Obj A) (p ++ q)) = e) by (rewrite map_length, app_length; lia).
    assert (Aw : deref (mkVec (@allocate A (length w)) 0 0) = repeat Raw (length w)).
    { destruct (length w); reflexivity. }
    pose (m := map Obj p ++ map Obj w ++ repeat Raw (length q) ++ rest).
    assert (Lm : length m = length (deref v)).
    { unfold m. rewrite Dv. rewrite !app_length, !map_length, repeat_length, app_length. lia. }
    assert (Lpw : length (p ++ w) = b + length w) by (rewrite app_length; lia).
    exists (with_mem v (span m (b + length w) (repeat Raw (length l - (b + length w)))) (length (p ++ w))).
    split.
    + rewrite Dv, Aw. rewrite <- Lpq.
      destruct (move_construct_ok ord 3 (repeat Raw (length w)) 0 w (map Obj (p ++ q)) rest O ltac:(lia)
                  ltac:(rewrite repeat_length; lia)) as [w1 [Lw1 ->]].
      cbn [obind fst snd]. rewrite span0 by (rewrite map_length, repeat_length; reflexivity).
      rewrite destruct_kernel_ok; [|assumption|lia|].
      2:{ rewrite app_assoc, <- map_app. apply objs_destroyable. rewrite !app_length. lia. }
      cbn [obind].
      replace (map Obj (p ++ q) ++ map Obj w1 ++ rest) with (map Obj p ++ map Obj (q ++ w1) ++ rest)
        by (rewrite !map_app, <- !app_assoc; reflexivity).
      replace (span (map Obj p ++ map Obj (q ++ w1) ++ rest) b (repeat Raw (length l - b)))
        with (map Obj p ++ repeat Raw (length l - b) ++ rest).
      2:{ symmetry. apply span_at; [now rewrite map_length|]. rewrite repeat_length, map_length, app_length. lia. }
      pose proof (move_construct_ok ord 5 (map Obj p ++ repeat Raw (length l - b) ++ rest) b w [] [] O ltac:(lia)) as M.
      cbn [length app] in M. rewrite app_nil_r in M.
      destruct M as [w2 [Lw2 M]].
      { rewrite !app_length, map_length, repeat_length. lia. }
      rewrite M. clear M. cbn [obind fst snd]. rewrite app_nil_r.
      replace (span (map Obj p ++ repeat Raw (length l - b) ++ rest) b (map Obj w)) with m.
      2:{ replace (length l - b) with (length w + length q) by lia. rewrite repeat_app, <- app_assoc.
          symmetry. apply span_at; [now rewrite map_length|]. rewrite repeat_length, map_length. lia. }
      replace (length l - (length l - b) + length w) with (b + length w) by lia.
      unfold h_resize. cbn [with_mem v_size].
      destruct (Nat.eqb_spec (b + length w) (length l)); [lia|].
      destruct (Nat.ltb_spec (length l) (b + length w)); [lia|].
      assert (Dm : deref (with_mem v m (length l)) = m).
      { unfold deref, with_mem. cbn [v_mem]. destruct (v_mem v) eqn:Mv; [reflexivity|].
        unfold deref in Lm. rewrite Mv in Lm. destruct m; [reflexivity|discriminate]. }
      change (deref _) with (deref (with_mem v m (length l))). rewrite Dm.
      rewrite destruct_kernel_ok; [|assumption|lia|].
      2:{ apply triv_destroyable; [assumption|]. unfold m. rewrite !app_length, !map_length, repeat_length. lia. }
      cbn [obind]. rewrite destruct_kernel_ok; [|assumption|lia|].
      2:{ rewrite <- (app_nil_r (map Obj w2)). apply objs_destroyable. lia. }
      cbn [obind]. rewrite Lpw. unfold with_mem. cbn [v_mem v_cap]. now destruct (v_mem v).
    + eapply vok_with with (rest := repeat Raw (length q) ++ rest).
      * unfold m. rewrite app_assoc, <- map_app. rewrite <- Lpw at 1. rewrite <- (map_length Obj (p ++ w)) at 1.
        rewrite span_app by (rewrite !repeat_length; lia). do 3 f_equal. lia.
      * rewrite span_length; [assumption|]. rewrite repeat_length. unfold m. rewrite !app_length, !map_length, repeat_length. lia.
      * assumption.
      * assumption.
      * lia.
Qed.

(** For a class the second destruction of the cells past the end is undefined. *)
Lemma h_erase_class ord (v : vec A) l b e : any_orders ord -> vok v l -> (N.of_nat (length l) <= limit)%N ->
  e_triv E = false -> middle_erase l (VErase b e) -> h_erase E ord v b e = UB.
Proof.
  intros O V S T [Hbe Hel]. pose proof V as [[rest D] Sz Le Cap Nul]. unfold h_erase. rewrite Sz.
  destruct (Nat.leb_spec (length l) b); [lia|]. destruct (Nat.leb_spec e b); [lia|].
  destruct (Nat.leb_spec (length l) e); [lia|].
  destruct (split3 l b e) as [p [q [w [El [Lp [Lq [Lw _]]]]]]]; try lia.
  rewrite <- Lw.
  assert (Dv : deref v = map Obj (p ++ q) ++ map Obj w ++ rest).
  { rewrite D, El, !map_app, <- !app_assoc. reflexivity. }
  assert (Lpq : length (map (@Obj A) (p ++ q)) = e) by (rewrite map_length, app_length; lia).
  assert (Aw : deref (mkVec (@allocate A (length w)) 0 0) = repeat Raw (length w)).
  { destruct (length w); reflexivity. }
  pose (m := map Obj p ++ map Obj w ++ repeat Raw (length q) ++ rest).
  assert (Lm : length m = length (deref v)).
  { unfold m. rewrite Dv. rewrite !app_length, !map_length, repeat_length, app_length. lia. }
  rewrite Dv, Aw. rewrite <- Lpq.
  destruct (move_construct_ok ord 3 (repeat Raw (length w)) 0 w (map Obj (p ++ q)) rest O ltac:(lia)
              ltac:(rewrite repeat_length; lia)) as [w1 [Lw1 ->]].
  cbn [obind fst snd]. rewrite span0 by (rewrite map_length, repeat_length; reflexivity).
  rewrite destruct_kernel_ok; [|assumption|lia|].
  2:{ rewrite app_assoc, <- map_app. apply objs_destroyable. rewrite !app_length. lia. }
  cbn [obind].
  replace (map Obj (p ++ q) ++ map Obj w1 ++ rest) with (map Obj p ++ map Obj (q ++ w1) ++ rest)
    by (rewrite !map_app, <- !app_assoc; reflexivity).
  replace (span (map Obj p ++ map Obj (q ++ w1) ++ rest) b (repeat Raw (length l - b)))
    with (map Obj p ++ repeat Raw (length l - b) ++ rest).
  2:{ symmetry. apply span_at; [now rewrite map_length|]. rewrite repeat_length, map_length, app_length. lia. }
  pose proof (move_construct_ok ord 5 (map Obj p ++ repeat Raw (length l - b) ++ rest) b w [] [] O ltac:(lia)) as M.
  cbn [length app] in M. rewrite app_nil_r in M.
  destruct M as [w2 [Lw2 M]].
  { rewrite !app_length, map_length, repeat_length. lia. }
  rewrite M. clear M. cbn [obind fst snd]. rewrite app_nil_r.
  replace (span (map Obj p ++ repeat Raw (length l - b) ++ rest) b (map Obj w)) with m.
  2:{ replace (length l - b) with (length w + length q) by lia. rewrite repeat_app, <- app_assoc.
      symmetry. apply span_at; [now rewrite map_length|]. rewrite repeat_length, map_length. lia. }
  replace (length l - (length l - b) + length w) with (b + length w) by lia.
  unfold h_resize. cbn [with_mem v_size].
  destruct (Nat.eqb_spec (b + length w) (length l)); [lia|].
  destruct (Nat.ltb_spec (length l) (b + length w)); [lia|].
  assert (Dm : deref (with_mem v m (length l)) = m).
  { unfold deref, with_mem. cbn [v_mem]. destruct (v_mem v) eqn:Mv; [reflexivity|].
    unfold deref in Lm. rewrite Mv in Lm. destruct m; [reflexivity|discriminate]. }
  change (deref _) with (deref (with_mem v m (length l))). rewrite Dm.
  unfold destruct_kernel at 1. rewrite launch_UB; [reflexivity|assumption|lia|lia|].
  intros i Hi. unfold destroy.
  assert (Nm : nth_error m (b + length w + i) = Some Raw).
  { unfold m. rewrite app_assoc, <- map_app. rewrite nth_error_app2; rewrite map_length, app_length; [|lia].
    rewrite nth_error_app1 by (rewrite repeat_length; lia).
    apply nth_error_repeat. lia. }
  now rewrite Nm, T.
Qed.

(** ** Programs of the host *)
Theorem h_op_ok ord (v : vec A) l o : any_orders ord -> vok v l -> (N.of_nat (length l) <= limit)%N ->
  (N.of_nat (length (list_op d l o)) <= limit)%N ->
  (e_triv E = true \/ ~ middle_erase l o) ->
  exists v', h_op E ord v o = Ret v' /\ vok v' (list_op d l o).
Proof.
  intros O V S S' T. destruct o; cbn [h_op].
  - cbn [list_op] in *. rewrite app_length in S'. cbn [length] in S'. now apply h_push_ok.
  - cbn [list_op] in *.
    assert (Sn : (N.of_nat n <= limit)%N).
    { rewrite app_length, firstn_length, repeat_length in S'. lia. }
    destruct (h_resize_ok ord 0 v l n O V S Sn) as [v' [? [? _]]]. eauto.
  - destruct (h_set_ok v l i a V) as [v' [-> [V' _]]]. exists v'. split; [reflexivity|]. exact V'.
  - now apply h_erase_ok.
  - destruct (h_clear_ok ord 0 v l O V S) as [v' [? [? _]]]. eauto.
  - destruct (h_reserve_ok ord 0 v l n O V S) as [v' [? [? _]]]. eauto.
Qed.

(** ** Device *)
Context (sz : nat) (sz1 : 1 <= sz).

Lemma d_reserve_ok (v : vec A) l n : vok v l -> (e_triv E = true \/ l = [] \/ n <= v_cap v) ->
  exists v', d_reserve E sz v n = Ret v' /\ vok v' l /\ v_cap v' = Nat.max n (v_cap v).
Proof.
  intros V T. destruct V as [[rest D] Sz Le Cap Nul]. unfold d_reserve.
  destruct (Nat.leb_spec n (v_cap v)).
  { exists v. split; [reflexivity|]. split; [constructor; eauto|lia]. }
  destruct T as [T|[->|]]; [| |lia].
  2:{ rewrite Sz. cbn [length loop obind fst]. eexists. split; [reflexivity|]. cbn [v_cap]. split; [|lia].
      constructor; cbn [v_mem v_cap v_size deref length map app]; try lia; eauto; try discriminate.
      rewrite repeat_length. nia. }
  rewrite loop_ofold, Sz.
  match goal with |- context [ofold ?b _ _] =>
    destruct (ofold_two b (fun i => Obj (nth i l d)) (fun i => Raw) 0 0 (n * sz) (deref v) (seq 0 (length l))
                (repeat Raw (n * sz)) (deref v)) as [t1 [f1 [Eq [T1 F1]]]] end.
  - apply seq_NoDup.
  - apply repeat_length.
  - reflexivity.
  - intros i Hi. apply in_seq in Hi. split; [nia|split; [|reflexivity]]. rewrite D, app_length, map_length. lia.
  - intros i t' f' Hi Lt Lf N. apply in_seq in Hi. cbn [Nat.add fst snd] in *.
    assert (Ni : nth_error f' i = Some (Obj (nth i l d))).
    { rewrite N, D. destruct (nth_objs l rest i) as [a [Ea ->]]; [lia|].
      rewrite (nth_error_nth' l d) in Ea by lia. congruence. }
    unfold read. rewrite Ni. cbn [obind].
    assert (exists c, nth_error t' i = Some c) as [c Hc].
    { destruct (nth_error t' i) eqn:Z; eauto. apply nth_error_None in Z. nia. }
    rewrite (assign_upd t' i c) by auto. cbn [obind].
    rewrite (destroy_upd f' i _ Ni) by discriminate. reflexivity.
  - rewrite Eq. cbn [obind fst]. eexists. split; [reflexivity|]. cbn [v_cap]. split; [|lia].
    rewrite (ofold_span _ (fun i => Obj (nth i l d)) _ 0 (length l) _ (Permutation_refl _)) in T1
      by (try reflexivity; rewrite repeat_length; nia).
    rewrite map_nth_all in T1. apply (f_equal (fun o => match o with Ret x => x | _ => [] end)) in T1. subst t1.
    constructor; cbn [v_mem v_cap v_size deref]; try lia; try discriminate.
    + eexists. unfold span. cbn [firstn app]. reflexivity.
    + rewrite span_length; rewrite repeat_length; [nia|]. rewrite map_length. nia.
Qed.
(** The first assignment to a cell without an object. *)
Lemma d_reserve_class (v : vec A) l n : vok v l -> e_triv E = false -> l <> [] -> v_cap v < n ->
  d_reserve E sz v n = UB.
Proof.
  intros [[rest D] Sz Le Cap Nul] T Hl H. unfold d_reserve.
  destruct (Nat.leb_spec n (v_cap v)); [lia|]. destruct l as [|a l]; [congruence|].
  rewrite Sz. cbn [length loop fst snd]. unfold read. rewrite D. cbn [map app nth_error obind].
  unfold assign. destruct n; [lia|]. destruct sz; [lia|]. cbn [Nat.mul Nat.add repeat nth_error]. now rewrite T.
Qed.

Lemma d_shrink_ok (v : vec A) l n : vok v l -> n <= length l ->
  exists v', loop (length l - n) n (fun i m => destroy E m i) (deref v) = Ret v' /\
             vok (with_mem v v' n) (firstn n l).
Proof.
  intros [[rest D] Sz Le Cap Nul] H.
  assert (Ld : length (deref v) = length l + length rest) by (rewrite D, app_length, map_length; lia).
  rewrite (loop_span _ (fun _ => Raw)).
  - eexists. split; [reflexivity|].
    assert (L : length (firstn n l) = n) by (rewrite firstn_length_le; lia).
    eapply vok_at with (rest := repeat Raw (length l - n) ++ rest).
    + symmetry. exact L.
    + rewrite D. rewrite span_cut; [|lia|now rewrite map_length, seq_length].
      now rewrite map_const, seq_length.
    + apply span_length. rewrite map_length, seq_length. lia.
    + assumption.
    + assumption.
    + lia.
  - lia.
  - intros i m' Hi Lm Nm. destruct (objs_destroyable l rest n (length l - n) ltac:(lia) i Hi) as [c [Nc Tc]].
    rewrite D in Nm. apply (destroy_upd _ _ c); [congruence|exact Tc].
Qed.

Lemma d_resize_ok (v : vec A) l n : vok v l -> (e_triv E = true \/ l = [] \/ n <= v_cap v) ->
  exists v', d_resize E sz v n = Ret v' /\ vok v' (firstn n l ++ repeat d (n - length l)).
Proof.
  intros V T. pose proof V as [[rest D] Sz Le Cap Nul]. unfold d_resize.
  destruct (Nat.eqb_spec n (v_size v)) as [->|Hne].
  { exists v. split; [reflexivity|]. rewrite Sz, firstn_all, Nat.sub_diag. cbn [repeat]. now rewrite app_nil_r. }
  destruct (Nat.ltb_spec n (v_size v)).
  - rewrite Sz in *. destruct (d_shrink_ok v l n V ltac:(lia)) as [m [-> Vm]]. cbn [obind].
    eexists. split; [reflexivity|]. replace (n - length l) with 0 by lia. cbn [repeat]. now rewrite app_nil_r.
  - destruct (d_reserve_ok v l n V T) as [v1 [-> [V1 C1]]]. cbn [obind].
    destruct V1 as [[rest1 D1] Sz1 Le1 Cap1 Nul1]. rewrite Sz1 in *. rewrite Sz in *.
    assert (Ld : length (deref v1) = length l + length rest1) by (rewrite D1, app_length, map_length; lia).
    rewrite (loop_span _ (fun _ => Obj d)).
    + cbn [obind]. eexists. split; [reflexivity|]. rewrite (firstn_all2 l) by lia.
      assert (L : length (l ++ repeat d (n - length l)) = n) by (rewrite app_length, repeat_length; lia).
      rewrite <- L at 2.
      rewrite map_const, seq_length.
      replace (repeat (Obj d) (n - length l)) with (map (@Obj A) (repeat d (n - length l)))
        by (clear; induction (n - length l) as [|k IH]; cbn [repeat map]; congruence).
      eapply vok_with with (rest := skipn (n - length l) rest1).
      * rewrite D1, span_objs by (rewrite repeat_length; lia). now rewrite repeat_length.
      * apply span_length. rewrite map_length, repeat_length. lia.
      * assumption.
      * assumption.
      * lia.
    + lia.
    + intros i m' Hi Lm _. apply write_upd. lia.
Qed.

Lemma d_push_ok (v : vec A) l a : vok v l -> (e_triv E = true \/ l = [] \/ length l < v_cap v) ->
  exists v', d_push E sz v a = Ret v' /\ vok v' (l ++ [a]).
Proof.
  intros V T. pose proof (ok_size _ _ V) as Sz. pose proof (ok_le _ _ V) as Le0. unfold d_push.
  assert (R : exists v1, (if v_size v =? v_cap v then d_reserve E sz v ((v_size v + 1) * 2) else Ret v) = Ret v1
              /\ vok v1 l /\ length l < v_cap v1).
  { destruct (Nat.eqb_spec (v_size v) (v_cap v)) as [H|H].
    - destruct (d_reserve_ok v l ((v_size v + 1) * 2) V) as [v1 [E1 [V1 C1]]].
      { destruct T as [T|[T|T]]; auto. lia. }
      exists v1. split; [assumption|split; [assumption|lia]].
    - exists v. split; [reflexivity|split; [assumption|lia]]. }
  destruct R as [v1 [-> [V1 C1]]]. cbn [obind]. destruct V1 as [[rest1 D1] Sz1 Le1 Cap1 Nul1].
  unfold construct. rewrite write_upd by lia. cbn [obind]. eexists. split; [reflexivity|]. rewrite Sz1.
  assert (Ld : length (deref v1) = length l + length rest1) by (rewrite D1, app_length, map_length; lia).
  replace (length l + 1) with (length (l ++ [a])) by (rewrite app_length; reflexivity).
  destruct rest1 as [|c rest1]; [cbn [length] in Ld; lia|].
  eapply vok_with with (rest := rest1).
  - rewrite D1. unfold upd. rewrite firstn_app, map_length, Nat.sub_diag. cbn [firstn].
    rewrite <- (map_length Obj l) at 1. rewrite firstn_all, app_nil_r.
    rewrite skipn_app, skipn_all2 by (rewrite map_length; lia). rewrite map_length.
    replace (S (length l) - length l) with 1 by lia. cbn [skipn app].
    rewrite map_app, <- app_assoc. reflexivity.
  - apply upd_length. lia.
  - assumption.
  - assumption.
  - rewrite app_length. cbn [length]. lia.
Qed.
Lemma d_push_class (v : vec A) l a : vok v l -> e_triv E = false -> l <> [] -> length l = v_cap v ->
  d_push E sz v a = UB.
Proof.
  intros V T Hl H. unfold d_push. rewrite (ok_size _ _ V). rewrite H, Nat.eqb_refl.
  rewrite (d_reserve_class v l); auto. lia.
Qed.

Lemma d_set_ok (v : vec A) l i a : vok v l ->
  exists v', d_set E v i a = Ret (v', i <? length l) /\
             vok v' (if i <? length l then upd l i a else l).
Proof.
  intros V. pose proof V as [[rest D] Sz Le Cap Nul]. unfold d_set. rewrite Sz.
  destruct (Nat.leb_spec (length l) i); destruct (Nat.ltb_spec i (length l)); try lia.
  - now exists v.
  - assert (L : i < length (deref v)) by lia.
    destruct (nth_objs l rest i) as [x [_ Nx]]; [assumption|].
    rewrite (assign_upd (deref v) i (Obj x)) by (rewrite ?D; congruence). cbn [obind].
    eexists. split; [reflexivity|].
    rewrite <- (upd_length l i a) at 1 by assumption.
    eapply vok_with with (rest := rest).
    + rewrite D. now apply upd_objs.
    + now apply upd_length.
    + assumption.
    + assumption.
    + rewrite upd_length; lia.
Qed.

Lemma d_clear_ok (v : vec A) l : vok v l -> exists v', d_clear E v = Ret v' /\ vok v' [].
Proof.
  intros V. pose proof (ok_size _ _ V) as Sz. unfold d_clear.
  destruct (Nat.eqb_spec (v_size v) 0) as [H0|H0].
  { exists v. split; [reflexivity|]. destruct l; [assumption|cbn [length] in *; lia]. }
  destruct (d_shrink_ok v l 0 V ltac:(lia)) as [m [Em Vm]]. rewrite Nat.sub_0_r in Em.
  rewrite Sz, Em. cbn [obind]. eexists. split; [reflexivity|]. exact Vm.
Qed.

Lemma d_pop_ok (v : vec A) l a : vok v (l ++ [a]) ->
  exists v', d_pop E v = Ret (v', a) /\ vok v' l.
Proof.
  intros [[rest D] Sz Le Cap Nul]. unfold d_pop. rewrite app_length in *. cbn [length] in *.
  destruct (Nat.eqb_spec (v_size v) 0); [lia|]. rewrite Sz.
  replace (length l + 1 - 1) with (length l) by lia.
  rewrite D, (read_obj _ _ _ a) by (rewrite nth_error_app2, Nat.sub_diag by lia; reflexivity).
  cbn [obind]. eexists. split; [reflexivity|]. constructor; cbn [v_mem v_cap v_size]; try lia; auto.
  exists (Obj a :: rest). unfold deref in *. cbn [v_mem]. rewrite D, map_app, <- app_assoc. reflexivity.
Qed.

Lemma erase_loop (removed b : nat) rest : forall (w p q : list A) i, 1 <= removed -> length q = removed -> length p = b + i ->
  exists q', length q' = removed /\
  loop (length w) i (fun i m =>
     obind (read m (b + i + removed)) (fun a =>
     obind (write m (b + i + removed) (Obj (e_gone E a))) (fun m =>
     assign E m (b + i) a))) (map Obj (p ++ q ++ w) ++ rest) = Ret (map Obj (p ++ w ++ q') ++ rest).
Proof.
  induction w as [|a w IH]; intros p q i H1 Lq Lp.
  - exists q. split; [assumption|]. cbn [length loop app]. now rewrite app_nil_r.
  - cbn [length loop].
    assert (Na : nth_error (p ++ q ++ a :: w) (b + i + removed) = Some a).
    { rewrite nth_error_app2 by lia. rewrite nth_error_app2 by lia.
      replace (b + i + removed - length p - length q) with 0 by lia. reflexivity. }
    rewrite (read_obj _ _ _ a Na). cbn [obind].
    assert (La : length (p ++ q ++ a :: w) = b + i + removed + S (length w)) by (rewrite !app_length; cbn [length]; lia).
    rewrite write_upd by (rewrite app_length, map_length; lia). cbn [obind].
    rewrite upd_objs by lia.
    assert (U1 : upd (p ++ q ++ a :: w) (b + i + removed) (e_gone E a) = p ++ q ++ e_gone E a :: w).
    { unfold upd. rewrite !app_assoc. rewrite firstn_app, skipn_app.
      replace (b + i + removed) with (length (p ++ q)) by (rewrite app_length; lia).
      rewrite firstn_all, Nat.sub_diag. cbn [firstn]. rewrite app_nil_r.
      rewrite skipn_all2 by lia. replace (S (length (p ++ q)) - length (p ++ q)) with 1 by lia. reflexivity. }
    rewrite U1. destruct q as [|x q]; [cbn [length] in Lq; lia|].
    assert (Nx : nth_error (p ++ (x :: q) ++ e_gone E a :: w) (b + i) = Some x).
    { rewrite nth_error_app2 by lia. replace (b + i - length p) with 0 by lia. reflexivity. }
    rewrite (assign_upd _ (b + i) (Obj x)).
    2:{ rewrite nth_error_app1 by (rewrite map_length, !app_length; cbn [length]; lia). now rewrite nth_error_map, Nx. }
    2:{ discriminate. }
    cbn [obind]. rewrite upd_objs by (rewrite !app_length; cbn [length]; lia).
    assert (U2 : upd (p ++ (x :: q) ++ e_gone E a :: w) (b + i) a = (p ++ [a]) ++ (q ++ [e_gone E a]) ++ w).
    { unfold upd. replace (b + i) with (length p) by lia.
      rewrite firstn_app, skipn_app, firstn_all, Nat.sub_diag. cbn [firstn]. rewrite app_nil_r.
      rewrite skipn_all2 by lia. replace (S (length p) - length p) with 1 by lia. cbn [skipn app].
      now rewrite <- !app_assoc. }
    rewrite U2. destruct (IH (p ++ [a]) (q ++ [e_gone E a]) (S i) H1) as [q' [Lq' ->]].
    + rewrite app_length. cbn [length] in *. lia.
    + rewrite app_length. cbn [length]. lia.
    + exists q'. split; [assumption|]. now rewrite <- !app_assoc.
Qed.

Lemma d_erase_ok (v : vec A) l b e : vok v l ->
  exists v', d_erase E sz v b e = Ret v' /\ vok v' (list_op d l (VErase b e)).
Proof.
  intros V. pose proof V as [[rest D] Sz Le Cap Nul]. unfold d_erase. cbn [list_op]. rewrite Sz.
  destruct (Nat.leb_spec (length l) b); destruct (Nat.ltb_spec b (length l)); try lia; cbn [andb]; [now exists v|].
  destruct (Nat.leb_spec e b); destruct (Nat.ltb_spec b e); try lia; [now exists v|].
  destruct (Nat.leb_spec (length l) e).
  - replace (length l - (Nat.min e (length l) - b)) with b by lia.
    destruct (d_resize_ok v l b V ltac:(right; right; lia)) as [v' [Er V']].
    exists v'. split; [assumption|]. rewrite (skipn_all2 l) by lia.
    replace (b - length l) with 0 in V' by lia. exact V'.
  - destruct (split3 l b e) as [p [q [w [El [Lp [Lq [Lw [-> ->]]]]]]]]; try lia.
    replace (Nat.min e (length l) - b) with (e - b) by lia. rewrite <- Lw.
    destruct (erase_loop (e - b) b rest w p q 0 ltac:(lia) Lq ltac:(lia)) as [q' [Lq' EL]].
    rewrite D. replace (map Obj l) with (map (@Obj A) (p ++ q ++ w)) by (rewrite <- El; reflexivity).
    rewrite EL. cbn [obind].
    assert (L' : length (p ++ w ++ q') = length l) by (rewrite El, !app_length; lia).
    assert (V' : vok (with_mem v (map Obj (p ++ w ++ q') ++ rest) (length l)) (p ++ w ++ q')).
    { eapply vok_at with (rest := rest); try assumption; try reflexivity.
      - symmetry. exact L'.
      - rewrite D, !app_length, !map_length. lia.
      - lia. }
    replace (length l - (length l - b) + length w) with (b + length w) by lia.
    destruct (d_resize_ok _ _ (b + length w) V') as [v2 [E2 V2]].
    { right. right. unfold with_mem. cbn [v_cap]. lia. }
    exists v2. split; [assumption|].
    rewrite L' in V2. replace (b + length w - length l) with 0 in V2 by lia. cbn [repeat] in V2.
    rewrite app_nil_r, app_assoc in V2.
    replace (b + length w) with (length (p ++ w)) in V2 by (rewrite app_length; lia).
    rewrite firstn_app, firstn_all, Nat.sub_diag in V2. cbn [firstn] in V2. rewrite app_nil_r in V2. exact V2.
Qed.

Theorem d_op_ok (v : vec A) l o : vok v l -> e_triv E = true ->
  exists v', d_op E sz v o = Ret v' /\ vok v' (list_op d l o).
Proof.
  intros V T. destruct o; cbn [d_op].
  - apply d_push_ok; auto.
  - apply d_resize_ok; auto.
  - destruct (d_set_ok v l i a V) as [v' [-> V']]. exists v'. split; [reflexivity|]. exact V'.
  - now apply d_erase_ok.
  - now apply (d_clear_ok v l).
  - destruct (d_reserve_ok v l n V) as [v' [? [? _]]]; auto. eauto.
Qed.
End Ops.
