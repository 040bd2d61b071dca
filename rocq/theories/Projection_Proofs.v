From Coq Require Import ZifyBool ZifyNat ZifyN Permutation Sorted.
From Verif Require Import Base ListLemmas Projection_Model Projection_Spec.

(** Keep the elements whose position is not listed. *)
Fixpoint keep {A} (i : nat) (rem : list nat) (l : list A) : list A :=
  match l with
  | [] => []
  | x :: t => if existsb (Nat.eqb i) rem then keep (S i) rem t else x :: keep (S i) rem t
  end.
Lemma keep_none {A} : forall (l : list A) i rem, Forall (fun r => r < i) rem -> keep i rem l = l.
Proof.
  induction l as [|x l IH]; intros i rem H; cbn [keep]; [reflexivity|].
  replace (existsb (Nat.eqb i) rem) with false.
  - rewrite IH; [reflexivity|]. eapply Forall_impl; [|exact H]. intros; cbn beta in *; lia.
  - symmetry. apply not_true_iff_false. rewrite existsb_exists. intros (r & Hr & E).
    apply Nat.eqb_eq in E. subst. rewrite Forall_forall in H. apply H in Hr. lia.
Qed.
Lemma keep_skip {A} : forall (l : list A) i r rem, r < i -> keep i (r :: rem) l = keep i rem l.
Proof.
  induction l as [|x l IH]; intros i r rem H; cbn [keep existsb]; [reflexivity|].
  destruct (Nat.eqb_spec i r); [lia|]. cbn [orb]. rewrite IH by lia. reflexivity.
Qed.
(** Removal of strictly ascending positions, the k-th diminished by the number
    of elements already removed. *)
Lemma remove_by_index_eq {A} : forall rem (pre l : list A) cor,
  StronglySorted lt rem ->
  Forall (fun r => length pre + cor <= r < length pre + cor + length l) rem ->
  remove_by_index (pre ++ l) rem cor = Ret (pre ++ keep (length pre + cor) rem l).
Proof.
  induction rem as [|r rem IH]; intros pre l cor Hs Hf.
  - cbn [remove_by_index]. rewrite keep_none by constructor. reflexivity.
  - inversion Hs as [|? ? Hs' Hlt]; subst. inversion Hf as [|? ? Hr Hf']; subst.
    cbn [remove_by_index]. destruct (Nat.ltb_spec r cor); [lia|].
    (* split l at position r - cor - length pre *)
    set (k := r - cor - length pre).
    assert (Hk : k < length l) by lia.
    destruct (nth_error l k) as [x|] eqn:Ex; [|apply nth_error_None in Ex; lia].
    apply nth_error_split in Ex as (l1 & l2 & -> & Hl1).
    assert (Ee : erase_at (r - cor) (pre ++ l1 ++ x :: l2) = Some (pre ++ l1 ++ l2)).
    { replace (r - cor) with (length (pre ++ l1)) by (rewrite app_length; lia).
      rewrite !app_assoc. generalize (pre ++ l1) as y. clear. induction y as [|a y IH]; cbn; [reflexivity|].
      now rewrite IH. }
    rewrite Ee, app_assoc. rewrite IH; auto.
    + (* keep *)
      rewrite <- app_assoc. f_equal. f_equal.
      rewrite app_length.
      assert (Ek : keep (length pre + cor) (r :: rem) (l1 ++ x :: l2) =
                   l1 ++ keep (S r) (r :: rem) l2).
      { assert (Hr' : r = length pre + cor + length l1) by lia.
        clear - Hr' Hlt. revert Hr'. generalize (length pre + cor) as i. clear pre cor.
        induction l1 as [|a l1 IH]; intros i Hi; cbn [app keep length] in *.
        - assert (i = r) as -> by lia. cbn [existsb]. now rewrite Nat.eqb_refl.
        - replace (existsb (Nat.eqb i) (r :: rem)) with false.
          + rewrite (IH (S i)) by lia. reflexivity.
          + symmetry. apply not_true_iff_false. rewrite existsb_exists. intros (y & Hy & E).
            apply Nat.eqb_eq in E; subst y. destruct Hy as [->|Hy]; [lia|].
            rewrite Forall_forall in Hlt. apply Hlt in Hy. lia. }
      rewrite Ek, keep_skip by lia. f_equal. f_equal. lia.
    + rewrite Forall_forall in *. intros y Hy. specialize (Hf' y Hy). specialize (Hlt y Hy).
      rewrite app_length in *. cbn [length] in *. lia.
Qed.


Section Proofs.
Context {P : Type}.
Notation synapse := (synapse P).
Notation proj := (proj P).
Implicit Types (p q : proj) (l : list synapse) (s : synapse) (g : nat -> option synapse) (ops : list (pop P)) (o : pop P).

(** ** generators *)
Lemma generate_eq : forall n (g : nat -> option synapse) i l, generate g i n l = l ++ yields g i n.
Proof.
  induction n as [|n IH]; intros g i l; cbn [generate yields]; [now rewrite app_nil_r|].
  rewrite IH. destruct (g i); [now rewrite <- app_assoc|reflexivity].
Qed.
Lemma add_spec g n p p' c : add_synapses g n p = (p', c) ->
  p_syn p' = p_syn p ++ yields g 0 n /\ c = length (yields g 0 n).
Proof.
  unfold add_synapses. rewrite generate_eq. intros [= <- <-]. split; [reflexivity|].
  rewrite app_length. lia.
Qed.
Lemma generated_spec g n : p_syn (proj_generated g n) = yields g 0 n.
Proof. unfold proj_generated, reindex. cbn. apply generate_eq. Qed.

(** ** the index *)
Lemma index_from_in l : forall i e, In e (index_from i l) <->
  exists s k, nth_error l k = Some s /\ e = mkConn (sy_from s) (sy_to s) (i + k).
Proof.
  induction l as [|s l IH]; intros i e; cbn [index_from].
  - split; [intros []|intros (s & [|k] & H & _); discriminate].
  - cbn [In]. rewrite IH. split.
    + intros [<-|(s' & k & Hk & ->)].
      * exists s, 0. split; [reflexivity|]. now rewrite Nat.add_0_r.
      * exists s', (S k). split; [exact Hk|]. f_equal. lia.
    + intros (s' & [|k] & Hk & ->); cbn in Hk.
      * injection Hk as <-. left. now rewrite Nat.add_0_r.
      * right. exists s', k. split; [exact Hk|]. f_equal. lia.
Qed.
Lemma index_from_positions l : forall i, map c_index (index_from i l) = seq i (length l).
Proof. induction l as [|s l IH]; intros i; cbn; [reflexivity|]. now rewrite IH. Qed.
Lemma NoDup_map_filter {A B} (f : A -> B) (t : A -> bool) (l : list A) : NoDup (map f l) -> NoDup (map f (filter t l)).
Proof.
  induction l as [|x l IH]; cbn; intros H; [constructor|]. inversion H; subst.
  destruct (t x); cbn; auto. constructor; auto. intros Hin. apply H2.
  apply in_map_iff in Hin as (y & <- & Hy). apply filter_In in Hy as [Hy _]. now apply in_map.
Qed.

Definition index_ok p : Prop := p_updated p = true -> p_index p = index_from 0 (p_syn p).

Lemma reindex_spec p : index_ok p ->
  p_syn (reindex p) = p_syn p /\ p_updated (reindex p) = true /\
  p_index (reindex p) = index_from 0 (p_syn p).
Proof.
  unfold reindex. destruct (p_updated p) eqn:E; intros H; cbn; auto.
Qed.
Lemma hits_spec c n l : NoDup (map c_index (filter (fun e => N.eqb (conn_key c e) n) (index_from 0 l))) /\
  forall i, In i (map c_index (filter (fun e => N.eqb (conn_key c e) n) (index_from 0 l))) <-> is_hit c n l i.
Proof.
  split.
  - apply NoDup_map_filter. rewrite index_from_positions. apply seq_NoDup.
  - intros i. rewrite in_map_iff. split.
    + intros (e & <- & He). apply filter_In in He as [He Hn]. apply index_from_in in He as (s & k & Hk & ->).
      cbn [c_index]. exists s. split; [exact Hk|]. apply N.eqb_eq in Hn. destruct c; exact Hn.
    + intros (s & Hs & Hn). exists (mkConn (sy_from s) (sy_to s) i). split; [reflexivity|].
      apply filter_In. split; [apply index_from_in; exists s, i; auto|].
      apply N.eqb_eq. destruct c; exact Hn.
Qed.
Lemma find_spec c n p p' r : index_ok p -> find_synapses c n p = (p', r) ->
  p_syn p' = p_syn p /\ p_updated p' = true /\ index_ok p' /\
  NoDup r /\ forall i, In i r <-> is_hit c n (p_syn p) i.
Proof.
  intros H. unfold find_synapses. intros [= <- <-].
  destruct (reindex_spec p H) as (E1 & E2 & E3).
  split; [exact E1|]. split; [exact E2|].
  split; [intros _; rewrite E3, E1; reflexivity|].
  rewrite E3. apply hits_spec.
Qed.

(** ** sorting and removal by position *)
Lemma insert_perm x (l0 : list nat) : Permutation (insert_sorted x l0) (x :: l0).
Proof.
  induction l0 as [|y l0 IH]; cbn; [reflexivity|]. destruct (Nat.leb x y); [reflexivity|].
  rewrite IH. apply perm_swap.
Qed.
Lemma sort_perm (l0 : list nat) : Permutation (sort l0) l0.
Proof.
  induction l0 as [|x l0 IH]; cbn; [reflexivity|]. rewrite insert_perm. now constructor.
Qed.
Lemma insert_sorted_sorted x (l0 : list nat) : StronglySorted le l0 -> StronglySorted le (insert_sorted x l0).
Proof.
  induction 1 as [|y l0 Hs IH Hf]; cbn; [repeat constructor|].
  destruct (Nat.leb_spec x y).
  - constructor; [constructor; assumption|]. constructor; [assumption|].
    eapply Forall_impl; [|exact Hf]. intros; lia.
  - constructor; [assumption|]. eapply Permutation_Forall; [symmetry; apply insert_perm|].
    constructor; [lia|assumption].
Qed.
Lemma sort_sorted (l0 : list nat) : StronglySorted le (sort l0).
Proof. induction l0 as [|x l0 IH]; cbn; [constructor|]. now apply insert_sorted_sorted. Qed.
Lemma sorted_strict (l0 : list nat) : StronglySorted le l0 -> NoDup l0 -> StronglySorted lt l0.
Proof.
  induction 1 as [|x l0 Hs IH Hf]; intros Hn; [constructor|]. inversion Hn; subst.
  constructor; [auto|]. rewrite Forall_forall in *. intros y Hy. specialize (Hf y Hy).
  assert (x <> y) by congruence. lia.
Qed.

Lemma keep_filter c n : forall l i rem,
  (forall k, In k rem <-> k < i \/ (i <= k /\ is_hit c n l (k - i))) \/
  (forall k, i <= k -> (In k rem <-> is_hit c n l (k - i))) ->
  keep i rem l = filter (fun s => negb (N.eqb (syn_end c s) n)) l.
Proof.
  intros l i rem H.
  assert (H' : forall k, i <= k -> (In k rem <-> is_hit c n l (k - i))).
  { destruct H as [H|H]; [|exact H]. intros k Hk. rewrite H. split; [intros [Hl|[_ Hl]]; [lia|exact Hl]|auto]. }
  clear H. revert i H'. induction l as [|x l IH]; intros i H; cbn [keep filter]; [reflexivity|].
  assert (E : existsb (Nat.eqb i) rem = N.eqb (syn_end c x) n).
  { apply eq_true_iff_eq. rewrite existsb_exists, N.eqb_eq. split.
    - intros (k & Hk & E). apply Nat.eqb_eq in E; subst k. apply (H i) in Hk; [|lia].
      rewrite Nat.sub_diag in Hk. destruct Hk as (s & Hs & Hn). cbn in Hs. now injection Hs as <-.
    - intros Hn. exists i. split; [|apply Nat.eqb_refl]. apply (H i); [lia|].
      rewrite Nat.sub_diag. exists x. auto. }
  rewrite E. assert (IH' : keep (S i) rem l = filter (fun s => negb (N.eqb (syn_end c s) n)) l).
  { apply IH. intros k Hk. rewrite (H k) by lia. replace (k - i) with (S (k - S i)) by lia. reflexivity. }
  destruct (N.eqb (syn_end c x) n); cbn [negb]; now rewrite IH'.
Qed.

Lemma filter_length_le {A} (f : A -> bool) (l : list A) : length (filter f l) <= length l.
Proof. induction l as [|x l IH]; cbn; [lia|]. destruct (f x); cbn; lia. Qed.
Lemma filter_split_length {A} (f : A -> bool) (l : list A) :
  length l - length (filter (fun x => negb (f x)) l) = length (filter f l).
Proof.
  induction l as [|x l IH]; [reflexivity|]. cbn [filter length].
  destruct (f x); cbn [negb length]; [|exact IH].
  rewrite Nat.sub_succ_l; [now rewrite IH|]. apply filter_length_le.
Qed.

Lemma remove_if_spec f p p' c : remove_synapse_if f p = (p', c) ->
  p_syn p' = filter (fun s => negb (f s)) (p_syn p) /\ c = length (filter f (p_syn p)).
Proof.
  unfold remove_synapse_if. intros [= <- <-]. split; [reflexivity|]. apply filter_split_length.
Qed.
Lemma remove_post_spec n p : exists p' c,
  remove_postsynaptic n p = Ret (p', c) /\
  p_syn p' = filter (fun s => negb (N.eqb (sy_to s) n)) (p_syn p) /\
  c = length (filter (fun s => N.eqb (sy_to s) n) (p_syn p)) /\
  p_updated p' = p_updated p /\
  (c = 0 -> p_updated p = true -> p_index p' = index_from 0 (p_syn p')).
Proof.
  unfold remove_postsynaptic, find_synapses, reindex. cbn [p_updated p_syn p_index].
  set (found := map c_index (filter (fun e => N.eqb (conn_key ByPost e) n) (index_from 0 (p_syn p)))).
  destruct (hits_spec ByPost n (p_syn p)) as [Hnd Hin]. fold found in Hnd, Hin.
  assert (HS : StronglySorted lt (sort found)).
  { apply sorted_strict; [apply sort_sorted|]. eapply Permutation_NoDup; [symmetry; apply sort_perm|exact Hnd]. }
  assert (Hb : Forall (fun r => length (@nil synapse) + 0 <= r < length (@nil synapse) + 0 + length (p_syn p)) (sort found)).
  { apply Forall_forall. intros r Hr. apply (Permutation_in _ (sort_perm found)) in Hr.
    apply Hin in Hr as (s & Hs & _). assert (r < length (p_syn p)) by (apply nth_error_Some; congruence).
    cbn. lia. }
  pose proof (remove_by_index_eq (sort found) [] (p_syn p) 0 HS Hb) as E. cbn [app length] in E.
  change (0 + 0) with 0 in E.
  assert (Ek : keep 0 (sort found) (p_syn p) = filter (fun s => negb (N.eqb (sy_to s) n)) (p_syn p)).
  { apply (keep_filter ByPost n). right. intros k _. rewrite Nat.sub_0_r, <- Hin.
    split; apply Permutation_in; [apply sort_perm|symmetry; apply sort_perm]. }
  rewrite E. cbn [obind]. rewrite Ek.
  eexists _, _. split; [reflexivity|]. cbn [p_syn p_updated p_index].
  split; [reflexivity|]. split; [apply filter_split_length|]. split; [reflexivity|].
  rewrite filter_split_length. intros Hc ->.
  (* nothing was found *)
  assert (Hf0 : filter (fun s => N.eqb (sy_to s) n) (p_syn p) = []) by (apply length_zero_iff_nil; exact Hc).
  assert (found = []) as Hfe.
  { destruct found as [|i t] eqn:Ef; [reflexivity|]. exfalso.
    destruct (proj1 (Hin i) (or_introl eq_refl)) as (s & Hs & Hn).
    assert (In s (filter (fun s => N.eqb (sy_to s) n) (p_syn p))).
    { apply filter_In. split; [eapply nth_error_In; eauto|]. now apply N.eqb_eq. }
    rewrite Hf0 in H. destruct H. }
  rewrite Hfe. cbn [sort fold_right fold_left].
  f_equal. clear - Hf0. induction (p_syn p) as [|x l IH]; cbn in *; [reflexivity|].
  destruct (N.eqb (sy_to x) n); [discriminate|]. cbn. now rewrite <- IH.
Qed.
Lemma remove_one_spec i p : forall p', remove_synapse i p = Ret p' ->
  exists l1 s l2, p_syn p = l1 ++ s :: l2 /\ length l1 = i /\ p_syn p' = l1 ++ l2.
Proof.
  unfold remove_synapse. intros p'. destruct (erase_at i (p_syn p)) as [l|] eqn:E; intros [= <-]. cbn.
  revert i l E. induction (p_syn p) as [|x t IH]; intros i l E; [destruct i; discriminate|].
  destruct i as [|i]; cbn in E.
  - injection E as <-. exists [], x, t. auto.
  - destruct (erase_at i t) as [t'|] eqn:Et; [|discriminate]. injection E as <-.
    destruct (IH i t' Et) as (l1 & s & l2 & -> & HL & ->). exists (x :: l1), s, l2. cbn. auto.
Qed.
Lemma remove_one_defined i p : (exists p', remove_synapse i p = Ret p') <-> i < length (p_syn p).
Proof.
  unfold remove_synapse. revert i. induction (p_syn p) as [|x t IH]; intros i; cbn.
  - split; [|lia]. destruct i; intros (p' & H); discriminate.
  - destruct i as [|i]; cbn.
    + split; [lia|eauto].
    + rewrite <- Nat.succ_lt_mono, <- IH. destruct (erase_at i t); split; intros (p' & H); try discriminate; eauto.
Qed.

(** ** histories *)
Lemma step_ok p o p' x fresh :
  pexec p o = Ret (p', x) -> index_ok p -> p_updated p = fresh ->
  match o with
  | PRemovePost _ => fresh = false \/ x = PCount 0
  | PAssign _ _ => fresh = false
  | _ => True
  end ->
  index_ok p' /\ p_updated p' = fresh_step fresh o.
Proof.
  intros H Hok Hf Hc. destruct o; cbn [pexec] in H; cbn [fresh_step].
  - destruct (add_synapses g n p) as [q c] eqn:E. injection H as <- <-.
    unfold add_synapses in E. injection E as <- <-. split; [intros Hx; discriminate|reflexivity].
  - injection H as <- <-. split; [intros _; reflexivity|exact Hf].
  - destruct (remove_synapse i p) as [q| |] eqn:E; cbn in H; try discriminate. injection H as <- <-.
    unfold remove_synapse in E. destruct (erase_at i (p_syn p)); [injection E as <-|discriminate].
    split; [intros Hx; discriminate|reflexivity].
  - injection H as <- <-. split; [intros Hx; discriminate|reflexivity].
  - injection H as <- <-. split; [intros Hx; discriminate|reflexivity].
  - destruct (remove_post_spec n p) as (q & c & E & _ & _ & Hu & Hi). rewrite E in H. cbn in H.
    injection H as <- <-. split; [|congruence]. intros Hup. destruct Hc as [Hc|Hc]; [congruence|].
    injection Hc as ->. apply Hi; congruence.
  - destruct (find_synapses c n p) as [q r] eqn:E. injection H as <- <-.
    destruct (find_spec c n p q r Hok E) as (_ & Hu & Ho & _). auto.
  - destruct (assign i s p) as [q| |] eqn:E; cbn in H; try discriminate. injection H as <- <-.
    unfold assign in E. destruct (set_nth i s (p_syn p)); [injection E as <-|discriminate].
    split; [intros Hx; cbn in Hx; congruence|exact Hf].
Qed.
Lemma run_ok : forall ops p p' tr fresh,
  prun p ops = Ret (p', tr) -> index_ok p -> p_updated p = fresh -> undamaged fresh tr -> index_ok p'.
Proof.
  induction ops as [|o ops IH]; cbn [prun]; intros p p' tr fresh H Hok Hf Hu.
  - now injection H as <- _.
  - destruct (pexec p o) as [[p1 x]| |] eqn:E; cbn in H; try discriminate.
    destruct (prun p1 ops) as [[p2 tr2]| |] eqn:E2; cbn in H; try discriminate.
    injection H as <- <-. cbn [undamaged] in Hu. destruct Hu as [Hc Hu].
    destruct (step_ok p o p1 x fresh E Hok Hf Hc) as [Hok1 Hf1].
    eapply IH; eauto.
Qed.
Lemma index_ok_empty : index_ok proj_empty.
Proof. intros H; discriminate. Qed.
Lemma index_ok_generated g n : index_ok (proj_generated g n).
Proof. intros _. reflexivity. Qed.

Lemma search_correct p0 fresh ops p tr c n p' r :
  (p0 = proj_empty /\ fresh = false) \/ (exists g k, p0 = proj_generated g k) /\ fresh = true ->
  prun p0 ops = Ret (p, tr) -> undamaged fresh tr ->
  find_synapses c n p = (p', r) ->
  p_syn p' = p_syn p /\ NoDup r /\ forall i, In i r <-> is_hit c n (p_syn p) i.
Proof.
  intros H0 Hr Hu Hf.
  assert (Hok : index_ok p).
  { destruct H0 as [[-> ->]|[(g & k & ->) ->]].
    - eapply run_ok; eauto using index_ok_empty.
    - eapply run_ok; eauto using index_ok_generated. }
  destruct (find_spec c n p p' r Hok Hf) as (E & _ & _ & Hn & Hi). auto.
Qed.
End Proofs.
