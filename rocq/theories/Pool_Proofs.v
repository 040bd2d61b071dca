From Coq Require Import Permutation.
From Verif Require Import Base ListLemmas Pool_Model Pool_Spec.

(** ** Sums over threads *)
Definition sum {A} (f : A -> nat) (l : list A) : nat := list_sum (map f l).
Lemma sum_app {A} (f : A -> nat) l1 l2 : sum f (l1 ++ l2) = sum f l1 + sum f l2.
Proof. unfold sum. now rewrite map_app, list_sum_app. Qed.
Lemma sum_cons {A} (f : A -> nat) x l : sum f (x :: l) = f x + sum f l.
Proof. reflexivity. Qed.
Lemma sum_mid {A} (f : A -> nat) l1 x l2 : sum f (l1 ++ x :: l2) = sum f l1 + f x + sum f l2.
Proof. rewrite sum_app, sum_cons. lia. Qed.
Lemma sum_zero {A} (f : A -> nat) l : sum f l = 0 <-> Forall (fun x => f x = 0) l.
Proof.
  induction l as [|x l IH]; [split; [constructor|reflexivity]|]. rewrite sum_cons. split.
  - intros H. constructor; [lia|apply IH; lia].
  - intros H. inversion H; subst. rewrite (proj2 IH) by assumption. lia.
Qed.
Lemma sum_le {A} (f g : A -> nat) l : (forall x, f x <= g x) -> sum f l <= sum g l.
Proof. intros H. induction l as [|x l IH]; [reflexivity|]. rewrite !sum_cons. specialize (H x). lia. Qed.
Lemma sum_wake f ts : (forall th, f (wake th) = f th) -> sum f (map wake ts) = sum f ts.
Proof. intros H. induction ts as [|th ts IH]; [reflexivity|]. cbn [map]. now rewrite !sum_cons, H, IH. Qed.
Lemma sum_wake_one f ts ts' : (forall th, f (wake th) = f th) -> wake_one ts ts' -> sum f ts' = sum f ts.
Proof. intros H W. destruct W as [ts _|l1 r l2]; [reflexivity|]. rewrite !sum_mid. now rewrite <- (H (Wait r)). Qed.

Definition b2n (b : bool) : nat := if b then 1 else 0.
Definition ex (P : task -> bool) (th : thread) : nat := match th with Exec _ t _ => b2n (P t) | _ => 0 end.
Definition of_exec (e : nat) (t : task) : bool := Nat.eqb (tk_exec t) e.
Definition is_task (e i : nat) (t : task) : bool := Nat.eqb (tk_exec t) e && Nat.eqb (tk_id t) i.
(** Tasks in the queue or running. *)
Definition live (P : task -> bool) (s : pool) : nat := sum (fun t => b2n (P t)) (queue s) + sum (ex P) (threads s).
Lemma ex_wake P th : ex P (wake th) = ex P th. Proof. now destruct th. Qed.

(** ** Waiters, and threads that will take a task *)
Definition waiting (th : thread) : nat := match th with Wait _ => 1 | _ => 0 end.
Definition helpful (s : pool) (th : thread) : nat := match th with Loop r => b2n (continues s r) | _ => 0 end.
Definition cont (c : nat -> nat) (u : usage) (r : role) : bool := continues (mkPool [] [] c u) r.
Lemma waiting_wake ts : sum waiting (map wake ts) = 0.
Proof. induction ts as [|th ts IH]; [reflexivity|]. cbn [map]. rewrite sum_cons, IH. now destruct th. Qed.
Lemma waiting_zero ts : Forall (fun th => wake th = th) ts -> sum waiting ts = 0.
Proof. intros H. apply sum_zero. eapply Forall_impl; [|exact H]. intros [| | | |] E; cbn in *; congruence. Qed.

Record inv (tr : list label) (s : pool) : Prop := {
  i_count : forall e, counts s e = live (of_exec e) s;
  i_post : forall e i, occurrences (LPost e i) tr = live (is_task e i) s + occurrences (LFinish e i) tr;
  i_start : forall e i, occurrences (LStart e i) tr = sum (ex (is_task e i)) (threads s) + occurrences (LFinish e i) tr;
  i_wait : Forall (fun th => match th with Wait r => continues s r = true | _ => True end) (threads s);
  i_help : sum waiting (threads s) = 0 \/ length (queue s) <= sum (helpful s) (threads s);
  i_work : state s = WORKING -> exists e, 0 < counts s e }.

Lemma occ_snoc a tr b : occurrences a (tr ++ [b]) = occurrences a tr + (if label_eq_dec b a then 1 else 0).
Proof. unfold occurrences. rewrite count_occ_app. cbn. destruct (label_eq_dec b a); reflexivity. Qed.
Lemma is_task_label e i t : is_task e i t = true <-> tk_exec t = e /\ tk_id t = i.
Proof. unfold is_task. now rewrite Bool.andb_true_iff, !Nat.eqb_eq. Qed.
Lemma post_label e i t : (if label_eq_dec (LPost (tk_exec t) (tk_id t)) (LPost e i) then 1 else 0) = b2n (is_task e i t).
Proof.
  destruct (label_eq_dec _ _) as [E|E], (is_task e i t) eqn:F; try reflexivity; exfalso.
  - injection E as E1 E2. assert (is_task e i t = true) by (apply is_task_label; auto). congruence.
  - apply is_task_label in F as [<- <-]. congruence.
Qed.
Lemma start_label e i t : (if label_eq_dec (LStart (tk_exec t) (tk_id t)) (LStart e i) then 1 else 0) = b2n (is_task e i t).
Proof.
  destruct (label_eq_dec _ _) as [E|E], (is_task e i t) eqn:F; try reflexivity; exfalso.
  - injection E as E1 E2. assert (is_task e i t = true) by (apply is_task_label; auto). congruence.
  - apply is_task_label in F as [<- <-]. congruence.
Qed.
Lemma finish_label e i t : (if label_eq_dec (LFinish (tk_exec t) (tk_id t)) (LFinish e i) then 1 else 0) = b2n (is_task e i t).
Proof.
  destruct (label_eq_dec _ _) as [E|E], (is_task e i t) eqn:F; try reflexivity; exfalso.
  - injection E as E1 E2. assert (is_task e i t = true) by (apply is_task_label; auto). congruence.
  - apply is_task_label in F as [<- <-]. congruence.
Qed.
Ltac no_label := match goal with |- context [label_eq_dec ?a ?b] => let E := fresh in destruct (label_eq_dec a b) as [E|_]; [first [discriminate | match type of E with leave_label ?r = _ => destruct r; discriminate end]|] end.

Lemma set_count_same e n c : set_count e n c e = n. Proof. unfold set_count. now rewrite Nat.eqb_refl. Qed.
Lemma set_count_other e n c x : x <> e -> set_count e n c x = c x.
Proof. intros H. unfold set_count. apply Nat.eqb_neq in H. now rewrite H. Qed.
Lemma set_count_eq e n c x : set_count e n c x = if Nat.eqb e x then n else c x.
Proof. unfold set_count. now rewrite Nat.eqb_sym. Qed.

(** Posting keeps every loop going. *)
Lemma continues_posted t ts s r : continues s r = true -> continues (posted t ts s) r = true.
Proof.
  destruct r as [|e p]; cbn [continues posted state counts usage_eqb negb]; [reflexivity|]. intros H. apply Nat.ltb_lt in H. apply Nat.ltb_lt.
  unfold set_count. destruct (Nat.eqb e (tk_exec t)); lia.
Qed.
Lemma helpful_mono s s' ts : (forall r, continues s r = true -> continues s' r = true) -> sum (helpful s) ts <= sum (helpful s') ts.
Proof.
  intros H. apply sum_le. intros [| r | | |]; cbn; try lia. destruct (continues s r) eqn:E; [now rewrite (H r E)|cbn; lia].
Qed.

Lemma inv_post tr s t ts ts' : inv tr s ->
  (forall P, sum (ex P) ts = sum (ex P) (threads s)) -> sum waiting ts = sum waiting (threads s) -> sum (helpful s) ts = sum (helpful s) (threads s) ->
  Forall (fun th => match th with Wait r => continues s r = true | _ => True end) ts -> wake_one ts ts' ->
  inv (tr ++ [LPost (tk_exec t) (tk_id t)]) (posted t ts' s).
Proof.
  intros [I1 I2 I3 I4 I5 I6] Hex Hw Hh Hf W.
  assert (EX : forall P, sum (ex P) ts' = sum (ex P) (threads s)).
  { intros P. rewrite (sum_wake_one _ _ _ (ex_wake P) W). apply Hex. }
  assert (LIVE : forall P, live P (posted t ts' s) = live P s + b2n (P t)).
  { intros P. unfold live. cbn [posted queue threads]. rewrite sum_app, sum_cons, EX. change (sum (fun t => b2n (P t)) []) with 0. lia. }
  constructor.
  - intros e. rewrite LIVE, <- I1. cbn [posted counts]. rewrite set_count_eq. unfold of_exec. destruct (Nat.eqb_spec (tk_exec t) e); subst; cbn; lia.
  - intros e i. rewrite LIVE, !occ_snoc, post_label, I2. no_label. lia.
  - intros e i. rewrite !occ_snoc, I3. cbn [posted threads]. rewrite EX. do 2 no_label. lia.
  - cbn [posted threads]. apply Forall_forall. intros [| | r | |] H; auto. apply continues_posted.
    rewrite Forall_forall in Hf. apply (Hf (Wait r)). destruct W as [ts _|l1 r' l2]; [exact H|].
    apply in_app_or in H as [H|[H|H]]; [apply in_or_app; now left|discriminate|apply in_or_app; right; now right].
  - assert (M := helpful_mono s (posted t ts' s)). destruct W as [ts Hn|l1 r l2].
    + left. cbn [posted threads]. now apply waiting_zero.
    + cbn [posted threads queue]. rewrite app_length. cbn [length]. right.
      assert (Hr : continues s r = true).
      { rewrite Forall_forall in Hf. apply (Hf (Wait r)). apply in_or_app. right. now left. }
      rewrite sum_mid in Hw, Hh. rewrite sum_mid. cbn [waiting helpful] in *.
      destruct I5 as [I5|I5]; [lia|]. rewrite <- Hh in I5.
      assert (C := fun q => continues_posted t (l1 ++ Loop r :: l2) s q).
      pose proof (M l1 C). pose proof (M l2 C). rewrite (C r Hr). cbn [b2n]. lia.
  - intros _. exists (tk_exec t). cbn [posted counts]. rewrite set_count_same. lia.
Qed.

Lemma Forall_mid {A} (P : A -> Prop) l1 x l2 : Forall P (l1 ++ x :: l2) <-> Forall P l1 /\ P x /\ Forall P l2.
Proof. rewrite Forall_app. split; [intros [A1 B]; inversion B; auto|intros (A1 & B & C); auto]. Qed.
Lemma Forall_wake (P : thread -> Prop) ts : (forall r, P (Loop r)) -> (forall th, (forall r, th <> Wait r) -> P th) -> Forall P (map wake ts).
Proof. intros H1 H2. apply Forall_forall. intros th H. apply in_map_iff in H as (x & <- & _). destruct x; cbn; auto; apply H2; discriminate. Qed.

Lemma inv_step tr s a s' : inv tr s -> step a s s' -> inv (tr ++ [a]) s'.
Proof.
  intros I H. destruct H as [l1 l2 t p s ts' E W|l1 l2 r t0 t p s ts' E W|l1 l2 e p s E|l1 l2 p s E|l1 l2 r s E C|l1 l2 r t q s E C Q|l1 l2 r s E C Q|l1 l2 r t s E|l1 l2 r s E].
  - apply (inv_post tr s t (l1 ++ Run p :: l2)); auto; rewrite ?E; try (intros; now rewrite !sum_mid).
    destruct I as [_ _ _ I4 _ _]. rewrite E in I4. rewrite Forall_mid in *. intuition auto.
  - apply (inv_post tr s t (l1 ++ Exec r t0 p :: l2)); auto; rewrite ?E; try (intros; now rewrite !sum_mid).
    destruct I as [_ _ _ I4 _ _]. rewrite E in I4. rewrite Forall_mid in *. intuition auto.
  - destruct I as [I1 I2 I3 I4 I5 I6]. unfold live in *. rewrite E in *.
    assert (EX : forall P, sum (ex P) (l1 ++ Loop (Joining e p) :: l2) = sum (ex P) (l1 ++ Run (Join e :: p) :: l2)) by (intros P; rewrite !sum_mid; reflexivity).
    constructor; cbn [threads queue counts state]; unfold live; cbn [threads queue].
    + intros x. rewrite I1, EX. reflexivity.
    + intros x i. rewrite !occ_snoc, I2, EX. repeat no_label. lia.
    + intros x i. rewrite !occ_snoc, I3, EX. repeat no_label. lia.
    + rewrite Forall_mid in *. intuition auto.
    + set (s' := {| threads := _; queue := _; counts := _; state := _ |}). rewrite !sum_mid in *. cbn [waiting helpful] in *.
      destruct I5 as [I5|I5]; [left; exact I5|right]. pose proof (helpful_mono s s' l1 (fun r H => H)). pose proof (helpful_mono s s' l2 (fun r H => H)). lia.
    + auto.
  - destruct I as [I1 I2 I3 I4 I5 I6]. unfold live in *. rewrite E in *.
    assert (EX : forall P, sum (ex P) (map wake (l1 ++ Run p :: l2)) = sum (ex P) (l1 ++ Run (Stop :: p) :: l2)).
    { intros P. rewrite sum_wake by apply ex_wake. now rewrite !sum_mid. }
    unfold stopped. constructor; cbn [threads queue counts state]; unfold live; cbn [threads queue].
    + intros e. rewrite I1, EX. reflexivity.
    + intros e i. rewrite !occ_snoc, I2, EX. repeat no_label. lia.
    + intros e i. rewrite !occ_snoc, I3, EX. repeat no_label. lia.
    + apply Forall_wake; auto. intros [| | r | |] H; auto. now destruct (H r).
    + left. apply waiting_wake.
    + destruct (state s); discriminate.
  - destruct I as [I1 I2 I3 I4 I5 I6]. unfold live in *. rewrite E in *.
    assert (EX : forall P, sum (ex P) (l1 ++ leave r :: l2) = sum (ex P) (l1 ++ Loop r :: l2)) by (intros P; rewrite !sum_mid; now destruct r).
    constructor; cbn [threads queue counts state]; unfold live; cbn [threads queue].
    + intros x. rewrite I1, EX. reflexivity.
    + intros x i. rewrite !occ_snoc, I2, EX. repeat (match goal with |- context [label_eq_dec ?a ?b] => destruct (label_eq_dec a b) as [E'|_]; [destruct r; discriminate|] end). lia.
    + intros x i. rewrite !occ_snoc, I3, EX. repeat (match goal with |- context [label_eq_dec ?a ?b] => destruct (label_eq_dec a b) as [E'|_]; [destruct r; discriminate|] end). lia.
    + rewrite Forall_mid in *. destruct r; cbn [leave]; intuition auto.
    + set (s' := {| threads := _; queue := _; counts := _; state := _ |}). rewrite sum_mid in *. rewrite sum_mid in *.
      assert (F : waiting (leave r) = 0) by now destruct r. assert (G : helpful s' (leave r) = 0) by now destruct r. rewrite F, G. cbn [waiting helpful] in I5. rewrite C in I5.
      destruct I5 as [I5|I5]; [left; exact I5|right]. pose proof (helpful_mono s s' l1 (fun r H => H)). pose proof (helpful_mono s s' l2 (fun r H => H)). cbn [b2n] in I5. lia.
    + auto.
  - destruct I as [I1 I2 I3 I4 I5 I6]. unfold live in *. rewrite E in *. rewrite Q in *.
    assert (EX : forall P, sum (ex P) (l1 ++ Exec r t (tk_posts t) :: l2) = sum (ex P) (l1 ++ Loop r :: l2) + b2n (P t)) by (intros P; rewrite !sum_mid; cbn [ex]; lia).
    constructor; cbn [threads queue counts state]; unfold live; cbn [threads queue].
    + intros x. rewrite I1, EX, sum_cons. lia.
    + intros x i. rewrite !occ_snoc, I2, EX, sum_cons. repeat no_label. lia.
    + intros x i. rewrite !occ_snoc, I3, EX, start_label. no_label. lia.
    + rewrite Forall_mid in *. intuition auto.
    + set (s' := {| threads := _; queue := _; counts := _; state := _ |}). rewrite !sum_mid in *. cbn [waiting helpful length] in *. rewrite C in I5. cbn [b2n] in I5.
      destruct I5 as [I5|I5]; [left; exact I5|right]. pose proof (helpful_mono s s' l1 (fun r H => H)). pose proof (helpful_mono s s' l2 (fun r H => H)). lia.
    + auto.
  - destruct I as [I1 I2 I3 I4 I5 I6]. unfold live in *. rewrite E in *. rewrite Q in *.
    assert (EX : forall P, sum (ex P) (l1 ++ Wait r :: l2) = sum (ex P) (l1 ++ Loop r :: l2)) by (intros P; rewrite !sum_mid; reflexivity).
    constructor; cbn [threads queue counts state]; unfold live; cbn [threads queue].
    + intros x. rewrite I1, EX. lia.
    + intros x i. rewrite !occ_snoc, I2, EX. repeat no_label. lia.
    + intros x i. rewrite !occ_snoc, I3, EX. repeat no_label. lia.
    + rewrite Forall_mid in *. destruct I4 as (A & _ & B). split; [|split]; auto.
    + right. cbn. lia.
    + auto.
  - destruct I as [I1 I2 I3 I4 I5 I6].
    assert (P1 : 0 < counts s (tk_exec t)).
    { rewrite I1. unfold live. rewrite E, sum_mid. cbn [ex]. unfold of_exec. rewrite Nat.eqb_refl. cbn [b2n]. lia. }
    unfold live in *. rewrite E in *.
    assert (EX : forall P, sum (ex P) (l1 ++ Exec r t [] :: l2) = sum (ex P) (l1 ++ Loop r :: l2) + b2n (P t)) by (intros P; rewrite !sum_mid; cbn [ex]; lia).
    assert (CNT : forall e, set_count (tk_exec t) (pred (counts s (tk_exec t))) (counts s) e = sum (fun t => b2n (of_exec e t)) (queue s) + sum (ex (of_exec e)) (l1 ++ Loop r :: l2)).
    { intros e. rewrite set_count_eq. pose proof (I1 e) as X. rewrite EX in X.
      assert (Y : of_exec e t = Nat.eqb (tk_exec t) e) by reflexivity. rewrite Y in X.
      destruct (Nat.eqb_spec (tk_exec t) e) as [He|Hne]; cbn [b2n] in X; [rewrite <- He in *|]; lia. }
    unfold finished. cbn zeta. destruct (Nat.eqb_spec (pred (counts s (tk_exec t))) 0) as [Z|Z];
    constructor; cbn [threads queue counts state]; unfold live; cbn [threads queue].
    + intros x. rewrite CNT, sum_wake by apply ex_wake. reflexivity.
    + intros x i. rewrite !occ_snoc, finish_label, I2, EX, sum_wake by apply ex_wake. no_label. lia.
    + intros x i. rewrite !occ_snoc, finish_label, I3, EX, sum_wake by apply ex_wake. no_label. lia.
    + apply Forall_wake; auto. intros [| | r' | |] H; auto. now destruct (H r').
    + left. apply waiting_wake.
    + destruct (state s); discriminate.
    + intros x. now rewrite CNT.
    + intros x i. rewrite !occ_snoc, finish_label, I2, EX. no_label. lia.
    + intros x i. rewrite !occ_snoc, finish_label, I3, EX. no_label. lia.
    + assert (CC : forall ts q rl, continues s rl = true -> continues {| threads := ts; queue := q; counts := set_count (tk_exec t) (pred (counts s (tk_exec t))) (counts s); state := state s |} rl = true).
      { intros ts q [|e p]; cbn [continues state counts]; auto. intros H. apply Nat.ltb_lt in H. apply Nat.ltb_lt. rewrite set_count_eq. destruct (Nat.eqb (tk_exec t) e); lia. }
      rewrite Forall_mid in *. destruct I4 as (A & _ & B). split; [|split; [auto|]]; (eapply Forall_impl; [|eassumption]); intros [| | r' | |]; auto; intros; now apply CC.
    + set (s' := {| threads := _; queue := _; counts := _; state := _ |}).
      assert (CC : forall rl, continues s rl = true -> continues s' rl = true).
      { unfold s'. intros [|e p]; cbn [continues state counts]; auto. intros H. apply Nat.ltb_lt in H. apply Nat.ltb_lt. rewrite set_count_eq. destruct (Nat.eqb (tk_exec t) e); lia. }
      rewrite !sum_mid in *. cbn [waiting helpful] in *. destruct I5 as [I5|I5]; [left; lia|right].
      pose proof (helpful_mono s s' l1 CC). pose proof (helpful_mono s s' l2 CC). lia.
    + intros _. exists (tk_exec t). rewrite set_count_same. lia.
  - destruct I as [I1 I2 I3 I4 I5 I6]. unfold live in *. rewrite E in *.
    assert (EX : forall P, sum (ex P) (l1 ++ Loop r :: l2) = sum (ex P) (l1 ++ Wait r :: l2)) by (intros P; rewrite !sum_mid; reflexivity).
    constructor; cbn [threads queue counts state]; unfold live; cbn [threads queue].
    + intros x. rewrite I1, EX. lia.
    + intros x i. rewrite !occ_snoc, I2, EX. repeat no_label. lia.
    + intros x i. rewrite !occ_snoc, I3, EX. repeat no_label. lia.
    + rewrite Forall_mid in *. destruct I4 as (A & _ & B). split; [|split]; auto.
    + set (s' := {| threads := _; queue := _; counts := _; state := _ |}). rewrite !sum_mid in *. cbn [waiting helpful] in *. destruct I5 as [I5|I5]; [left; lia|right].
      pose proof (helpful_mono s s' l1 (fun r H => H)). pose proof (helpful_mono s s' l2 (fun r H => H)). lia.
    + auto.
Qed.
Lemma inv_start n cl : inv [] (start n cl).
Proof.
  assert (EX : forall P, sum (ex P) (threads (start n cl)) = 0).
  { intros P. apply sum_zero. cbn [start threads]. apply Forall_app. split; apply Forall_forall; intros th H.
    - apply repeat_spec in H. now subst.
    - apply in_map_iff in H as (x & <- & _). reflexivity. }
  constructor; unfold live; cbn [start queue counts state]; intros; rewrite ?EX; try reflexivity.
  - apply Forall_app. split; apply Forall_forall; intros th H.
    + apply repeat_spec in H. now subst.
    + apply in_map_iff in H as (x & <- & _). exact I.
  - right. cbn. lia.
  - discriminate.
Qed.
Lemma inv_execution s tr s' : execution s tr s' -> inv [] s -> inv tr s'.
Proof. intros H. induction H as [s|s tr s' a s'' H IH S]; intros I; [exact I|]. eapply inv_step; eauto. Qed.
