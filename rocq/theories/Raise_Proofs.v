From Verif Require Import Base ListLemmas Pool_Model Pool_Spec Pool_Proofs Pool_Proofs2 Raise_Model Raise_Spec.

(** The labels of the pool: a throw is the end of the task. *)
Definition plain (a : xlabel) : list label :=
  match a with XStep a => [a] | XThrow _ x i => [LFinish x i] | XTerminate => [] end.
Definition plains (tr : list xlabel) : list label := flat_map plain tr.
Lemma plains_snoc tr a : plains (tr ++ [a]) = plains tr ++ plain a.
Proof. unfold plains. rewrite flat_map_app. cbn [flat_map]. now rewrite app_nil_r. Qed.

Lemma inv_throw tr s l1 l2 e rest t : inv tr s -> threads s = l1 ++ Exec (Joining e rest) t [] :: l2 ->
  inv (tr ++ [LFinish (tk_exec t) (tk_id t)]) (finished t (l1 ++ Run rest :: l2) s).
Proof.
  intros [I1 I2 I3 I4 I5 I6] E.
  assert (P1 : 0 < counts s (tk_exec t)).
  { rewrite I1. unfold live. rewrite E, sum_mid. cbn [ex]. unfold of_exec. rewrite Nat.eqb_refl. cbn [b2n]. lia. }
  unfold live in *. rewrite E in *.
  assert (EX : forall P, sum (ex P) (l1 ++ Exec (Joining e rest) t [] :: l2) = sum (ex P) (l1 ++ Run rest :: l2) + b2n (P t)) by (intros P; rewrite !sum_mid; cbn [ex]; lia).
  assert (CNT : forall x, set_count (tk_exec t) (pred (counts s (tk_exec t))) (counts s) x = sum (fun t => b2n (of_exec x t)) (queue s) + sum (ex (of_exec x)) (l1 ++ Run rest :: l2)).
  { intros x. rewrite set_count_eq. pose proof (I1 x) as X. rewrite EX in X.
    assert (Y : of_exec x t = Nat.eqb (tk_exec t) x) by reflexivity. rewrite Y in X.
    destruct (Nat.eqb_spec (tk_exec t) x) as [He|Hne]; cbn [b2n] in X; [rewrite <- He in *|]; lia. }
  unfold finished. cbn zeta. destruct (Nat.eqb_spec (pred (counts s (tk_exec t))) 0) as [Z|Z];
  constructor; cbn [threads queue counts state]; unfold live; cbn [threads queue].
  + intros x. rewrite CNT, sum_wake by apply ex_wake. reflexivity.
  + intros x i. rewrite !occ_snoc, finish_label, I2, EX, sum_wake by apply ex_wake. no_label. lia.
  + intros x i. rewrite !occ_snoc, finish_label, I3, EX, sum_wake by apply ex_wake. no_label. lia.
  + apply Forall_wake; auto. intros [| | r' | |] H; auto. now destruct (H r').
  + left. apply waiting_wake.
  + destruct (state s); discriminate.
  + intros x. now rewrite CNT.
  + intros x i. rewrite !occ_snoc, finish_label, I2, EX. no_label. lia.
  + intros x i. rewrite !occ_snoc, finish_label, I3, EX. no_label. lia.
  + assert (CC : forall ts q rl, continues s rl = true -> continues {| threads := ts; queue := q; counts := set_count (tk_exec t) (pred (counts s (tk_exec t))) (counts s); state := state s |} rl = true).
    { intros ts q [|x p]; cbn [continues state counts]; auto. intros H. apply Nat.ltb_lt in H. apply Nat.ltb_lt. rewrite set_count_eq. destruct (Nat.eqb (tk_exec t) x); lia. }
    rewrite Forall_mid in *. destruct I4 as (A & _ & B). split; [|split; [auto|]]; (eapply Forall_impl; [|eassumption]); intros [| | r' | |]; auto; intros; now apply CC.
  + set (s' := {| threads := _; queue := _; counts := _; state := _ |}).
    assert (CC : forall rl, continues s rl = true -> continues s' rl = true).
    { unfold s'. intros [|x p]; cbn [continues state counts]; auto. intros H. apply Nat.ltb_lt in H. apply Nat.ltb_lt. rewrite set_count_eq. destruct (Nat.eqb (tk_exec t) x); lia. }
    rewrite !sum_mid in *. cbn [waiting helpful] in *. destruct I5 as [I5|I5]; [left; lia|right].
    pose proof (helpful_mono s s' l1 CC). pose proof (helpful_mono s s' l2 CC). lia.
  + intros _. exists (tk_exec t). rewrite set_count_same. lia.
Qed.

(** Counting in the two traces. *)
Lemma times_snoc a tr b : times a (tr ++ [b]) = times a tr + (if xlabel_eq_dec b a then 1 else 0).
Proof. unfold times. rewrite count_occ_app. cbn. destruct (xlabel_eq_dec b a); reflexivity. Qed.
Lemma throws_snoc x i tr a : throws x i (tr ++ [a]) = throws x i tr + match a with XThrow _ y j => b2n (Nat.eqb x y && Nat.eqb i j) | _ => 0 end.
Proof. unfold throws. rewrite filter_app, app_length. f_equal. cbn [filter]. destruct a as [| e y j|]; try reflexivity. now destruct (Nat.eqb x y && Nat.eqb i j). Qed.
Lemma occ_app a t1 t2 : occurrences a (t1 ++ t2) = occurrences a t1 + occurrences a t2.
Proof. unfold occurrences. apply count_occ_app. Qed.
Lemma occ_one a b : occurrences a [b] = if label_eq_dec b a then 1 else 0.
Proof. unfold occurrences. cbn. destruct (label_eq_dec b a); reflexivity. Qed.
Lemma occ_step a tr : (forall x i, a <> LFinish x i) -> occurrences a (plains tr) = times (XStep a) tr.
Proof.
  intros N. induction tr as [|b tr IH] using rev_ind; [reflexivity|]. rewrite plains_snoc, occ_app, times_snoc, IH. f_equal.
  destruct b as [b|e x i|]; cbn [plain].
  - rewrite occ_one. destruct (label_eq_dec b a) as [->|D]; destruct (xlabel_eq_dec _ _) as [E|E]; congruence.
  - rewrite occ_one. destruct (label_eq_dec _ a) as [E|D]; [elim (N x i); congruence|]. now destruct (xlabel_eq_dec _ _).
  - now destruct (xlabel_eq_dec _ _).
Qed.
Lemma occ_finish x i tr : occurrences (LFinish x i) (plains tr) = was_ended x i tr.
Proof.
  unfold was_ended. induction tr as [|b tr IH] using rev_ind; [reflexivity|]. rewrite plains_snoc, occ_app, times_snoc, throws_snoc, IH.
  destruct b as [b|e y j|]; cbn [plain].
  - rewrite occ_one. destruct (label_eq_dec b _) as [->|D]; destruct (xlabel_eq_dec _ _) as [E|E]; try congruence; lia.
  - rewrite occ_one. destruct (xlabel_eq_dec _ _) as [E|_]; [discriminate|].
    destruct (label_eq_dec _ _) as [E|D].
    + injection E as -> ->. rewrite !Nat.eqb_refl. cbn. lia.
    + destruct (Nat.eqb_spec x y), (Nat.eqb_spec i j); subst; cbn; try congruence; lia.
  - destruct (xlabel_eq_dec _ _) as [E|_]; [discriminate|]. change (occurrences (LFinish x i) []) with 0. lia.
Qed.

Lemma inv_stuck tr s : inv tr s -> stuck s ->
  Forall (fun th => th = Run [] \/ th = Wait Worker \/ th = Done) (threads s) /\ (In (Wait Worker) (threads s) -> queue s = []).
Proof.
  intros [I1 I2 I3 I4 I5 I6] St.
  assert (NB : forall th, In th (threads s) -> ~ busy th).
  { intros th Hin B. destruct (busy_step s th Hin B) as (a & s' & Ha & S). apply Ha. exact (St a s' S). }
  assert (HL : sum (helpful s) (threads s) = 0).
  { apply sum_zero. apply Forall_forall. intros [p|r|r|r t p|] Hin; try reflexivity. exfalso. exact (NB _ Hin I). }
  assert (Q : forall r, In (Wait r) (threads s) -> queue s = []).
  { intros r Hin. destruct I5 as [I5|I5]; [|rewrite HL in I5; destruct (queue s); [reflexivity|cbn in I5; lia]].
    apply sum_zero in I5. rewrite Forall_forall in I5. discriminate (I5 _ Hin). }
  split; [|apply Q]. apply Forall_forall. intros th Hin. destruct th as [p|r|r|r t p|].
  - destruct p; [now left|]. exfalso. exact (NB _ Hin I).
  - exfalso. exact (NB _ Hin I).
  - destruct r as [|e p]; [right; now left|]. exfalso.
    rewrite Forall_forall in I4. pose proof (I4 _ Hin) as C. cbn [continues] in C. apply Nat.ltb_lt in C.
    rewrite I1 in C. assert (Z : live (of_exec e) s = 0); [|lia]. apply live_zero. rewrite (Q _ Hin). split; [constructor|].
    apply Forall_forall. intros [| | |r t p'|] Hin'; auto. exfalso. exact (NB _ Hin' I).
  - exfalso. exact (NB _ Hin I).
  - now right; right.
Qed.
Lemma inv_progress tr s : inv tr s -> Exists in_join (threads s) -> exists a s', a <> LSpurious /\ step a s s'.
Proof.
  intros I X. apply Exists_exists in X as (th & Hin & J).
  destruct (Exists_dec busy (threads s)) as [B|B].
  - intros [[|? ?]|r|r|r t p|]; cbn; auto.
  - apply Exists_exists in B as (th' & H' & B). exact (busy_step s th' H' B).
  - exfalso. assert (NB : forall th, In th (threads s) -> ~ busy th) by (intros th0 H0 B0; apply B; apply Exists_exists; eauto). destruct I as [I1 I2 I3 I4 I5 I6].
    assert (HL : sum (helpful s) (threads s) = 0).
    { apply sum_zero. apply Forall_forall. intros [p|r|r|r t p|] Hi; try reflexivity. exfalso. exact (NB _ Hi Logic.I). }
    destruct th as [p|r|r|r t p|]; cbn in J; try contradiction.
    + exact (NB _ Hin Logic.I).
    + destruct r as [|e p]; [contradiction|].
      assert (Q : queue s = []).
      { destruct I5 as [I5|I5]; [|rewrite HL in I5; destruct (queue s); [reflexivity|cbn in I5; lia]].
        apply sum_zero in I5. rewrite Forall_forall in I5. discriminate (I5 _ Hin). }
      rewrite Forall_forall in I4. pose proof (I4 _ Hin) as C. cbn [continues] in C. apply Nat.ltb_lt in C.
      rewrite I1 in C. assert (Z : live (of_exec e) s = 0); [|lia]. apply live_zero. rewrite Q. split; [constructor|].
      apply Forall_forall. intros [| | |r t p'|] Hin'; auto. exfalso. exact (NB _ Hin' Logic.I).
    + exact (NB _ Hin Logic.I).
Qed.

Section X.
Variable raises : nat -> nat -> bool.
Definition xinv (tr : list xlabel) (p : process) : Prop := match p with Alive s => inv (plains tr) s | Dead => True end.
Lemma xinv_execution p0 tr p : xexecution raises p0 tr p -> xinv [] p0 -> xinv tr p.
Proof.
  intros H. induction H as [s|s tr s' a s'' H IH S]; intros I; [exact I|]. specialize (IH I).
  destruct S as [a s1 s2 S F|l1 l2 e rest t s1 E R|l1 l2 t s1 E R]; cbn [xinv] in *; [| |exact Logic.I]; rewrite plains_snoc; cbn [plain].
  - eapply inv_step; eauto.
  - eapply inv_throw; eauto.
Qed.
Lemma xinv_start n cl tr s : xexecution raises (Alive (start n cl)) tr (Alive s) -> inv (plains tr) s.
Proof. intros H. exact (xinv_execution _ _ _ H (inv_start n cl)). Qed.

(** ** Progress *)
Lemma finished_task a s s' x i : step a s s' -> a = LFinish x i -> exists l1 l2 r t, threads s = l1 ++ Exec r t [] :: l2 /\ tk_exec t = x /\ tk_id t = i.
Proof.
  intros H. destruct H as [l1 l2 t p s ts' E W|l1 l2 r t0 t p s ts' E W|l1 l2 e p s E|l1 l2 p s E|l1 l2 r s E C|l1 l2 r t q s E C Q|l1 l2 r s E C Q|l1 l2 r t s E|l1 l2 r s E];
  intros X; try discriminate; [destruct r; discriminate|]. injection X as <- <-. eauto 8.
Qed.
(** Whatever the pool can do, the process can do: that step, throw or terminate. *)
Lemma step_xstep a s s' : step a s s' -> a <> LSpurious -> exists b p, x_spurious b = false /\ xstep raises b (Alive s) p.
Proof.
  intros H N. destruct (finishes_raising raises a) eqn:F.
  - destruct a as [| |x i| | | |]; try discriminate. cbn [finishes_raising] in F.
    destruct (finished_task _ _ _ _ _ H eq_refl) as (l1 & l2 & r & t & E & <- & <-).
    destruct r as [|e rest].
    + exists XTerminate, Dead. split; [reflexivity|]. eapply x_terminate; eauto.
    + exists (XThrow e (tk_exec t) (tk_id t)). eexists. split; [reflexivity|]. eapply x_throw; eauto.
  - exists (XStep a), (Alive s'). split; [now destruct a|]. now constructor.
Qed.
Lemma x_stuck_stuck s : x_stuck raises (Alive s) -> stuck s.
Proof.
  intros K a s' H. destruct (label_eq_dec a LSpurious) as [->|N]; [reflexivity|]. exfalso.
  destruct (step_xstep a s s' H N) as (b & p & B & X). rewrite (K _ _ X) in B. discriminate.
Qed.
(** ** Termination *)
Definition xmeasure (p : process) : nat := match p with Alive s => S (measure s) | Dead => 0 end.
Lemma measure_throw s l1 l2 e rest t : threads s = l1 ++ Exec (Joining e rest) t [] :: l2 -> measure (finished t (l1 ++ Run rest :: l2) s) < measure s.
Proof.
  intros E. assert (L : length (threads (finished t (l1 ++ Run rest :: l2) s)) = length (threads s)).
  { unfold finished. cbn zeta. destruct (Nat.eqb _ 0); cbn [threads]; rewrite ?map_length, E, !app_length; reflexivity. }
  apply measure_less; [exact L|]. unfold all_work, finished. cbn zeta.
  destruct (Nat.eqb _ 0); cbn [threads queue]; rewrite ?(sum_wake work) by apply work_wake; rewrite E, !sum_mid; cbn [work role_work]; change (sum task_steps []) with 0; lia.
Qed.
Lemma xmeasure_step a p p' : xstep raises a p p' -> if x_spurious a then xmeasure p' = S (xmeasure p) else xmeasure p' < xmeasure p.
Proof.
  intros [a0 s s' S F|l1 l2 e rest t s E R|l1 l2 t s E R]; cbn [x_spurious xmeasure].
  - destruct (measure_step a0 s s' S) as [_ M]. destruct (is_spurious a0); lia.
  - pose proof (measure_throw s l1 l2 e rest t E). lia.
  - lia.
Qed.
Lemma xbounded p tr p' : xexecution raises p tr p' ->
  length (x_real tr) + xmeasure p' <= xmeasure p + (length tr - length (x_real tr)) /\ length (x_real tr) <= length tr.
Proof.
  intros H. induction H as [s|s tr s' a s'' H IH S].
  - cbn. lia.
  - destruct IH as (M & R). pose proof (xmeasure_step a s' s'' S) as M'.
    unfold x_real in *. rewrite filter_app, !app_length. cbn [filter length]. destruct (x_spurious a); cbn [negb length] in *; lia.
Qed.

(** ** Without workers *)
Definition client (th : thread) : Prop := ~ is_worker th.
Lemma client_wake ts : Forall client ts -> Forall client (map wake ts).
Proof. intros H. apply Forall_map. eapply Forall_impl; [|exact H]. intros [| | | |] C; exact C. Qed.
Lemma client_wake_one ts ts' : wake_one ts ts' -> Forall client ts -> Forall client ts'.
Proof. intros W H. destruct W as [ts W|l1 r l2]; [exact H|]. apply Forall_mid in H as (H1 & H2 & H3). apply Forall_mid. split; [exact H1|]. split; [|exact H3]. exact H2. Qed.
Lemma client_finished t ts s : Forall client ts -> Forall client (threads (finished t ts s)).
Proof. intros H. unfold finished. cbn zeta. destruct (Nat.eqb _ 0); cbn [threads]; [now apply client_wake|exact H]. Qed.
Lemma clients_step a s s' : step a s s' -> Forall client (threads s) -> Forall client (threads s').
Proof.
  intros H A. destruct H as [l1 l2 t p s ts' E W|l1 l2 r t0 t p s ts' E W|l1 l2 e p s E|l1 l2 p s E|l1 l2 r s E C|l1 l2 r t q s E C Q|l1 l2 r s E C Q|l1 l2 r t s E|l1 l2 r s E];
  rewrite E in A; apply Forall_mid in A as (A1 & A2 & A3); cbn [posted stopped threads].
  1,2: eapply client_wake_one; [exact W|].
  4: apply client_wake.
  8: apply client_finished.
  all: apply Forall_mid; split; [exact A1|]; split; [|exact A3]; first [exact A2 | destruct r; first [exact A2 | elim A2; exact I | intros [] ] | intros []].
Qed.
Lemma clients_execution p0 tr p s0 : xexecution raises p0 tr p -> p0 = Alive s0 -> Forall client (threads s0) -> exists s, p = Alive s /\ Forall client (threads s).
Proof.
  intros H. induction H as [s|s tr s' a s'' H IH S]; intros E A; [eauto|]. destruct (IH E A) as (s1 & -> & A1). clear IH.
  inversion S as [a0 x y S1 F|l1 l2 e rest t x E1 R|l1 l2 t x E1 R]; subst.
  - eexists. split; [reflexivity|]. eapply clients_step; eauto.
  - eexists. split; [reflexivity|]. apply client_finished. rewrite E1 in A1. apply Forall_mid in A1 as (B1 & _ & B3). apply Forall_mid. split; [exact B1|]. split; [intros []|exact B3].
  - exfalso. rewrite E1 in A1. apply Forall_mid in A1 as (_ & B2 & _). apply B2. exact I.
Qed.
Lemma start_clients cl : Forall client (threads (start 0 cl)).
Proof. cbn [start threads repeat app]. apply Forall_map. apply Forall_forall. intros c _ []. Qed.
End X.
