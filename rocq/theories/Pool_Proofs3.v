(** Stopping a pool that still has tasks. *)
From Verif Require Import Base ListLemmas Pool_Model Pool_Spec Pool_Spec2 Pool_Proofs Pool_Proofs2.

Section One.
Variable e : nat.
Definition th_on (th : thread) : Prop :=
  match th with
  | Run p | Loop (Joining _ p) | Wait (Joining _ p) => Forall (call_on e) p
  | Exec Worker t p => tk_exec t = e /\ Forall (task_on e) p
  | Exec (Joining _ q) t p => (tk_exec t = e /\ Forall (task_on e) p) /\ Forall (call_on e) q
  | _ => True
  end.
Definition all_on (s : pool) : Prop := Forall th_on (threads s) /\ Forall (task_on e) (queue s).
Lemma task_on_eq t : task_on e t <-> tk_exec t = e /\ Forall (task_on e) (tk_posts t).
Proof.
  destruct t as [x i p]. cbn [task_on tk_exec tk_posts]. split; intros [H1 H2]; (split; [exact H1|]).
  - induction p as [|a p IH]; [constructor|]. destruct H2 as [H2 H3]. constructor; auto.
  - clear H1. induction p as [|a p IH]; [exact I|]. inversion H2 as [|? ? H3 H4]. split; [exact H3|exact (IH H4)].
Qed.
Lemma th_on_wake th : th_on th -> th_on (wake th). Proof. now destruct th. Qed.
Lemma all_wake ts : Forall th_on ts -> Forall th_on (map wake ts).
Proof. intros H. apply Forall_map. eapply Forall_impl; [|exact H]. intros th. apply th_on_wake. Qed.
Lemma all_wake_one ts ts' : wake_one ts ts' -> Forall th_on ts -> Forall th_on ts'.
Proof. intros W H. destruct W as [ts W|l1 r l2]; [exact H|]. apply Forall_mid in H as (H1 & H2 & H3). apply Forall_mid. split; [exact H1|]. split; [|exact H3]. now destruct r. Qed.
Lemma all_on_step a s s' : step a s s' -> all_on s -> all_on s'.
Proof.
  intros H [A B]. unfold all_on. destruct H as [l1 l2 t p s ts' E W|l1 l2 r t0 t p s ts' E W|l1 l2 e0 p s E|l1 l2 p s E|l1 l2 r s E C|l1 l2 r t q s E C Q|l1 l2 r s E C Q|l1 l2 r t s E|l1 l2 r s E];
  rewrite E in A; apply Forall_mid in A as (A1 & A2 & A3).
  - cbn [th_on] in A2. inversion A2 as [|? ? A4 A5]; subst. cbn [posted threads queue]. split.
    + eapply all_wake_one; [exact W|]. apply Forall_mid. auto.
    + apply Forall_app. split; [exact B|]. constructor; [exact A4|constructor].
  - cbn [posted threads queue]. assert (X : tk_exec t0 = e /\ Forall (task_on e) (t :: p)) by (destruct r; cbn [th_on] in A2; tauto).
    destruct X as [X Y]. inversion Y as [|? ? Y1 Y2]; subst. split.
    + eapply all_wake_one; [exact W|]. apply Forall_mid. split; [exact A1|]. split; [|exact A3]. destruct r; cbn [th_on] in *; tauto.
    + apply Forall_app. split; [exact B|]. constructor; [exact Y1|constructor].
  - cbn [th_on] in A2. inversion A2; subst. cbn [threads queue]. split; [|exact B]. apply Forall_mid. auto.
  - cbn [th_on] in A2. inversion A2; subst. cbn [stopped threads queue]. split; [|exact B]. apply all_wake. apply Forall_mid. auto.
  - cbn [threads queue]. split; [|exact B]. apply Forall_mid. split; [exact A1|]. split; [|exact A3]. destruct r; cbn [leave th_on] in *; auto.
  - rewrite Q in B. inversion B as [|? ? B1 B2]; subst. apply task_on_eq in B1. cbn [threads queue]. split; [|exact B2]. apply Forall_mid. split; [exact A1|]. split; [|exact A3].
    destruct r; cbn [th_on] in *; auto.
  - cbn [threads queue]. split; [|constructor]. apply Forall_mid. split; [exact A1|]. split; [|exact A3]. destruct r; cbn [th_on] in *; auto.
  - unfold finished. cbn zeta. assert (X : Forall th_on (l1 ++ Loop r :: l2)).
    { apply Forall_mid. split; [exact A1|]. split; [|exact A3]. destruct r; cbn [th_on] in *; tauto. }
    destruct (Nat.eqb _ 0); cbn [threads queue]; (split; [|exact B]); [now apply all_wake|exact X].
  - cbn [threads queue]. split; [|exact B]. apply Forall_mid. split; [exact A1|]. split; [|exact A3]. destruct r; cbn [th_on] in *; auto.
Qed.
Lemma all_on_execution s tr s' : execution s tr s' -> all_on s -> all_on s'.
Proof. intros H. induction H; auto. intros X. eapply all_on_step; eauto. Qed.
Lemma all_on_start n cl : Forall (Forall (call_on e)) cl -> all_on (start n cl).
Proof.
  intros H. split; [|constructor]. cbn [start threads]. apply Forall_app. split.
  - apply Forall_forall. intros th Hin. apply repeat_spec in Hin. subst. exact I.
  - apply Forall_map. eapply Forall_impl; [|exact H]. auto.
Qed.
(** The counters of the other executors stay zero. *)
Lemma other_zero tr s x : inv tr s -> all_on s -> x <> e -> counts s x = 0.
Proof.
  intros [I1 _ _ _ _ _] [A B] N. rewrite I1. apply live_zero. split.
  - eapply Forall_impl; [|exact B]. intros t T. apply task_on_eq in T as [T _]. unfold of_exec. apply Nat.eqb_neq. congruence.
  - eapply Forall_impl; [|exact A]. intros [| | |r t p|]; auto. intros T. assert (tk_exec t = e) by (destruct r; cbn in T; tauto). unfold of_exec. apply Nat.eqb_neq. congruence.
Qed.
Lemma exec_count tr s l1 r t p l2 : inv tr s -> all_on s -> threads s = l1 ++ Exec r t p :: l2 -> tk_exec t = e /\ 0 < counts s e.
Proof.
  intros [I1 _ _ _ _ _] [A B] E. rewrite E in A. apply Forall_mid in A as (_ & A & _).
  assert (T : tk_exec t = e) by (destruct r; cbn in A; tauto). split; [exact T|]. rewrite I1. unfold live. rewrite E, sum_mid. cbn [ex]. unfold of_exec at 3. rewrite T, Nat.eqb_refl. cbn [b2n]. lia.
Qed.

(** Before the stop. *)
Definition no_done (s : pool) : Prop := Forall (fun th => th <> Done) (threads s).
Lemma no_done_wake ts : Forall (fun th => th <> Done) ts -> Forall (fun th => th <> Done) (map wake ts).
Proof. intros H. apply Forall_map. eapply Forall_impl; [|exact H]. intros [| | | |]; cbn; congruence. Qed.
Lemma no_done_wake_one ts ts' : wake_one ts ts' -> Forall (fun th => th <> Done) ts -> Forall (fun th => th <> Done) ts'.
Proof. intros W H. destruct W as [ts W|l1 r l2]; [exact H|]. apply Forall_mid in H as (H1 & H2 & H3). apply Forall_mid. split; [exact H1|]. split; [discriminate|exact H3]. Qed.
(** [d]: whether workers may have left. *)
Lemma no_done_step a s s' : step a s s' -> no_done s -> state s <> FINISHED -> no_done s'.
Proof.
  intros H A NF. unfold no_done in *. destruct H as [l1 l2 t p s ts' E W|l1 l2 r t0 t p s ts' E W|l1 l2 e0 p s E|l1 l2 p s E|l1 l2 r s E C|l1 l2 r t q s E C Q|l1 l2 r s E C Q|l1 l2 r t s E|l1 l2 r s E];
  rewrite E in A; apply Forall_mid in A as (A1 & A2 & A3).
  - cbn [posted threads]. eapply no_done_wake_one; [exact W|]. apply Forall_mid. repeat split; auto; discriminate.
  - cbn [posted threads]. eapply no_done_wake_one; [exact W|]. apply Forall_mid. repeat split; auto; discriminate.
  - apply Forall_mid. repeat split; auto; discriminate.
  - cbn [stopped threads]. apply no_done_wake. apply Forall_mid. repeat split; auto; discriminate.
  - apply Forall_mid. repeat split; auto. destruct r; [|discriminate]. cbn [continues] in C. destruct (state s); cbn in C; congruence.
  - apply Forall_mid. repeat split; auto; discriminate.
  - apply Forall_mid. repeat split; auto; discriminate.
  - unfold finished. cbn zeta. assert (X : Forall (fun th => th <> Done) (l1 ++ Loop r :: l2)) by (apply Forall_mid; repeat split; auto; discriminate).
    destruct (Nat.eqb _ 0); cbn [threads]; [now apply no_done_wake|exact X].
  - apply Forall_mid. repeat split; auto; discriminate.
Qed.
Definition before (s : pool) : Prop := no_done s /\ ((state s = READY /\ counts s e = 0) \/ (state s = WORKING /\ 0 < counts s e)).
Lemma stops_step a s s' : step a s s' -> sum stops (threads s') <= sum stops (threads s).
Proof.
  intros H. destruct H as [l1 l2 t p s ts' E W|l1 l2 r t0 t p s ts' E W|l1 l2 e0 p s E|l1 l2 p s E|l1 l2 r s E C|l1 l2 r t q s E C Q|l1 l2 r s E C Q|l1 l2 r t s E|l1 l2 r s E].
  - cbn [posted threads]. rewrite (sum_wake_one _ _ _ stops_wake W), E, !sum_mid. cbn [stops]. rewrite sum_cons. lia.
  - cbn [posted threads]. rewrite (sum_wake_one _ _ _ stops_wake W), E, !sum_mid. destruct r; cbn [stops]; lia.
  - cbn [threads]. rewrite E, !sum_mid. cbn [stops]. rewrite sum_cons. lia.
  - cbn [stopped threads]. rewrite sum_wake by apply stops_wake. rewrite E, !sum_mid. cbn [stops]. rewrite sum_cons. lia.
  - cbn [threads]. rewrite E, !sum_mid. destruct r; cbn [stops leave]; lia.
  - cbn [threads]. rewrite E, !sum_mid. destruct r; cbn [stops leave]; lia.
  - cbn [threads]. rewrite E, !sum_mid. destruct r; cbn [stops leave]; lia.
  - unfold finished. cbn zeta. destruct (Nat.eqb _ 0); cbn [threads]; rewrite ?(sum_wake stops) by apply stops_wake; rewrite E, !sum_mid; destruct r; cbn [stops]; lia.
  - cbn [threads]. rewrite E, !sum_mid. destruct r; cbn [stops leave]; lia.
Qed.
Lemma before_step tr a s s' : inv tr s -> all_on s -> step a s s' -> sum stops (threads s) = sum stops (threads s') -> before s -> before s'.
Proof.
  intros I A H St [D B]. split.
  { eapply no_done_step; [exact H|exact D|]. destruct B as [[-> _]|[-> _]]; discriminate. }
  pose proof A as [A0 _].
  destruct H as [l1 l2 t p s ts' E W|l1 l2 r t0 t p s ts' E W|l1 l2 e0 p s E|l1 l2 p s E|l1 l2 r s E C|l1 l2 r t q s E C Q|l1 l2 r s E C Q|l1 l2 r t s E|l1 l2 r s E]; try exact B.
  - right. split; [reflexivity|]. cbn [posted counts]. rewrite E in A0. apply Forall_mid in A0 as (_ & A2 & _). cbn [th_on] in A2. inversion A2 as [|? ? A4 _]; subst.
    cbn [call_on] in A4. apply task_on_eq in A4 as [-> _]. rewrite set_count_same. lia.
  - right. split; [reflexivity|]. cbn [posted counts]. rewrite E in A0. apply Forall_mid in A0 as (_ & A2 & _).
    assert (X : Forall (task_on e) (t :: p)) by (destruct r; cbn [th_on] in A2; tauto). inversion X as [|? ? A4 _]; subst.
    apply task_on_eq in A4 as [-> _]. rewrite set_count_same. lia.
  - exfalso. cbn [stopped threads] in St. rewrite sum_wake in St by apply stops_wake. rewrite E, !sum_mid in St. cbn [stops] in St. rewrite sum_cons in St. cbn [is_stop] in St. lia.
  - destruct (exec_count tr s l1 r t [] l2 I A E) as [T P]. unfold finished. cbn zeta. rewrite T. destruct B as [[_ B]|[B1 B2]]; [lia|].
    destruct (Nat.eqb (pred (counts s e)) 0) eqn:Z; cbn [counts state]; rewrite set_count_same, B1.
    + left. apply Nat.eqb_eq in Z. auto.
    + right. apply Nat.eqb_neq in Z. split; [reflexivity|lia].
Qed.
Lemma before_execution n cl tr s : execution (start n cl) tr s -> Forall (Forall (call_on e)) cl -> sum stops (threads s) = sum (sum is_stop) cl -> before s.
Proof.
  intros H Hc. remember (start n cl) as s0 eqn:E0. induction H as [s|s tr s' a s'' H IH S]; intros St.
  - subst s. split; [|now left]. unfold no_done. cbn [start threads]. apply Forall_app. split; apply Forall_forall; intros th Hin.
    + apply repeat_spec in Hin. subst. discriminate.
    + apply in_map_iff in Hin as (x & <- & _). discriminate.
  - assert (L : sum stops (threads s') <= sum (sum is_stop) cl).
    { clear - H E0. subst s. rewrite <- (start_stops n cl). induction H as [s|s tr s' a s'' H IH S]; [lia|]. pose proof (stops_step a s' s'' S). lia. }
    pose proof (stops_step a s' s'' S). assert (X : sum stops (threads s') = sum (sum is_stop) cl) by lia.
    eapply before_step; [| |exact S| |auto]; [..|congruence].
    + subst s. eapply inv_execution; [exact H|apply inv_start].
    + subst s. eapply all_on_execution; [exact H|]. now apply all_on_start.
Qed.

(** After it. *)
Definition after (s : pool) : Prop :=
  sum stops (threads s) = 0 /\ ((state s = FINISHED /\ counts s e = 0) \/ (state s = STOPPING /\ 0 < counts s e /\ no_done s)).
Lemma after_step tr a s s' : inv tr s -> all_on s -> step a s s' -> (forall x i, a <> LPost x i) -> after s -> after s'.
Proof.
  intros I A H NP [St B]. split; [pose proof (stops_step a s s' H); lia|].
  assert (ND : state s = STOPPING -> no_done s -> no_done s') by (intros X Y; eapply no_done_step; [exact H|exact Y|congruence]).
  destruct H as [l1 l2 t p s ts' E W|l1 l2 r t0 t p s ts' E W|l1 l2 e0 p s E|l1 l2 p s E|l1 l2 r s E C|l1 l2 r t q s E C Q|l1 l2 r s E C Q|l1 l2 r t s E|l1 l2 r s E];
  try (elim (NP _ _ eq_refl)); try (destruct B as [B|(B1 & B2 & B3)]; [left; exact B|right; cbn [counts state]; auto]; fail).
  - exfalso. rewrite E, sum_mid in St. cbn [stops] in St. rewrite sum_cons in St. cbn [is_stop] in St. lia.
  - destruct (exec_count tr s l1 r t [] l2 I A E) as [T P]. destruct B as [[_ B]|(B1 & B2 & B3)]; [lia|]. specialize (ND B1 B3). revert ND. unfold finished. cbn zeta. rewrite T.
    destruct (Nat.eqb (pred (counts s e)) 0) eqn:Z; cbn [counts state]; intros ND; rewrite set_count_same, B1.
    + left. apply Nat.eqb_eq in Z. auto.
    + right. apply Nat.eqb_neq in Z. split; [reflexivity|]. split; [lia|exact ND].
Qed.
Lemma after_execution tr s tr2 s2 : execution s tr2 s2 -> inv tr s -> all_on s -> Forall (fun a => forall x i, a <> LPost x i) tr2 -> after s ->
  inv (tr ++ tr2) s2 /\ all_on s2 /\ after s2.
Proof.
  intros H I A. induction H as [s|s tr2 s' a s'' H IH S]; intros NP B.
  - rewrite app_nil_r. auto.
  - apply Forall_app in NP as [N1 N2]. inversion N2 as [|? ? N3 _]; subst. destruct (IH I A N1 B) as (I' & A' & B'). split; [|split].
    + rewrite app_assoc. eapply inv_step; eassumption.
    + eapply all_on_step; eassumption.
    + eapply after_step; eassumption.
Qed.
End One.

Lemma execution_app s tr s' tr2 s2 : execution s tr s' -> execution s' tr2 s2 -> execution s (tr ++ tr2) s2.
Proof.
  intros H H2. induction H2 as [s'|s' tr2 s2 a s3 H2 IH S]; [now rewrite app_nil_r|]. rewrite app_assoc. eapply e_snoc; [exact (IH H)|exact S].
Qed.
(** Workers stay workers. *)
Definition wk (th : thread) : nat := match th with Loop Worker | Wait Worker | Exec Worker _ _ | Done => 1 | _ => 0 end.
Lemma wk_wake th : wk (wake th) = wk th. Proof. now destruct th. Qed.
Lemma wk_step a s s' : step a s s' -> sum wk (threads s') = sum wk (threads s).
Proof.
  intros H. destruct H as [l1 l2 t p s ts' E W|l1 l2 r t0 t p s ts' E W|l1 l2 e0 p s E|l1 l2 p s E|l1 l2 r s E C|l1 l2 r t q s E C Q|l1 l2 r s E C Q|l1 l2 r t s E|l1 l2 r s E].
  - cbn [posted threads]. rewrite (sum_wake_one _ _ _ wk_wake W), E, !sum_mid. reflexivity.
  - cbn [posted threads]. rewrite (sum_wake_one _ _ _ wk_wake W), E, !sum_mid. reflexivity.
  - cbn [threads]. rewrite E, !sum_mid. reflexivity.
  - cbn [stopped threads]. rewrite sum_wake by apply wk_wake. rewrite E, !sum_mid. reflexivity.
  - cbn [threads]. rewrite E, !sum_mid. destruct r; reflexivity.
  - cbn [threads]. rewrite E, !sum_mid. reflexivity.
  - cbn [threads]. rewrite E, !sum_mid. reflexivity.
  - unfold finished. cbn zeta. destruct (Nat.eqb _ 0); cbn [threads]; rewrite ?(sum_wake wk) by apply wk_wake; rewrite E, !sum_mid; reflexivity.
  - cbn [threads]. rewrite E, !sum_mid. reflexivity.
Qed.
Lemma wk_execution s tr s' : execution s tr s' -> sum wk (threads s') = sum wk (threads s).
Proof. intros H. induction H as [|s tr s' a s'' H IH S]; [reflexivity|]. rewrite (wk_step a s' s'' S). exact IH. Qed.
Lemma wk_start n cl : sum wk (threads (start n cl)) = n.
Proof.
  cbn [start threads]. rewrite sum_app. assert (A : sum wk (repeat (Loop Worker) n) = n) by (induction n as [|n IH]; [reflexivity|]; cbn [repeat]; rewrite sum_cons, IH; cbn; lia).
  assert (B : sum wk (map Run cl) = 0) by (apply sum_zero, Forall_map, Forall_forall; reflexivity). lia.
Qed.

Theorem stop_drains e n cl tr s l1 p l2 tr2 s2 :
  Forall (Forall (call_on e)) cl -> sum (sum is_stop) cl = 1 -> 0 < n ->
  execution (start n cl) tr s -> threads s = l1 ++ Run (Stop :: p) :: l2 ->
  execution (stopped (l1 ++ Run p :: l2) s) tr2 s2 -> Forall (fun a => forall x i, a <> LPost x i) tr2 ->
  (In Done (threads s2) -> forall x i, occurrences (LFinish x i) (tr ++ LOther :: tr2) = occurrences (LPost x i) (tr ++ LOther :: tr2)) /\
  (stuck s2 -> Forall (fun th => th = Done \/ th = Run []) (threads s2) /\ In Done (threads s2)).
Proof.
  intros Hc Hs Hn H E H2 NP.
  assert (S1 : step LOther s (stopped (l1 ++ Run p :: l2) s)) by (eapply s_stop; exact E).
  assert (S0 : sum stops (threads s) = 1).
  { assert (sum stops (threads s) <= 1).
    { rewrite <- Hs, <- (start_stops n cl). clear - H. induction H as [s|s tr s' a s'' H IH S]; [lia|]. pose proof (stops_step a s' s'' S). lia. }
    rewrite E, sum_mid in *. cbn [stops] in *. rewrite sum_cons in *. cbn [is_stop] in *. lia. }
  pose proof (before_execution e n cl tr s H Hc ltac:(congruence)) as [ND B].
  pose proof (inv_execution _ _ _ H (inv_start n cl)) as I.
  pose proof (all_on_execution e _ _ _ H (all_on_start e n cl Hc)) as A.
  assert (E1 : execution (start n cl) (tr ++ [LOther]) (stopped (l1 ++ Run p :: l2) s)) by (eapply e_snoc; eassumption).
  assert (A1 : after e (stopped (l1 ++ Run p :: l2) s)).
  { split.
    - cbn [stopped threads]. rewrite sum_wake by apply stops_wake. rewrite E, sum_mid in S0. cbn [stops] in S0. rewrite sum_cons in S0. cbn [is_stop] in S0. rewrite sum_mid. cbn [stops]. lia.
    - cbn [stopped state counts]. destruct B as [[B0 B]|[B0 B]]; rewrite B0; [left; auto|right]. split; [reflexivity|]. split; [exact B|].
      assert (X : no_done (stopped (l1 ++ Run p :: l2) s)) by (eapply no_done_step; [exact S1|exact ND|congruence]). exact X. }
  pose proof (inv_step _ _ _ _ I S1) as I1. pose proof (all_on_step e _ _ _ S1 A) as A2.
  destruct (after_execution e _ _ _ _ H2 I1 A2 NP A1) as (I2 & A3 & St & Af).
  assert (Z : counts s2 e = 0 -> forall x i, occurrences (LFinish x i) (tr ++ LOther :: tr2) = occurrences (LPost x i) (tr ++ LOther :: tr2)).
  { intros C x i. pose proof I2 as [J1 J2 _ _ _ _]. specialize (J2 x i). rewrite <- app_assoc in J2. cbn [app] in J2. rewrite J2.
    assert (L : live (is_task x i) s2 = 0); [|lia]. apply live_zero.
    assert (C' : live (of_exec x) s2 = 0). { rewrite <- J1. destruct (Nat.eq_dec x e) as [->|N]; [exact C|]. eapply other_zero; eassumption. }
    apply live_zero in C' as [C1 C2]. split.
    - eapply Forall_impl; [|exact C1]. intros t. unfold of_exec, is_task. intros ->. reflexivity.
    - eapply Forall_impl; [|exact C2]. intros [| | |r t q|]; auto. unfold of_exec, is_task. intros ->. reflexivity. }
  split.
  - intros Hd. apply Z. destruct Af as [[_ C]|(_ & _ & D)]; [exact C|]. unfold no_done in D. rewrite Forall_forall in D. elim (D _ Hd eq_refl).
  - intros K. pose proof (execution_app _ _ _ _ _ E1 H2) as E2. destruct (stuck_threads n cl _ _ E2 K) as [T Q].
    assert (N : ~ In (Wait Worker) (threads s2)).
    { intros W. destruct Af as [[F C]|(_ & C & _)].
      - pose proof I2 as [_ _ _ J4 _ _]. rewrite Forall_forall in J4. specialize (J4 _ W). cbn [continues] in J4. rewrite F in J4. discriminate.
      - specialize (Q W). pose proof I2 as [J1 _ _ _ _ _]. rewrite J1 in C. assert (L : live (of_exec e) s2 = 0); [|lia].
        apply live_zero. rewrite Q. split; [constructor|]. eapply Forall_impl; [|exact T]. intros th [-> |[-> | ->]]; exact Logic.I. }
    assert (F : Forall (fun th => th = Done \/ th = Run []) (threads s2)).
    { apply Forall_forall. intros th Hin. rewrite Forall_forall in T. destruct (T th Hin) as [X|[X|X]]; [now right| |now left]. subst. contradiction. }
    split; [exact F|]. pose proof (wk_execution _ _ _ E2) as Wk. rewrite wk_start in Wk.
    revert F Wk. generalize (threads s2). clear - Hn. intros l. induction l as [|th ts IH]; intros F Wk; [cbn in Wk; lia|]. apply Forall_cons_iff in F as [F1 F2]. rewrite sum_cons in Wk. destruct F1 as [-> | ->]; [now left|].
    right. apply IH; [exact F2|]. cbn [wk] in Wk. lia.
Qed.
