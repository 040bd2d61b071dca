From Verif Require Import Base ListLemmas Pool_Model Pool_Spec Pool_Proofs.

Lemma live_zero P s : live P s = 0 <-> Forall (fun t => P t = false) (queue s) /\ Forall (fun th => match th with Exec _ t _ => P t = false | _ => True end) (threads s).
Proof.
  unfold live. split.
  - intros H. assert (A : sum (fun t => b2n (P t)) (queue s) = 0) by lia. assert (B : sum (ex P) (threads s) = 0) by lia.
    apply sum_zero in A. apply sum_zero in B. split; (eapply Forall_impl; [|eassumption]).
    + intros t E. cbn beta in E. destruct (P t); [discriminate|reflexivity].
    + intros [| | |r t p|]; cbn; auto. intros E. destruct (P t); [discriminate|reflexivity].
  - intros [A B]. assert (A' : sum (fun t => b2n (P t)) (queue s) = 0).
    { apply sum_zero. eapply Forall_impl; [|exact A]. intros t E. cbn beta in *. now rewrite E. }
    assert (B' : sum (ex P) (threads s) = 0).
    { apply sum_zero. eapply Forall_impl; [|exact B]. intros [| | |r t p|]; cbn; auto. intros E. now rewrite E. }
    lia.
Qed.

(** ** join() returns when everything is done *)
Lemma join_returns n cl tr s e s' : execution (start n cl) tr s -> step (LReturn e) s s' ->
  forall i, occurrences (LFinish e i) tr = occurrences (LPost e i) tr /\ occurrences (LStart e i) tr = occurrences (LPost e i) tr.
Proof.
  intros H S i. pose proof (inv_execution _ _ _ H (inv_start n cl)) as [I1 I2 I3 _ _ _].
  assert (C : counts s e = 0).
  { inversion S as [| | | |l1 l2 r s0 E C| | | |]; subst. destruct r as [|e' p]; [discriminate|]. cbn [leave_label] in *. injection H0 as ->.
    cbn [continues] in C. apply Nat.ltb_ge in C. lia. }
  rewrite I1 in C. apply live_zero in C as [A B].
  assert (L : live (is_task e i) s = 0).
  { apply live_zero. split; (eapply Forall_impl; [|eassumption]).
    - intros t E. unfold of_exec in E. unfold is_task. now rewrite E.
    - intros [| | |r t p|]; auto. intros E. unfold of_exec in E. unfold is_task. now rewrite E. }
  specialize (I2 e i). specialize (I3 e i). unfold live in *. lia.
Qed.
Lemma once n cl tr s e i : execution (start n cl) tr s ->
  occurrences (LFinish e i) tr <= occurrences (LStart e i) tr /\ occurrences (LStart e i) tr <= occurrences (LPost e i) tr.
Proof.
  intros H. pose proof (inv_execution _ _ _ H (inv_start n cl)) as [I1 I2 I3 _ _ _]. specialize (I2 e i). specialize (I3 e i). unfold live in *. lia.
Qed.

(** ** Progress *)
Lemma wake_one_exists ts : exists ts', wake_one ts ts'.
Proof.
  assert (D : Forall (fun th => wake th = th) ts \/ exists l1 r l2, ts = l1 ++ Wait r :: l2).
  { induction ts as [|th ts IH]; [left; constructor|]. destruct th as [p|r|r|r t p|].
    3: right; exists [], r, ts; reflexivity.
    all: destruct IH as [IH|(l1 & r' & l2 & ->)]; [left; constructor; [reflexivity|exact IH]|right].
    - exists (Run p :: l1), r', l2. reflexivity.
    - exists (Loop r :: l1), r', l2. reflexivity.
    - exists (Exec r t p :: l1), r', l2. reflexivity.
    - exists (Done :: l1), r', l2. reflexivity. }
  destruct D as [D|(l1 & r & l2 & ->)]; eexists; [now apply wake_none|apply wake_some].
Qed.
Definition busy (th : thread) : Prop :=
  match th with Loop _ | Exec _ _ _ | Run (_ :: _) => True | _ => False end.
Lemma busy_step s th : In th (threads s) -> busy th -> exists a s', a <> LSpurious /\ step a s s'.
Proof.
  intros H B. apply in_split in H as (l1 & l2 & E). destruct th as [[|[t|e|] p]|r|r|r t [|t' p]|]; cbn in B; try contradiction.
  - destruct (wake_one_exists (l1 ++ Run p :: l2)) as [ts' W]. exists (LPost (tk_exec t) (tk_id t)). eexists. split; [discriminate|]. eapply s_post; eauto.
  - exists (LCall e). eexists. split; [discriminate|]. eapply s_join; eauto.
  - exists LOther. eexists. split; [discriminate|]. eapply s_stop; eauto.
  - destruct (continues s r) eqn:C.
    + destruct (queue s) as [|t q] eqn:Q.
      * exists LOther. eexists. split; [discriminate|]. eapply s_wait; eauto.
      * exists (LStart (tk_exec t) (tk_id t)). eexists. split; [discriminate|]. eapply s_start; eauto.
    + exists (leave_label r). eexists. split; [now destruct r|]. eapply s_leave; eauto.
  - exists (LFinish (tk_exec t) (tk_id t)). eexists. split; [discriminate|]. eapply s_finish; eauto.
  - destruct (wake_one_exists (l1 ++ Exec r t p :: l2)) as [ts' W]. exists (LPost (tk_exec t') (tk_id t')). eexists. split; [discriminate|]. eapply s_nested; eauto.
Qed.
Lemma stuck_threads n cl tr s : execution (start n cl) tr s -> stuck s ->
  Forall (fun th => th = Run [] \/ th = Wait Worker \/ th = Done) (threads s) /\
  (In (Wait Worker) (threads s) -> queue s = []).
Proof.
  intros H St. pose proof (inv_execution _ _ _ H (inv_start n cl)) as [I1 I2 I3 I4 I5 I6].
  assert (NB : forall th, In th (threads s) -> ~ busy th).
  { intros th Hin B. destruct (busy_step s th Hin B) as (a & s' & Ha & S). apply Ha. exact (St a s' S). }
  assert (HL : sum (helpful s) (threads s) = 0).
  { apply sum_zero. apply Forall_forall. intros [p|r|r|r t p|] Hin; try reflexivity. exfalso. exact (NB _ Hin I). }
  assert (Q : forall r, In (Wait r) (threads s) -> queue s = []).
  { intros r Hin. destruct I5 as [I5|I5]; [|rewrite HL in I5; destruct (queue s); [reflexivity|cbn in I5; lia]].
    apply sum_zero in I5. rewrite Forall_forall in I5. discriminate (I5 _ Hin). }
  split; [|apply Q]. apply Forall_forall. intros th Hin. destruct th as [p|r|r|r t p|].
  - destruct p; [now left|]. exfalso. exact (NB _ Hin I).
  - exfalso. exact (NB _ Hin I).
  - destruct r as [|e p]; [right; now left|]. exfalso.
    rewrite Forall_forall in I4. pose proof (I4 _ Hin) as C. cbn [continues] in C. apply Nat.ltb_lt in C.
    rewrite I1 in C. assert (Z : live (of_exec e) s = 0); [|lia]. apply live_zero. rewrite (Q _ Hin). split; [constructor|].
    apply Forall_forall. intros [| | |r t p'|] Hin'; auto. exfalso. exact (NB _ Hin' I).
  - exfalso. exact (NB _ Hin I).
  - now right; right.
Qed.
Lemma progress n cl tr s : execution (start n cl) tr s -> Exists in_join (threads s) -> exists a s', a <> LSpurious /\ step a s s'.
Proof.
  intros H X. pose proof (inv_execution _ _ _ H (inv_start n cl)) as [I1 I2 I3 I4 I5 I6].
  apply Exists_exists in X as (th & Hin & J).
  assert (D : (exists th', In th' (threads s) /\ busy th') \/ forall th', In th' (threads s) -> ~ busy th').
  { destruct (Exists_dec busy (threads s)) as [X|X].
    - intros [[|? ?]|r|r|r t p|]; cbn; auto.
    - left. apply Exists_exists in X. exact X.
    - right. intros th' H' B. apply X. apply Exists_exists. eauto. }
  destruct D as [(th' & H' & B)|NB]; [exact (busy_step s th' H' B)|]. exfalso.
  assert (HL : sum (helpful s) (threads s) = 0).
  { apply sum_zero. apply Forall_forall. intros [p|r|r|r t p|] Hi; try reflexivity. exfalso. exact (NB _ Hi I). }
  destruct th as [p|r|r|r t p|]; cbn in J; try contradiction.
  - exact (NB _ Hin I).
  - destruct r as [|e p]; [contradiction|].
    assert (Q : queue s = []).
    { destruct I5 as [I5|I5]; [|rewrite HL in I5; destruct (queue s); [reflexivity|cbn in I5; lia]].
      apply sum_zero in I5. rewrite Forall_forall in I5. discriminate (I5 _ Hin). }
    rewrite Forall_forall in I4. pose proof (I4 _ Hin) as C. cbn [continues] in C. apply Nat.ltb_lt in C.
    rewrite I1 in C. assert (Z : live (of_exec e) s = 0); [|lia]. apply live_zero. rewrite Q. split; [constructor|].
    apply Forall_forall. intros [| | |r t p'|] Hin'; auto. exfalso. exact (NB _ Hin' I).
  - exact (NB _ Hin I).
Qed.

(** ** Termination *)
Definition role_work (r : role) : nat := match r with Worker => 1 | Joining _ p => S (calls_steps p) end.
Definition work (th : thread) : nat :=
  match th with
  | Run p => calls_steps p
  | Loop r | Wait r => role_work r
  | Exec r _ ps => S (role_work r + sum task_steps ps)
  | Done => 0
  end.
Definition looping (th : thread) : nat := match th with Loop _ => 1 | _ => 0 end.
Definition all_work (s : pool) : nat := sum work (threads s) + sum (fun t => pred (task_steps t)) (queue s).
Definition measure (s : pool) : nat := all_work s * S (length (threads s)) + sum looping (threads s).
Lemma work_wake th : work (wake th) = work th. Proof. now destruct th. Qed.
Lemma looping_le ts : sum looping ts <= length ts.
Proof. induction ts as [|th ts IH]; [reflexivity|]. rewrite sum_cons. cbn [length]. destruct th; cbn [looping]; lia. Qed.
Lemma wake_one_length ts ts' : wake_one ts ts' -> length ts' = length ts.
Proof. intros [|l1 r l2]; [reflexivity|]. now rewrite !app_length. Qed.
Lemma task_steps_eq t : task_steps t = 3 + sum task_steps (tk_posts t).
Proof. destruct t as [e i p]. reflexivity. Qed.
Lemma measure_less s s' : length (threads s') = length (threads s) -> all_work s' < all_work s -> measure s' < measure s.
Proof. intros H1 H2. unfold measure. rewrite H1. pose proof (looping_le (threads s')). rewrite H1 in H. nia. Qed.
Lemma measure_step a s s' : step a s s' -> length (threads s') = length (threads s) /\
  (if is_spurious a then measure s' = S (measure s) else measure s' < measure s).
Proof.
  intros H. destruct H as [l1 l2 t p s ts' E W|l1 l2 r t0 t p s ts' E W|l1 l2 e p s E|l1 l2 p s E|l1 l2 r s E C|l1 l2 r t q s E C Q|l1 l2 r s E C Q|l1 l2 r t s E|l1 l2 r s E].
  all: cbn [is_spurious].
  - pose proof (wake_one_length _ _ W) as L. rewrite app_length in L. cbn [length] in L.
    split; [unfold posted; cbn [threads]; rewrite L, E, app_length; reflexivity|]. apply measure_less; [unfold posted; cbn [threads]; rewrite L, E, app_length; reflexivity|].
    unfold all_work. cbn [posted threads queue]. rewrite (sum_wake_one _ _ _ work_wake W), E, !sum_mid.
    change (sum (fun t => pred (task_steps t)) []) with 0. cbn [work]. unfold calls_steps. cbn [map call_steps]. change (list_sum (task_steps t :: map call_steps p)) with (task_steps t + list_sum (map call_steps p)).
    pose proof (task_steps_eq t). lia.
  - pose proof (wake_one_length _ _ W) as L. rewrite app_length in L. cbn [length] in L.
    split; [unfold posted; cbn [threads]; rewrite L, E, app_length; reflexivity|]. apply measure_less; [unfold posted; cbn [threads]; rewrite L, E, app_length; reflexivity|].
    unfold all_work. cbn [posted threads queue]. rewrite (sum_wake_one _ _ _ work_wake W), E, !sum_mid.
    change (sum (fun t => pred (task_steps t)) []) with 0. cbn [work]. rewrite sum_cons.
    pose proof (task_steps_eq t). lia.
  - split; [cbn [threads]; rewrite E, !app_length; reflexivity|]. apply measure_less; [cbn [threads]; rewrite E, !app_length; reflexivity|].
    unfold all_work. cbn [threads queue]. rewrite E, !sum_mid. cbn [work role_work]. unfold calls_steps. cbn [map call_steps].
    change (list_sum (2 :: map call_steps p)) with (2 + list_sum (map call_steps p)). lia.
  - split; [unfold stopped; cbn [threads]; rewrite map_length, E, !app_length; reflexivity|].
    apply measure_less; [unfold stopped; cbn [threads]; rewrite map_length, E, !app_length; reflexivity|].
    unfold all_work. cbn [stopped threads queue]. rewrite sum_wake by apply work_wake. rewrite E, !sum_mid. cbn [work]. unfold calls_steps. cbn [map call_steps].
    change (list_sum (1 :: map call_steps p)) with (1 + list_sum (map call_steps p)). lia.
  - split; [cbn [threads]; rewrite E, !app_length; reflexivity|].
    assert (X : (if is_spurious (leave_label r) then False else True)) by now destruct r. destruct (is_spurious (leave_label r)); [contradiction|].
    apply measure_less; [cbn [threads]; rewrite E, !app_length; reflexivity|].
    unfold all_work. cbn [threads queue]. rewrite E, !sum_mid. destruct r; cbn [leave work role_work]; lia.
  - split; [cbn [threads]; rewrite E, !app_length; reflexivity|]. apply measure_less; [cbn [threads]; rewrite E, !app_length; reflexivity|].
    unfold all_work. cbn [threads queue]. rewrite E, Q, !sum_mid, sum_cons. cbn [work]. rewrite (task_steps_eq t). lia.
  - split; [cbn [threads]; rewrite E, !app_length; reflexivity|].
    unfold measure, all_work. cbn [threads queue]. rewrite E, Q, !sum_mid, !app_length. cbn [work looping length]. lia.
  - assert (L : length (threads (finished t (l1 ++ Loop r :: l2) s)) = length (threads s)).
    { unfold finished. cbn zeta. destruct (Nat.eqb _ 0); cbn [threads]; rewrite ?map_length, E, !app_length; reflexivity. }
    split; [exact L|]. apply measure_less; [exact L|]. unfold all_work, finished. cbn zeta.
    destruct (Nat.eqb _ 0); cbn [threads queue]; rewrite ?(sum_wake work) by apply work_wake; rewrite E, !sum_mid; cbn [work]; change (sum task_steps []) with 0; lia.
  - split; [cbn [threads]; rewrite E, !app_length; reflexivity|].
    unfold measure, all_work. cbn [threads queue]. rewrite E, !sum_mid, !app_length. cbn [work looping length]. lia.
Qed.
Lemma bounded_from s tr s' : execution s tr s' -> length (threads s') = length (threads s) /\
  length (real tr) + measure s' <= measure s + (length tr - length (real tr)) /\ length (real tr) <= length tr.
Proof.
  intros H. induction H as [s|s tr s' a s'' H IH S].
  - cbn. lia.
  - destruct IH as (L & M & R). destruct (measure_step a s' s'' S) as [L' M']. split; [congruence|].
    unfold real in *. rewrite filter_app, !app_length. cbn [filter length]. destruct (is_spurious a); cbn [negb length] in *; lia.
Qed.
Lemma start_measure n cl : measure (start n cl) = (n + sum calls_steps cl) * S (n + length cl) + n.
Proof.
  unfold measure, all_work. cbn [start threads queue]. change (sum (fun t => pred (task_steps t)) []) with 0.
  rewrite !sum_app, app_length, repeat_length, map_length.
  assert (A : sum work (repeat (Loop Worker) n) = n) by (induction n as [|n IH]; [reflexivity|]; cbn [repeat]; rewrite sum_cons, IH; cbn; lia).
  assert (B : sum looping (repeat (Loop Worker) n) = n) by (clear A; induction n as [|n IH]; [reflexivity|]; cbn [repeat]; rewrite sum_cons, IH; cbn; lia).
  assert (C : sum work (map Run cl) = sum calls_steps cl) by (clear; induction cl as [|c cl IH]; [reflexivity|]; cbn [map]; rewrite !sum_cons, IH; reflexivity).
  assert (D : sum looping (map Run cl) = 0) by (clear; induction cl as [|c cl IH]; [reflexivity|]; cbn [map]; rewrite !sum_cons, IH; reflexivity).
  rewrite A, B, C, D. lia.
Qed.

(** ** Stopping *)
Definition is_stop (c : call) : nat := match c with Stop => 1 | _ => 0 end.
Definition stops (th : thread) : nat :=
  match th with
  | Run p | Loop (Joining _ p) | Wait (Joining _ p) | Exec (Joining _ p) _ _ => sum is_stop p
  | _ => 0
  end.
Lemma stops_wake th : stops (wake th) = stops th. Proof. now destruct th. Qed.
Definition stop_inv (s : pool) : Prop :=
  sum stops (threads s) <= 1 /\ (sum stops (threads s) = 1 -> state s = READY \/ state s = WORKING).
Lemma stop_inv_step a s s' : step a s s' -> stop_inv s -> stop_inv s'.
Proof.
  intros H [I1 I2]. unfold stop_inv. destruct H as [l1 l2 t p s ts' E W|l1 l2 r t0 t p s ts' E W|l1 l2 e p s E|l1 l2 p s E|l1 l2 r s E C|l1 l2 r t q s E C Q|l1 l2 r s E C Q|l1 l2 r t s E|l1 l2 r s E].
  - cbn [posted threads state]. rewrite (sum_wake_one _ _ _ stops_wake W). rewrite E in I1, I2. rewrite sum_mid in I1, I2. cbn [stops] in *. rewrite sum_cons in I1, I2. cbn [is_stop] in *. rewrite sum_mid. cbn [stops]. split; [lia|auto].
  - cbn [posted threads state]. rewrite (sum_wake_one _ _ _ stops_wake W). rewrite E in I1, I2. rewrite sum_mid in I1, I2. rewrite sum_mid. cbn [stops] in *. split; [lia|auto].
  - cbn [threads state]. rewrite E in I1, I2. rewrite sum_mid in I1, I2. cbn [stops] in *. rewrite sum_cons in I1, I2. cbn [is_stop] in *. rewrite sum_mid. cbn [stops]. split; [lia|auto].
  - cbn [stopped threads state]. rewrite sum_wake by apply stops_wake. rewrite E in I1, I2. rewrite sum_mid in I1, I2. cbn [stops] in *. rewrite sum_cons in I1, I2. cbn [is_stop] in *. rewrite sum_mid. cbn [stops]. split; lia.
  - cbn [threads state]. rewrite E in I1, I2. rewrite sum_mid in I1, I2. rewrite sum_mid. destruct r; cbn [stops leave] in *; (split; [lia|auto]).
  - cbn [threads state]. rewrite E in I1, I2. rewrite sum_mid in I1, I2. rewrite sum_mid. destruct r; cbn [stops leave] in *; (split; [lia|auto]).
  - cbn [threads state]. rewrite E in I1, I2. rewrite sum_mid in I1, I2. rewrite sum_mid. destruct r; cbn [stops leave] in *; (split; [lia|auto]).
  - assert (X : sum stops (threads (finished t (l1 ++ Loop r :: l2) s)) = sum stops (threads s)).
    { unfold finished. cbn zeta. destruct (Nat.eqb _ 0); cbn [threads]; rewrite ?(sum_wake stops) by apply stops_wake; rewrite E, !sum_mid; destruct r; reflexivity. }
    rewrite X. split; [exact I1|]. intros Y. specialize (I2 Y). unfold finished. cbn zeta. destruct (Nat.eqb _ 0); cbn [state]; [|exact I2].
    destruct I2 as [-> | ->]; auto.
  - cbn [threads state]. rewrite E in I1, I2. rewrite sum_mid in I1, I2. rewrite sum_mid. destruct r; cbn [stops leave] in *; (split; [lia|auto]).
Qed.
Lemma stop_inv_execution s tr s' : execution s tr s' -> stop_inv s -> stop_inv s'.
Proof. intros H. induction H; auto. intros I. eapply stop_inv_step; eauto. Qed.
Lemma start_stops n cl : sum stops (threads (start n cl)) = sum (sum is_stop) cl.
Proof.
  cbn [start threads]. rewrite sum_app.
  assert (A : sum stops (repeat (Loop Worker) n) = 0) by (apply sum_zero, Forall_forall; intros th H; apply repeat_spec in H; now subst).
  rewrite A. clear. induction cl as [|c cl IH]; [reflexivity|]. cbn [map]. rewrite !sum_cons. cbn [Nat.add] in *. rewrite IH. reflexivity.
Qed.
(** What remains after a stop with nothing to do. *)
Definition ending (th : thread) : Prop := th = Loop Worker \/ th = Done \/ th = Run [].
Definition ended (s : pool) : Prop := state s = FINISHED /\ Forall ending (threads s).
Lemma ended_step a s s' : ended s -> step a s s' -> ended s' /\ a = LOther /\ S (sum looping (threads s')) = sum looping (threads s).
Proof.
  intros [F A] H. rewrite Forall_forall in A.
  destruct H as [l1 l2 t p s ts' E W|l1 l2 r t0 t p s ts' E W|l1 l2 e p s E|l1 l2 p s E|l1 l2 r s E C|l1 l2 r t q s E C Q|l1 l2 r s E C Q|l1 l2 r t s E|l1 l2 r s E].
  all: match type of E with _ = _ ++ ?x :: _ => assert (X : ending x) by (apply A; rewrite E; apply in_or_app; right; now left) end.
  all: destruct X as [X|[X|X]]; try discriminate.
  all: injection X as ->.
  - cbn [leave leave_label]. split; [|split; [reflexivity|]].
    + split; [exact F|]. cbn [threads]. apply Forall_mid. rewrite E in A.
      repeat split; try (apply Forall_forall; intros x Hx; apply A; apply in_or_app; cbn; auto). right. now left.
    + cbn [threads]. rewrite E, !sum_mid. cbn [looping]. lia.
  - cbn [continues] in C. rewrite F in C. discriminate.
  - cbn [continues] in C. rewrite F in C. discriminate.
Qed.
Lemma ended_execution s tr s' : execution s tr s' -> ended s -> ended s' /\ length tr + sum looping (threads s') = sum looping (threads s).
Proof.
  intros H. induction H as [s|s tr s' a s'' H IH S]; intros I; [auto|]. destruct (IH I) as [I' L].
  destruct (ended_step a s' s'' I' S) as (I'' & _ & L'). split; [exact I''|]. rewrite app_length. cbn [length]. lia.
Qed.
Lemma all_done n cl tr s : execution (start n cl) tr s -> (forall e i, occurrences (LFinish e i) tr = occurrences (LPost e i) tr) ->
  queue s = [] /\ Forall (fun th => match th with Exec _ _ _ => False | _ => True end) (threads s) /\ (forall e, counts s e = 0).
Proof.
  intros H F. pose proof (inv_execution _ _ _ H (inv_start n cl)) as [I1 I2 I3 I4 I5 I6].
  assert (Z : forall e i, live (is_task e i) s = 0) by (intros e i; specialize (I2 e i); specialize (F e i); lia).
  assert (Q : queue s = []).
  { destruct (queue s) as [|t q] eqn:E; [reflexivity|]. specialize (Z (tk_exec t) (tk_id t)). apply live_zero in Z as [A _]. rewrite E in A. inversion A; subst.
    assert (is_task (tk_exec t) (tk_id t) t = true) by (apply is_task_label; auto). congruence. }
  assert (X : Forall (fun th => match th with Exec _ _ _ => False | _ => True end) (threads s)).
  { apply Forall_forall. intros [| | |r t p|] Hin; auto. specialize (Z (tk_exec t) (tk_id t)). apply live_zero in Z as [_ A]. rewrite Forall_forall in A. specialize (A _ Hin). cbn beta iota in A.
    assert (is_task (tk_exec t) (tk_id t) t = true) by (apply is_task_label; auto). congruence. }
  split; [exact Q|]. split; [exact X|]. intros e. rewrite I1. apply live_zero. rewrite Q. split; [constructor|].
  eapply Forall_impl; [|exact X]. intros [| | | |]; tauto.
Qed.
Lemma stop_ends n cl tr s l1 l2 : execution (start n cl) tr s -> sum (sum is_stop) cl = 1 ->
  threads s = l1 ++ Run [Stop] :: l2 -> Forall (fun th => th = Run [] \/ is_worker th) (l1 ++ l2) ->
  (forall e i, occurrences (LFinish e i) tr = occurrences (LPost e i) tr) ->
  forall s1, s1 = stopped (l1 ++ Run [] :: l2) s -> ended s1 /\ sum looping (threads s1) <= length l1 + length l2.
Proof.
  intros H Hs E Ho F s1 ->. destruct (all_done n cl tr s H F) as (Q & X & C0).
  assert (SI : stop_inv s).
  { apply (stop_inv_execution _ _ _ H). split; rewrite start_stops; [lia|]. intros _. now left. }
  assert (R : state s = READY).
  { destruct SI as [S1 S2]. assert (Y : sum stops (threads s) = 1).
    { rewrite E, sum_mid in *. cbn [stops] in *. change (sum is_stop [Stop]) with 1 in *. lia. }
    destruct (S2 Y) as [R|R]; [exact R|]. pose proof (inv_execution _ _ _ H (inv_start n cl)) as [I1 I2 I3 I4 I5 I6].
    destruct (I6 R) as [e He]. rewrite C0 in He. lia. }
  unfold stopped. rewrite R. split; [split; [reflexivity|]|].
  - cbn [threads]. apply Forall_forall. intros th Hin. apply in_map_iff in Hin as (x & <- & Hin). rewrite Forall_forall in Ho, X.
    apply in_app_or in Hin. assert (Hx : x = Run [] \/ In x (l1 ++ l2)).
    { destruct Hin as [Hin|[<-|Hin]]; [right; apply in_or_app; now left|now left|right; apply in_or_app; now right]. }
    destruct Hx as [-> |Hx]; [right; now right|].
    assert (Xx : match x with Exec _ _ _ => False | _ => True end).
    { apply X. rewrite E. apply in_app_or in Hx as [Hx|Hx]; apply in_or_app; [now left|right; now right]. }
    destruct (Ho x Hx) as [-> |W]; [right; now right|]. destruct x as [p|[|]|[|]|r t p|]; cbn in W; try contradiction; cbn [wake]; [now left|now left|right; now left].
  - cbn [threads]. rewrite map_app, sum_app. cbn [map wake]. rewrite sum_cons. cbn [looping].
    pose proof (looping_le (map wake l1)). pose proof (looping_le (map wake l2)). rewrite map_length in *. lia.
Qed.
