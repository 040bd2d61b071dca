(** C122: tasks that throw. *)
From Verif Require Import Base ListLemmas Pool_Model Pool_Spec Pool_Proofs Pool_Proofs2 Raise_Model Raise_Spec Raise_Proofs.

(** ** C122 *)
(** A normal return of join() of executor [e] still means that every task posted to [e]
    has been started and has ended, by returning or by throwing. *)
Theorem c122_return raises n clients tr s e p : xexecution raises (Alive (start n clients)) tr (Alive s) -> xstep raises (XStep (LReturn e)) (Alive s) p ->
  forall i, was_ended e i tr = was_posted e i tr /\ was_started e i tr = was_posted e i tr.
Proof.
  intros H S i. pose proof (xinv_start raises n clients tr s H) as [I1 I2 I3 _ _ _].
  inversion S as [a x y S1 F| |]; subst. assert (C : counts s e = 0).
  { inversion S1 as [| | | |l1 l2 r s0 E C| | | |]; subst. destruct r as [|e' q]; [discriminate|]. cbn [leave_label] in *. match goal with X : LReturn _ = LReturn _ |- _ => injection X as -> end.
    cbn [continues] in C. apply Nat.ltb_ge in C. lia. }
  rewrite I1 in C. apply live_zero in C as [A B].
  assert (L : live (is_task e i) s = 0).
  { apply live_zero. split; (eapply Forall_impl; [|eassumption]).
    - intros t E. unfold of_exec in E. unfold is_task. now rewrite E.
    - intros [| | |r t q|]; auto. intros E. unfold of_exec in E. unfold is_task. now rewrite E. }
  specialize (I2 e i). specialize (I3 e i). rewrite occ_finish in I2, I3. rewrite occ_step in I2, I3 by discriminate. unfold live in *. unfold was_posted, was_started. lia.
Qed.
(** No task is started more often than it is posted, and none ends without having been started. *)
Theorem c122_at_most_once raises n clients tr s x i : xexecution raises (Alive (start n clients)) tr (Alive s) ->
  was_ended x i tr <= was_started x i tr /\ was_started x i tr <= was_posted x i tr.
Proof.
  intros H. pose proof (xinv_start raises n clients tr s H) as [I1 I2 I3 _ _ _]. specialize (I2 x i). specialize (I3 x i).
  rewrite occ_finish in I2, I3. rewrite occ_step in I2, I3 by discriminate. unfold live in *. unfold was_posted, was_started. lia.
Qed.
(** No exception is lost and none is made up: as long as the process lives, a task that
    throws has ended as often as its exception left a call of join(), and the exception of
    a task that does not throw never did. *)
Theorem c122_not_lost raises n clients tr s x i : xexecution raises (Alive (start n clients)) tr (Alive s) ->
  throws x i tr = if raises x i then was_ended x i tr else 0.
Proof.
  remember (Alive (start n clients)) as p0 eqn:E0. remember (Alive s) as p eqn:E. intros H. clear E0 E.
  unfold was_ended. induction H as [s0|s0 tr s' a s'' H IH S]; [now destruct (raises x i)|]. rewrite throws_snoc, times_snoc.
  destruct S as [a s1 s2 S F|l1 l2 e rest t s1 E R|l1 l2 t s1 E R].
  - destruct (xlabel_eq_dec _ _) as [X|X]; [|destruct (raises x i); lia]. injection X as ->. cbn [finishes_raising] in F. rewrite F in *. lia.
  - destruct (xlabel_eq_dec _ _) as [X|_]; [discriminate|]. destruct (raises x i) eqn:Q; [lia|].
    destruct (Nat.eqb_spec x (tk_exec t)), (Nat.eqb_spec i (tk_id t)); subst; cbn [andb b2n]; solve [lia|congruence].
  - destruct (xlabel_eq_dec _ _) as [X|_]; [discriminate|]. destruct (raises x i); lia.
Qed.
(** While a client is in join(), the process can go on: also after exceptions nobody waits for ever. *)
Theorem c122_progress raises n clients tr s : xexecution raises (Alive (start n clients)) tr (Alive s) -> Exists in_join (threads s) ->
  exists a p, x_spurious a = false /\ xstep raises a (Alive s) p.
Proof.
  intros H J. destruct (inv_progress _ _ (xinv_start raises n clients tr s H) J) as (a & s' & N & S). exact (step_xstep raises a s s' S N).
Qed.
Theorem c122_bounded raises n clients tr p : xexecution raises (Alive (start n clients)) tr p ->
  length (x_real tr) <= (n + sum calls_steps clients) * S (n + length clients) + n + 1 + (length tr - length (x_real tr)).
Proof. intros H. destruct (xbounded raises _ _ _ H) as (M & _). cbn [xmeasure] in M. rewrite start_measure in M. lia. Qed.
(** When no more steps can be taken, the process has been terminated or all calls of all
    clients have come to an end, by returning or by throwing, and no task waits in the
    queue while a worker is left. *)
Theorem c122_all_return raises n clients tr p : xexecution raises (Alive (start n clients)) tr p -> x_stuck raises p ->
  match p with
  | Dead => True
  | Alive s => Forall (fun th => th = Run [] \/ th = Wait Worker \/ th = Done) (threads s) /\ (In (Wait Worker) (threads s) -> queue s = [])
  end.
Proof.
  intros H K. destruct p as [s|]; [|exact I]. apply (inv_stuck (plains tr)); [exact (xinv_start raises n clients tr s H)|]. exact (x_stuck_stuck raises s K).
Qed.
(** The process is terminated only when a worker ran a task that throws. *)
Theorem c122_terminated raises n clients tr : xexecution raises (Alive (start n clients)) tr Dead ->
  0 < n /\ exists tr' s x i, tr = tr' ++ [XTerminate] /\ xexecution raises (Alive (start n clients)) tr' (Alive s) /\
    raises x i = true /\ was_ended x i tr' < was_started x i tr'.
Proof.
  intros H. split.
  - destruct n as [|n]; [|lia]. destruct (clients_execution raises _ _ _ _ H eq_refl (start_clients clients)) as (s & E & _). discriminate.
  - inversion H as [|s0 tr' s' a s'' H1 S]; subst. inversion S as [| |l1 l2 t s1 E R]; subst.
    exists tr', s1, (tk_exec t), (tk_id t). split; [reflexivity|]. split; [exact H1|]. split; [exact R|].
    pose proof (xinv_start raises n clients tr' s1 H1) as [_ _ I3 _ _ _]. specialize (I3 (tk_exec t) (tk_id t)). rewrite E, sum_mid in I3. cbn [ex] in I3.
    assert (Q : is_task (tk_exec t) (tk_id t) t = true) by (apply is_task_label; auto). rewrite Q in I3. cbn [b2n] in I3.
    rewrite occ_finish in I3. rewrite occ_step in I3 by discriminate. unfold was_started. lia.
Qed.
(** When no task throws, the process takes the steps of Pool_Model.v and no others. *)
Theorem c122_no_throw raises a p p' : (forall x i, raises x i = false) ->
  (xstep raises a p p' <-> exists b s s', a = XStep b /\ p = Alive s /\ p' = Alive s' /\ step b s s').
Proof.
  intros F. split.
  - intros [b s s' S _|l1 l2 e rest t s E R|l1 l2 t s E R]; [eauto 8| |]; rewrite F in R; discriminate.
  - intros (b & s & s' & -> & -> & -> & S). constructor; [exact S|]. destruct b; cbn; auto.
Qed.

(** ** What does not hold *)
Ltac xgo := eapply xe_snoc.
Definition first_raises (x i : nat) : bool := Nat.eqb x 0 && Nat.eqb i 1.
(** The same program - one worker; a client posts one task that throws and joins - gets
    the exception out of join(), or is terminated: which of the two depends on who
    takes the task. *)
Theorem c122_schedule_refuted :
  (exists tr s, xexecution first_raises (Alive (start 1 [[Post (Task 0 1 []); Join 0]])) tr (Alive s) /\ throws 0 1 tr = 1 /\ x_stuck first_raises (Alive s)) /\
  (exists tr, xexecution first_raises (Alive (start 1 [[Post (Task 0 1 []); Join 0]])) tr Dead).
Proof.
  split.
  - eexists. eexists. split; [|split].
    + xgo. xgo. xgo. xgo. xgo. apply xe_nil.
      * eapply x_step; [eapply (s_post [Loop Worker] [] (Task 0 1 [])); [reflexivity|apply wake_none; repeat constructor]|reflexivity].
      * eapply x_step; [eapply (s_join [Loop Worker] []); reflexivity|reflexivity].
      * eapply x_step; [eapply (s_start [Loop Worker] [] (Joining 0 []) (Task 0 1 []) []); reflexivity|reflexivity].
      * eapply (x_throw first_raises [Loop Worker] [] 0 [] (Task 0 1 [])); reflexivity.
      * eapply x_step; [eapply (s_wait [] [Run []] Worker); reflexivity|reflexivity].
    + reflexivity.
    + intros a p K. inversion K as [a0 s s' S F|l1 l2 e rest t s E R|l1 l2 t s E R]; subst.
      * inversion S as [l1 l2 t p s0 ts' E W|l1 l2 r t0 t p s0 ts' E W|l1 l2 e0 p s0 E|l1 l2 p s0 E|l1 l2 r s0 E C|l1 l2 r t q s0 E C Q|l1 l2 r s0 E C Q|l1 l2 r t s0 E|l1 l2 r s0 E];
        [exfalso..|reflexivity]; cbn in E; destruct l1 as [|? [|? [|? ?]]]; cbn in E; congruence.
      * exfalso. cbn in E. destruct l1 as [|? [|? [|? ?]]]; cbn in E; congruence.
      * exfalso. cbn in E. destruct l1 as [|? [|? [|? ?]]]; cbn in E; congruence.
  - eexists. xgo. xgo. xgo. apply xe_nil.
    + eapply x_step; [eapply (s_post [Loop Worker] [] (Task 0 1 [])); [reflexivity|apply wake_none; repeat constructor]|reflexivity].
    + eapply x_step; [eapply (s_start [] [Run [Join 0]] Worker (Task 0 1 []) []); reflexivity|reflexivity].
    + eapply (x_terminate first_raises [] [Run [Join 0]] (Task 0 1 [])); reflexivity.
Qed.
(** When join() throws, other tasks of its executor may not even have been started. *)
Theorem c122_unfinished_refuted :
  exists tr s, xexecution first_raises (Alive (start 0 [[Post (Task 0 1 []); Post (Task 0 2 []); Join 0]])) tr (Alive s) /\
    times (XThrow 0 0 1) tr = 1 /\ was_posted 0 2 tr = 1 /\ was_started 0 2 tr = 0 /\ x_stuck first_raises (Alive s).
Proof.
  eexists. eexists. split; [|split; [|split; [|split]]].
  - xgo. xgo. xgo. xgo. xgo. apply xe_nil.
    + eapply x_step; [eapply (s_post [] [] (Task 0 1 [])); [reflexivity|apply wake_none; repeat constructor]|reflexivity].
    + eapply x_step; [eapply (s_post [] [] (Task 0 2 [])); [reflexivity|apply wake_none; repeat constructor]|reflexivity].
    + eapply x_step; [eapply (s_join [] []); reflexivity|reflexivity].
    + eapply x_step; [eapply (s_start [] [] (Joining 0 []) (Task 0 1 []) [Task 0 2 []]); reflexivity|reflexivity].
    + eapply (x_throw first_raises [] [] 0 [] (Task 0 1 [])); reflexivity.
  - reflexivity.
  - reflexivity.
  - reflexivity.
  - intros a p K. exfalso. inversion K as [a0 s s' S F|l1 l2 e rest t s E R|l1 l2 t s E R]; subst.
    + inversion S as [l1 l2 t p s0 ts' E W|l1 l2 r t0 t p s0 ts' E W|l1 l2 e0 p s0 E|l1 l2 p s0 E|l1 l2 r s0 E C|l1 l2 r t q s0 E C Q|l1 l2 r s0 E C Q|l1 l2 r t s0 E|l1 l2 r s0 E];
      cbn in E; destruct l1 as [|? [|? [|? ?]]]; cbn in E; congruence.
    + cbn in E. destruct l1 as [|? [|? [|? ?]]]; cbn in E; congruence.
    + cbn in E. destruct l1 as [|? [|? [|? ?]]]; cbn in E; congruence.
Qed.
(** join() of one executor may throw the exception of a task of another one, and the
    join() of that other one then returns normally. *)
Theorem c122_foreign_refuted :
  exists tr s s', xexecution first_raises (Alive (start 0 [[Post (Task 0 1 []); Post (Task 5 9 []); Join 5; Join 0]])) tr (Alive s) /\
    times (XThrow 5 0 1) tr = 1 /\ xstep first_raises (XStep (LReturn 0)) (Alive s) (Alive s').
Proof.
  eexists. eexists. eexists. split; [|split].
  - xgo. xgo. xgo. xgo. xgo. xgo. apply xe_nil.
    + eapply x_step; [eapply (s_post [] [] (Task 0 1 [])); [reflexivity|apply wake_none; repeat constructor]|reflexivity].
    + eapply x_step; [eapply (s_post [] [] (Task 5 9 [])); [reflexivity|apply wake_none; repeat constructor]|reflexivity].
    + eapply x_step; [eapply (s_join [] []); reflexivity|reflexivity].
    + eapply x_step; [eapply (s_start [] [] (Joining 5 [Join 0]) (Task 0 1 []) [Task 5 9 []]); reflexivity|reflexivity].
    + eapply (x_throw first_raises [] [] 5 [Join 0] (Task 0 1 [])); reflexivity.
    + eapply x_step; [eapply (s_join [] []); reflexivity|reflexivity].
  - reflexivity.
  - eapply x_step; [eapply (s_leave [] [] (Joining 0 [])); reflexivity|reflexivity].
Qed.

(** ** Non-vacuity *)
(** No workers; the first of two tasks throws, the client joins again: the second join()
    runs the other task and returns. *)
Example c122_met : exists tr s p, xexecution first_raises (Alive (start 0 [[Post (Task 0 1 []); Post (Task 0 2 []); Join 0; Join 0]])) tr (Alive s) /\
  xstep first_raises (XStep (LReturn 0)) (Alive s) p /\ was_posted 0 1 tr = 1 /\ throws 0 1 tr = 1 /\ was_posted 0 2 tr = 1 /\ Exists in_join (threads s).
Proof.
  eexists. eexists. eexists. split; [|split; [|split; [|split; [|split]]]].
  - xgo. xgo. xgo. xgo. xgo. xgo. xgo. xgo. apply xe_nil.
    + eapply x_step; [eapply (s_post [] [] (Task 0 1 [])); [reflexivity|apply wake_none; repeat constructor]|reflexivity].
    + eapply x_step; [eapply (s_post [] [] (Task 0 2 [])); [reflexivity|apply wake_none; repeat constructor]|reflexivity].
    + eapply x_step; [eapply (s_join [] []); reflexivity|reflexivity].
    + eapply x_step; [eapply (s_start [] [] (Joining 0 [Join 0]) (Task 0 1 []) [Task 0 2 []]); reflexivity|reflexivity].
    + eapply (x_throw first_raises [] [] 0 [Join 0] (Task 0 1 [])); reflexivity.
    + eapply x_step; [eapply (s_join [] []); reflexivity|reflexivity].
    + eapply x_step; [eapply (s_start [] [] (Joining 0 []) (Task 0 2 []) []); reflexivity|reflexivity].
    + eapply x_step; [eapply (s_finish [] [] (Joining 0 []) (Task 0 2 [])); reflexivity|reflexivity].
  - eapply x_step; [eapply (s_leave [] [] (Joining 0 [])); reflexivity|reflexivity].
  - reflexivity.
  - reflexivity.
  - reflexivity.
  - constructor. exact I.
Qed.

Print Assumptions c122_return. Print Assumptions c122_at_most_once. Print Assumptions c122_not_lost. Print Assumptions c122_progress.
Print Assumptions c122_bounded. Print Assumptions c122_all_return. Print Assumptions c122_terminated. Print Assumptions c122_no_throw.
Print Assumptions c122_schedule_refuted. Print Assumptions c122_unfinished_refuted. Print Assumptions c122_foreign_refuted.
