(** C41-C43: the thread pool. *)
From Verif Require Import Base ListLemmas Pool_Model Pool_Spec Pool_Proofs Pool_Proofs2.

(** ** C41 *)
(** When join() of executor [e] returns, every task posted to [e] before has been
    started and finished, each exactly as often as it was posted; for any number of
    workers (zero included), any number of clients, any nesting of posts, any
    interleaving and any spurious wake-ups. *)
Theorem c41_join n clients tr s e s' : execution (start n clients) tr s -> step (LReturn e) s s' ->
  forall i, occurrences (LFinish e i) tr = occurrences (LPost e i) tr /\ occurrences (LStart e i) tr = occurrences (LPost e i) tr.
Proof. apply join_returns. Qed.
(** At no time has a task run more often than it was posted. *)
Theorem c41_at_most_once n clients tr s e i : execution (start n clients) tr s ->
  occurrences (LFinish e i) tr <= occurrences (LStart e i) tr /\ occurrences (LStart e i) tr <= occurrences (LPost e i) tr.
Proof. apply once. Qed.
(** Even without join(): when nothing more happens and a worker is left, every task
    has run. *)
Theorem c41_no_task_left n clients tr s e i : execution (start n clients) tr s -> stuck s -> In (Wait Worker) (threads s) ->
  occurrences (LFinish e i) tr = occurrences (LPost e i) tr.
Proof.
  intros H St W. destruct (stuck_threads n clients tr s H St) as [T Q]. specialize (Q W).
  pose proof (inv_execution _ _ _ H (inv_start n clients)) as [I1 I2 I3 I4 I5 I6].
  assert (Z : live (is_task e i) s = 0); [|specialize (I2 e i); lia]. apply live_zero. rewrite Q. split; [constructor|].
  eapply Forall_impl; [|exact T]. intros th [-> |[-> | ->]]; exact I.
Qed.

(** ** C42 *)
(** While a client is in join(), some thread can take a step (not counting spurious
    wake-ups). *)
Theorem c42_progress n clients tr s : execution (start n clients) tr s -> Exists in_join (threads s) ->
  exists a s', a <> LSpurious /\ step a s s'.
Proof. apply progress. Qed.
(** Only so many steps can be taken, not counting spurious wake-ups and one step after
    each of them. *)
Theorem c42_bounded n clients tr s : execution (start n clients) tr s ->
  length (real tr) <= (n + sum calls_steps clients) * S (n + length clients) + n + (length tr - length (real tr)).
Proof. intros H. destruct (bounded_from _ _ _ H) as (_ & M & _). rewrite start_measure in M. lia. Qed.
(** When no more steps can be taken all calls of all clients have returned. *)
Theorem c42_all_return n clients tr s : execution (start n clients) tr s -> stuck s ->
  Forall (fun th => th = Run [] \/ th = Wait Worker \/ th = Done) (threads s).
Proof. intros H St. apply (stuck_threads n clients tr s H St). Qed.

(** ** C43 *)
(** A program calls stop() once; when it does, all posted tasks have finished and all
    other clients have returned from all their calls.  Then at most as many steps
    follow as there are threads, none of them a spurious wake-up or a wait, and when no
    more can be taken, all workers have left their loops. *)
Theorem c43_stop n clients tr s l1 l2 : execution (start n clients) tr s -> sum (sum is_stop) clients = 1 ->
  threads s = l1 ++ Run [Stop] :: l2 -> Forall (fun th => th = Run [] \/ is_worker th) (l1 ++ l2) ->
  (forall e i, occurrences (LFinish e i) tr = occurrences (LPost e i) tr) ->
  forall s1, s1 = stopped (l1 ++ Run [] :: l2) s -> step LOther s s1 /\ forall tr2 s2, execution s1 tr2 s2 ->
    length tr2 <= length l1 + length l2 /\ Forall (fun a => a = LOther) tr2 /\
    Forall (fun th => match th with Wait _ | Exec _ _ _ => False | _ => True end) (threads s2) /\
    (stuck s2 -> Forall (fun th => th = Done \/ th = Run []) (threads s2)).
Proof.
  intros H Hs E Ho F s1 E1. split; [subst s1; eapply s_stop; eauto|]. intros tr2 s2 H2.
  destruct (stop_ends n clients tr s l1 l2 H Hs E Ho F s1 E1) as [En Ln].
  destruct (ended_execution _ _ _ H2 En) as [[St2 En2] Ln2]. split; [lia|]. split; [|split].
  - clear - H2 En. induction H2 as [s|s tr s' a s'' H IH S]; [constructor|]. apply Forall_app. split; [auto|].
    destruct (ended_execution _ _ _ H En) as [En' _]. destruct (ended_step _ _ _ En' S) as (_ & A & _). auto.
  - eapply Forall_impl; [|exact En2]. intros th [-> |[-> | ->]]; exact I.
  - intros K. apply Forall_forall. intros th Hin. rewrite Forall_forall in En2. destruct (En2 th Hin) as [-> |[-> | ->]]; auto.
    destruct (busy_step s2 (Loop Worker) Hin I) as (a & s3 & Ha & S). elim Ha. exact (K a s3 S).
Qed.

(** ** Non-vacuity *)
(** A pool without workers and one client, whose first task posts a second one. *)
Definition ex_client : list call := [Post (Task 0 7 [Task 0 8 []]); Join 0; Stop].
Ltac go := eapply e_snoc.
Lemma ex_run : exists s s', execution (start 0 [ex_client]) [LPost 0 7; LCall 0; LStart 0 7; LPost 0 8; LFinish 0 7; LStart 0 8; LFinish 0 8] s /\
  step (LReturn 0) s s' /\ threads s' = [Run [Stop]].
Proof.
  eexists. eexists. split.
  - change [LPost 0 7; LCall 0; LStart 0 7; LPost 0 8; LFinish 0 7; LStart 0 8; LFinish 0 8] with
     (((((((([] ++ [LPost 0 7]) ++ [LCall 0]) ++ [LStart 0 7]) ++ [LPost 0 8]) ++ [LFinish 0 7]) ++ [LStart 0 8]) ++ [LFinish 0 8])).
    go. go. go. go. go. go. go. apply e_nil.
    + eapply (s_post [] [] (Task 0 7 [Task 0 8 []])); [reflexivity|apply wake_none]. repeat constructor.
    + eapply (s_join [] []). reflexivity.
    + eapply (s_start [] [] _ (Task 0 7 [Task 0 8 []]) []); reflexivity.
    + eapply (s_nested [] [] _ _ (Task 0 8 [])); [reflexivity|apply wake_none]. repeat constructor.
    + eapply (s_finish [] [] _ (Task 0 7 [Task 0 8 []])). reflexivity.
    + eapply (s_start [] [] _ (Task 0 8 []) []); reflexivity.
    + eapply (s_finish [] [] _ (Task 0 8 [])). reflexivity.
  - split; [apply (s_leave [] [] (Joining 0 [Stop])); reflexivity|reflexivity].
Qed.
Example c41_met : exists tr s s', execution (start 0 [ex_client]) tr s /\ step (LReturn 0) s s' /\ occurrences (LPost 0 7) tr = 1 /\ occurrences (LPost 0 8) tr = 1.
Proof. destruct ex_run as (s & s' & H & S & _). eauto 10. Qed.
(** A worker and a client: the worker waits, is woken by the post and takes the task;
    the client waits in join(). *)
Lemma ex_run2 : exists s, execution (start 1 [[Post (Task 3 7 []); Join 3]]) [LOther; LPost 3 7; LStart 3 7; LCall 3; LOther] s /\
  threads s = [Exec Worker (Task 3 7 []) []; Wait (Joining 3 [])].
Proof.
  eexists. split.
  - change [LOther; LPost 3 7; LStart 3 7; LCall 3; LOther] with ((((([] ++ [LOther]) ++ [LPost 3 7]) ++ [LStart 3 7]) ++ [LCall 3]) ++ [LOther]).
    go. go. go. go. go. apply e_nil.
    + eapply (s_wait [] [Run [Post (Task 3 7 []); Join 3]] Worker); reflexivity.
    + eapply (s_post [Wait Worker] [] (Task 3 7 [])); [reflexivity|]. apply (wake_some [] Worker [Run [Join 3]]).
    + eapply (s_start [] [Run [Join 3]] Worker (Task 3 7 []) []); reflexivity.
    + eapply (s_join [Exec Worker (Task 3 7 []) []] []). reflexivity.
    + eapply (s_wait [Exec Worker (Task 3 7 []) []] [] (Joining 3 [])); reflexivity.
  - reflexivity.
Qed.
Example c42_met : exists tr s, execution (start 1 [[Post (Task 3 7 []); Join 3]]) tr s /\ Exists in_join (threads s).
Proof. destruct ex_run2 as (s & H & E). exists [LOther; LPost 3 7; LStart 3 7; LCall 3; LOther], s. split; [exact H|]. rewrite E. right. now left. Qed.
Example c42_all_return_met : exists tr s, execution (start 0 [ex_client]) tr s /\ stuck s.
Proof.
  destruct ex_run as (s & s' & H & S & T). exists ([LPost 0 7; LCall 0; LStart 0 7; LPost 0 8; LFinish 0 7; LStart 0 8; LFinish 0 8] ++ [LReturn 0] ++ [LOther]).
  exists (stopped [Run []] s'). split.
  - rewrite app_assoc. eapply e_snoc; [eapply e_snoc; eassumption|]. apply (s_stop [] [] []). exact T.
  - intros a s2 K. exfalso. inversion K as [l1 l2 t p s0 ts' E W|l1 l2 r t0 t p s0 ts' E W|l1 l2 e p s0 E|l1 l2 p s0 E|l1 l2 r s0 E C|l1 l2 r t q s0 E C Q|l1 l2 r s0 E C Q|l1 l2 r t s0 E|l1 l2 r s0 E];
    cbn [stopped threads map wake] in E; destruct l1 as [|? [|? ?]]; cbn in E; congruence.
Qed.
Example c43_met : exists tr s l1 l2, execution (start 0 [ex_client]) tr s /\ sum (sum is_stop) [ex_client] = 1 /\
  threads s = l1 ++ Run [Stop] :: l2 /\ Forall (fun th => th = Run [] \/ is_worker th) (l1 ++ l2) /\
  forall e i, occurrences (LFinish e i) tr = occurrences (LPost e i) tr.
Proof.
  destruct ex_run as (s & s' & H & S & T). exists ([LPost 0 7; LCall 0; LStart 0 7; LPost 0 8; LFinish 0 7; LStart 0 8; LFinish 0 8] ++ [LReturn 0]), s', [], [].
  split; [eapply e_snoc; eassumption|]. split; [reflexivity|]. split; [exact T|]. split; [constructor|].
  intros e i. rewrite !occ_snoc. destruct (join_returns _ _ _ _ _ _ H S i) as [J _].
  destruct (label_eq_dec (LReturn 0) (LFinish e i)); [discriminate|]. destruct (label_eq_dec (LReturn 0) (LPost e i)); [discriminate|].
  destruct e as [|e]; [rewrite J; reflexivity|]. unfold occurrences. cbn. 
  repeat match goal with |- context [label_eq_dec ?a ?b] => destruct (label_eq_dec a b); [discriminate|] end. reflexivity.
Qed.
Example c43_met_waiting : exists tr s l1 l2, execution (start 2 [[Stop]]) tr s /\ threads s = l1 ++ Run [Stop] :: l2 /\
  l1 = [Wait Worker; Loop Worker] /\ Forall (fun th => th = Run [] \/ is_worker th) (l1 ++ l2) /\
  forall e i, occurrences (LFinish e i) tr = occurrences (LPost e i) tr.
Proof.
  exists ([] ++ [LOther]), (mkPool [Wait Worker; Loop Worker; Run [Stop]] [] (fun _ => 0) READY), [Wait Worker; Loop Worker], [].
  split; [eapply e_snoc; [apply e_nil|]; apply (s_wait [] [Loop Worker; Run [Stop]] Worker (start 2 [[Stop]])); reflexivity|].
  split; [reflexivity|]. split; [reflexivity|]. split; [apply Forall_forall; intros th [<-|[<-|[]]]; right; exact I|]. reflexivity.
Qed.

Print Assumptions c41_join. Print Assumptions c41_at_most_once. Print Assumptions c41_no_task_left.
Print Assumptions c42_progress. Print Assumptions c42_bounded. Print Assumptions c42_all_return. Print Assumptions c43_stop.
