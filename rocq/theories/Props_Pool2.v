(** C77: stopping a pool that still has tasks. *)
From Verif Require Import Base ListLemmas Pool_Model Pool_Spec Pool_Spec2 Pool_Proofs Pool_Proofs2 Pool_Proofs3.

(** ** C77 *)
(** A program with at least one worker in which all tasks belong to one executor calls
    stop() once, at any time, in particular while tasks are queued or running, and
    posts nothing afterwards.  Then no worker leaves before every posted task has run,
    and when no more steps can be taken, all workers have left and all clients have
    returned - so that every posted task has run. *)
Theorem c77_stop_runs_pending_tasks_partial e n clients tr s l1 p l2 tr2 s2 :
  Forall (Forall (call_on e)) clients -> sum (sum is_stop) clients = 1 -> 0 < n ->
  execution (start n clients) tr s -> threads s = l1 ++ Run (Stop :: p) :: l2 ->
  execution (stopped (l1 ++ Run p :: l2) s) tr2 s2 -> Forall (fun a => forall x i, a <> LPost x i) tr2 ->
  step LOther s (stopped (l1 ++ Run p :: l2) s) /\
  (In Done (threads s2) -> forall x i, occurrences (LFinish x i) (tr ++ LOther :: tr2) = occurrences (LPost x i) (tr ++ LOther :: tr2)) /\
  (stuck s2 -> Forall (fun th => th = Done \/ th = Run []) (threads s2) /\
    forall x i, occurrences (LFinish x i) (tr ++ LOther :: tr2) = occurrences (LPost x i) (tr ++ LOther :: tr2)).
Proof.
  intros Hc Hs Hn H E H2 NP. destruct (stop_drains e n clients tr s l1 p l2 tr2 s2 Hc Hs Hn H E H2 NP) as [A B].
  split; [eapply s_stop; exact E|]. split; [exact A|]. intros K. destruct (B K) as [F D]. auto.
Qed.

Ltac go := eapply e_snoc.
Ltac stuck_tac := let K := fresh "K" in intros ? ? K; exfalso;
  inversion K as [l1 l2 t p s0 ts' E W|l1 l2 r t0 t p s0 ts' E W|l1 l2 e0 p s0 E|l1 l2 p s0 E|l1 l2 r s0 E C|l1 l2 r t q s0 E C Q|l1 l2 r s0 E C Q|l1 l2 r t s0 E|l1 l2 r s0 E];
  cbn in E; destruct l1 as [|? [|? [|? ?]]]; cbn in E; congruence.
(** With two executors the claim is false: the first executor runs out of tasks, which
    makes the context READY although a task of the second is still queued; stop() then
    ends the worker, and the task never runs. *)
Theorem c77_two_executors_refuted :
  exists tr s, execution (start 1 [[Post (Task 0 1 []); Post (Task 1 2 []); Stop]]) tr s /\ stuck s /\
    threads s = [Done; Run []] /\ occurrences (LPost 1 2) tr = 1 /\ occurrences (LStart 1 2) tr = 0.
Proof.
  exists ((((((([] ++ [LPost 0 1]) ++ [LPost 1 2]) ++ [LStart 0 1]) ++ [LFinish 0 1]) ++ [LOther]) ++ [LOther])). eexists. split; [|split; [|split; [|split]]].
  - go. go. go. go. go. go. apply e_nil.
    + eapply (s_post [Loop Worker] [] (Task 0 1 [])); [reflexivity|apply wake_none]. repeat constructor.
    + eapply (s_post [Loop Worker] [] (Task 1 2 [])); [reflexivity|apply wake_none]. repeat constructor.
    + eapply (s_start [] [Run [Stop]] Worker (Task 0 1 [])); reflexivity.
    + eapply (s_finish [] [Run [Stop]] Worker (Task 0 1 [])). reflexivity.
    + eapply (s_stop [Loop Worker] []). reflexivity.
    + eapply (s_leave [] [Run []] Worker); reflexivity.
  - stuck_tac.
  - reflexivity.
  - reflexivity.
  - reflexivity.
Qed.
(** Nor do the workers end when a running task posts another one after stop(): the post
    sets the state back to WORKING, the stop is forgotten, and in the end the worker
    waits (the destructor, which waits for it, never returns). *)
Theorem c77_post_after_stop_refuted :
  exists tr s, execution (start 1 [[Post (Task 0 1 [Task 0 2 []]); Stop]]) tr s /\ stuck s /\
    threads s = [Wait Worker; Run []] /\ occurrences (LFinish 0 2) tr = 1.
Proof.
  exists ((((((((([] ++ [LPost 0 1]) ++ [LStart 0 1]) ++ [LOther]) ++ [LPost 0 2]) ++ [LFinish 0 1]) ++ [LStart 0 2]) ++ [LFinish 0 2]) ++ [LOther])). eexists. split; [|split; [|split]].
  - go. go. go. go. go. go. go. go. apply e_nil.
    + eapply (s_post [Loop Worker] [] (Task 0 1 [Task 0 2 []])); [reflexivity|apply wake_none]. repeat constructor.
    + eapply (s_start [] [Run [Stop]] Worker (Task 0 1 [Task 0 2 []])); reflexivity.
    + eapply (s_stop [Exec Worker (Task 0 1 [Task 0 2 []]) [Task 0 2 []]] []). reflexivity.
    + eapply (s_nested [] [Run []] Worker _ (Task 0 2 [])); [reflexivity|apply wake_none]. repeat constructor.
    + eapply (s_finish [] [Run []] Worker (Task 0 1 [Task 0 2 []])). reflexivity.
    + eapply (s_start [] [Run []] Worker (Task 0 2 [])); reflexivity.
    + eapply (s_finish [] [Run []] Worker (Task 0 2 [])). reflexivity.
    + eapply (s_wait [] [Run []] Worker); reflexivity.
  - intros a s' K. inversion K as [l1 l2 t p s0 ts' E W|l1 l2 r t0 t p s0 ts' E W|l1 l2 e0 p s0 E|l1 l2 p s0 E|l1 l2 r s0 E C|l1 l2 r t q s0 E C Q|l1 l2 r s0 E C Q|l1 l2 r t s0 E|l1 l2 r s0 E];
    [exfalso..|reflexivity]; cbn in E; destruct l1 as [|? [|? [|? ?]]]; cbn in E; congruence.
  - reflexivity.
  - reflexivity.
Qed.

(** ** Non-vacuity: two tasks queued when stop() is called, one worker. *)
Example c77_met : exists tr s tr2 s2, execution (start 1 [[Post (Task 0 1 []); Post (Task 0 2 []); Stop]]) tr s /\ threads s = [Loop Worker] ++ Run [Stop] :: [] /\
  execution (stopped ([Loop Worker] ++ Run [] :: []) s) tr2 s2 /\ Forall (fun a => forall x i, a <> LPost x i) tr2 /\ stuck s2 /\ threads s2 = [Done; Run []] /\
  occurrences (LPost 0 1) tr = 1 /\ occurrences (LPost 0 2) tr = 1 /\ occurrences (LFinish 0 1) tr = 0 /\ occurrences (LFinish 0 2) tr = 0.
Proof.
  exists (([] ++ [LPost 0 1]) ++ [LPost 0 2]). eexists. exists ((((([] ++ [LStart 0 1]) ++ [LFinish 0 1]) ++ [LStart 0 2]) ++ [LFinish 0 2]) ++ [LOther]). eexists. repeat apply conj.
  - go. go. apply e_nil.
    + eapply (s_post [Loop Worker] [] (Task 0 1 [])); [reflexivity|apply wake_none]. repeat constructor.
    + eapply (s_post [Loop Worker] [] (Task 0 2 [])); [reflexivity|apply wake_none]. repeat constructor.
  - reflexivity.
  - go. go. go. go. go. apply e_nil.
    + eapply (s_start [] [Run []] Worker (Task 0 1 [])); reflexivity.
    + eapply (s_finish [] [Run []] Worker (Task 0 1 [])). reflexivity.
    + eapply (s_start [] [Run []] Worker (Task 0 2 [])); reflexivity.
    + eapply (s_finish [] [Run []] Worker (Task 0 2 [])). reflexivity.
    + eapply (s_leave [] [Run []] Worker); reflexivity.
  - apply Forall_forall. cbn. intuition (subst; discriminate).
  - stuck_tac.
  - reflexivity.
  - reflexivity.
  - reflexivity.
  - reflexivity.
  - reflexivity.
Qed.
Example c77_met_one_executor : Forall (Forall (call_on 0)) [[Post (Task 0 1 []); Post (Task 0 2 []); Stop]] /\ sum (sum is_stop) [[Post (Task 0 1 []); Post (Task 0 2 []); Stop]] = 1.
Proof. split; [repeat constructor|reflexivity]. Qed.

Print Assumptions c77_stop_runs_pending_tasks_partial. Print Assumptions c77_two_executors_refuted. Print Assumptions c77_post_after_stop_refuted.
