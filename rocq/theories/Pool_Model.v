(** Model of the thread pool of the multi-threaded backend.  Paths are relative to
    /repo/knp/backends/cpu/thread_pool/.  A state is what lies behind the mutex plus
    where every thread is; a step is one critical section (from taking the mutex to
    releasing it or waiting on the condition variable), so that every interleaving of
    the threads is a sequence of steps.  Finishing a task and going back to the head of
    the loop are two steps here and one critical section in the code: the model has
    more interleavings.  Tasks that throw are added in Raise_Model.v. *)
From Verif Require Import Base.

(** A task posted to an executor, with a name and the tasks that it posts itself while
    it runs.  [Task], thread_pool_executor.h:100-114. *)
Inductive task := Task (tk_exec tk_id : nat) (tk_posts : list task).
Definition tk_exec (t : task) : nat := match t with Task e _ _ => e end.
Definition tk_id (t : task) : nat := match t with Task _ i _ => i end.
Definition tk_posts (t : task) : list task := match t with Task _ _ p => p end.

(** Calls made by a client thread: boost::asio::post(executor, task), executor.join()
    (thread_pool_executor.h:87-92), and stop() as called by the destructor of the
    context (thread_pool_context.cpp:54-58). *)
Inductive call := Post (t : task) | Join (e : nat) | Stop.

(** In whose name a thread runs the loop "execute the next task or wait": a worker
    (thread_pool_context.cpp:36-43) or a client inside of join() with the calls it
    will make afterwards (thread_pool_executor.h:87-92). *)
Inductive role := Worker | Joining (e : nat) (rest : list call).
Inductive thread :=
| Run (todo : list call)            (* a client outside of the pool *)
| Loop (r : role)                   (* about to take the mutex / at the loop head *)
| Wait (r : role)                   (* in condition_.wait *)
| Exec (r : role) (t : task) (posts : list task)  (* running t, which will still post [posts] *)
| Done.                             (* a worker that left its loop *)

(** thread_pool_context.h:67-73. *)
Inductive usage := FINISHED | READY | WORKING | STOPPING.
Definition usage_eqb (a b : usage) : bool :=
  match a, b with FINISHED, FINISHED | READY, READY | WORKING, WORKING | STOPPING, STOPPING => true | _, _ => false end.

(** thread_pool_context.h:99-104 with the counter of every executor
    (thread_pool_executor.h:51). *)
Record pool := mkPool { threads : list thread; queue : list task; counts : nat -> nat; state : usage }.

Definition set_count (e n : nat) (c : nat -> nat) : nat -> nat := fun x => if Nat.eqb x e then n else c x.

(** [condition_.notify_all] and [condition_.notify_one]: any one of the waiting threads. *)
Definition wake (th : thread) : thread := match th with Wait r => Loop r | _ => th end.
Inductive wake_one : list thread -> list thread -> Prop :=
| wake_none ts : Forall (fun th => wake th = th) ts -> wake_one ts ts
| wake_some l1 r l2 : wake_one (l1 ++ Wait r :: l2) (l1 ++ Loop r :: l2).

(** The condition of the loop: workers go on until FINISHED
    (thread_pool_context.cpp:39), join() until the executor has no tasks
    (thread_pool_executor.h:90). *)
Definition continues (s : pool) (r : role) : bool :=
  match r with
  | Worker => negb (usage_eqb (state s) FINISHED)
  | Joining e _ => Nat.ltb 0 (counts s e)
  end.
Definition leave (r : role) : thread := match r with Worker => Done | Joining _ p => Run p end.

(** What a step shows. *)
Inductive label :=
| LPost (e i : nat)     (* a task is posted *)
| LStart (e i : nat)    (* a thread starts to run a task *)
| LFinish (e i : nat)   (* the task has run *)
| LCall (e : nat)       (* a client calls join() of executor e *)
| LReturn (e : nat)     (* join() returns *)
| LSpurious             (* a spurious wake-up *)
| LOther.
Definition leave_label (r : role) : label := match r with Worker => LOther | Joining e _ => LReturn e end.

(** [do_work_started] and [post], thread_pool_context.cpp:61-65, 116-122: thread [ts] is
    the list of the threads with the poster already moved on. *)
Definition posted (t : task) (ts' : list thread) (s : pool) : pool :=
  mkPool ts' (queue s ++ [t]) (set_count (tk_exec t) (S (counts s (tk_exec t))) (counts s)) WORKING.
(** [do_work_finished], thread_pool_context.cpp:68-76. *)
Definition finished (t : task) (ts : list thread) (s : pool) : pool :=
  let n := pred (counts s (tk_exec t)) in
  let c := set_count (tk_exec t) n (counts s) in
  if Nat.eqb n 0
  then mkPool (map wake ts) (queue s) c (match state s with STOPPING => FINISHED | _ => READY end)
  else mkPool ts (queue s) c (state s).
(** [stop], thread_pool_context.cpp:108-113. *)
Definition stopped (ts : list thread) (s : pool) : pool :=
  mkPool (map wake ts) (queue s) (counts s) (match state s with READY => FINISHED | _ => STOPPING end).

Inductive step : label -> pool -> pool -> Prop :=
| s_post l1 l2 t p s ts' : threads s = l1 ++ Run (Post t :: p) :: l2 -> wake_one (l1 ++ Run p :: l2) ts' ->
    step (LPost (tk_exec t) (tk_id t)) s (posted t ts' s)
| s_nested l1 l2 r t0 t p s ts' : threads s = l1 ++ Exec r t0 (t :: p) :: l2 -> wake_one (l1 ++ Exec r t0 p :: l2) ts' ->
    step (LPost (tk_exec t) (tk_id t)) s (posted t ts' s)
| s_join l1 l2 e p s : threads s = l1 ++ Run (Join e :: p) :: l2 ->
    step (LCall e) s (mkPool (l1 ++ Loop (Joining e p) :: l2) (queue s) (counts s) (state s))
| s_stop l1 l2 p s : threads s = l1 ++ Run (Stop :: p) :: l2 ->
    step LOther s (stopped (l1 ++ Run p :: l2) s)
(** the loop: leave, execute_next (thread_pool_context.cpp:97-105) or wait *)
| s_leave l1 l2 r s : threads s = l1 ++ Loop r :: l2 -> continues s r = false ->
    step (leave_label r) s (mkPool (l1 ++ leave r :: l2) (queue s) (counts s) (state s))
| s_start l1 l2 r t q s : threads s = l1 ++ Loop r :: l2 -> continues s r = true -> queue s = t :: q ->
    step (LStart (tk_exec t) (tk_id t)) s (mkPool (l1 ++ Exec r t (tk_posts t) :: l2) q (counts s) (state s))
| s_wait l1 l2 r s : threads s = l1 ++ Loop r :: l2 -> continues s r = true -> queue s = [] ->
    step LOther s (mkPool (l1 ++ Wait r :: l2) [] (counts s) (state s))
| s_finish l1 l2 r t s : threads s = l1 ++ Exec r t [] :: l2 ->
    step (LFinish (tk_exec t) (tk_id t)) s (finished t (l1 ++ Loop r :: l2) s)
| s_spurious l1 l2 r s : threads s = l1 ++ Wait r :: l2 ->
    step LSpurious s (mkPool (l1 ++ Loop r :: l2) (queue s) (counts s) (state s)).

(** A new context with [n] workers (thread_pool_context.cpp:28-51) and client threads
    with the calls they are going to make. *)
Definition start (n : nat) (clients : list (list call)) : pool :=
  mkPool (repeat (Loop Worker) n ++ map Run clients) [] (fun _ => 0) READY.
