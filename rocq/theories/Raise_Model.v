(** Model of the thread pool of the multi-threaded backend with tasks that throw, on top
    of Pool_Model.v.  Paths are relative to /repo/knp/backends/cpu/thread_pool/.  A task
    that throws does so after posting the tasks listed in it; a client catches what
    leaves join() and goes on with its next call (a client that does not catch it is one
    whose remaining calls are those of the handler that does). *)
From Verif Require Import Base Pool_Model.

(** The process: its pool, or std::terminate has been called. *)
Inductive process := Alive (s : pool) | Dead.

(** What a step shows. *)
Inductive xlabel :=
| XStep (a : label)
| XThrow (e x i : nat)   (* task [i] of executor [x] throws, and its exception leaves a call of join() of [e] *)
| XTerminate.

(** A step finishes a task that throws. *)
Definition finishes_raising (raises : nat -> nat -> bool) (a : label) : bool :=
  match a with LFinish x i => raises x i | _ => false end.

(** [execute], impl/thread_pool_context.cpp:79-94: a task that throws is counted as
    finished ([do_work_finished]) and the exception goes on: through [execute_next]
    (97-105), out of join() (thread_pool_executor.h:87-92), whose lock is released; or
    out of the function that boost::asio::thread_pool runs (36-43), which calls
    std::terminate. *)
Inductive xstep (raises : nat -> nat -> bool) : xlabel -> process -> process -> Prop :=
| x_step a s s' : step a s s' -> finishes_raising raises a = false -> xstep raises (XStep a) (Alive s) (Alive s')
| x_throw l1 l2 e rest t s : threads s = l1 ++ Exec (Joining e rest) t [] :: l2 -> raises (tk_exec t) (tk_id t) = true ->
    xstep raises (XThrow e (tk_exec t) (tk_id t)) (Alive s) (Alive (finished t (l1 ++ Run rest :: l2) s))
| x_terminate l1 l2 t s : threads s = l1 ++ Exec Worker t [] :: l2 -> raises (tk_exec t) (tk_id t) = true ->
    xstep raises XTerminate (Alive s) Dead.
