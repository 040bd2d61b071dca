(** The model executor on the multi-threaded CPU backend (MtNet_Model). *)
From Verif Require Import Base Messaging_Model Messaging_Spec Neuron_Model Pipeline_Model Train_Model Net_Model Mt_Model Sched_Model MtNet_Model Framework_Model Exec_Model.

Section MtExecutor.
Variable pow2f : flt -> flt.
Variables (ins outs : list (uid * list uid)) (calls : list xcall).
(** One round of the loop of [Backend::start] (core-library/impl/backend.cpp:122-133)
    as [ModelExecutor::start] (base-framework/impl/model_executor.cpp:92-128) uses it;
    the step is that of the multi-threaded backend
    (cpu-multi-threaded-backend/impl/backend.cpp:310-323).  [s] is how the tasks of
    the pool run in the step; a round that is refused does not use it. *)
Definition mt_executor_turn (u : xturn) (s : nsched) (x : xstate) : outcome (xstate * option xrecord) :=
  let k := x_net x in
  obind (send_inputs (nb_step k) 0 ins (xt_data u) (nb_bus k)) (fun b =>
  let k1 := with_net k b (learn_all (xt_learn u) (nb_projs k)) in
  if xt_go u then
    obind (mt_nbackend_step pow2f s (pending b) k1) (fun y =>
    let k2 := fst y in
    obind (update_outputs (S (length ins)) outs (nb_bus k2)) (fun o =>
    obind (update_handlers (x_done x) (nb_step k2) (S (length ins) + length outs) calls (fst o)) (fun h =>
    obind (update_observers (S (length ins) + length outs) calls (fst h)) (fun v =>
    Ret (mkX (with_net k2 (fst v) (nb_projs k2))
             (map (fun e => oc_update (snd e) (fst e)) (combine (x_buffers x) (snd o))) (S (x_done x)),
         Some (mkXR (snd y) (snd o) (snd h) (snd v)))))))
  else Ret (mkX k1 (x_buffers x) (x_done x), None)).
(** A sequence of rounds, over any number of calls of [start] (model_executor.cpp:92-128). *)
Fixpoint mt_executor_run (turns : list (xturn * nsched)) (x : xstate) : outcome (xstate * list xrecord) :=
  match turns with
  | [] => Ret (x, [])
  | (u, s) :: t =>
      obind (mt_executor_turn u s x) (fun y =>
      obind (mt_executor_run t (fst y)) (fun z =>
      Ret (fst z, match snd y with Some r => r :: snd z | None => snd z end)))
  end.
End MtExecutor.
