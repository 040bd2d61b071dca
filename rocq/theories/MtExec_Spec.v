(** What the properties of the model executor on the multi-threaded backend talk about. *)
From Verif Require Import Base Messaging_Model Messaging_Spec Neuron_Model Pipeline_Model Pipeline_Spec Train_Model Net_Model Net_Spec
  Mt_Model Sched_Model MtNet_Model MtNet_Spec Framework_Model Exec_Model Exec_Spec MtExec_Model.

(** A loaded executor on the multi-threaded backend, and a sequence of rounds on it:
    each with a schedule of the tasks. *)
Definition mt_executor_ran (pow2f : flt -> flt) (gens : list uid) (ins outs : list (uid * list uid)) (calls : list xcall)
    (pops : list (uid * npop)) (projs : list nproj) (turns : list (xturn * nsched)) (x : xstate) (recs : list xrecord) : Prop :=
  exists x0, executor_init gens ins outs calls pops projs = Ret x0 /\
             mt_executor_run pow2f ins outs calls turns x0 = Ret (x, recs).
(** The rounds have schedules this backend can follow, with parts of the sizes [pp]
    and [pj]. *)
Definition schedules_ok (pp pj : N) (pops : list (uid * npop)) (projs : list nproj) (turns : list (xturn * nsched)) : Prop :=
  Forall (fun c => xt_go (fst c) = true -> nsched_ok pp pj pops projs (snd c)) turns.
(** The schedules of the steps. *)
Definition step_schedules (turns : list (xturn * nsched)) : list nsched := map snd (filter (fun c => xt_go (fst c)) turns).

(** ** The same program on both backends *)
(** The same message up to the order of the spikes or impacts in it. *)
Definition alike (a b : message) : Prop :=
  match a, b with
  | SpikeMsg u t l, SpikeMsg u' t' l' => u = u' /\ t = t' /\ Permutation l l'
  | ImpactMsg u t _ _ f l, ImpactMsg u' t' _ _ f' l' => u = u' /\ t = t' /\ f = f' /\ Permutation l l'
  | _, _ => False
  end.
(** A handler whose answer does not depend on the order of the spikes in its messages. *)
Definition order_blind (f : nat -> list message -> list N) : Prop :=
  forall n ms ms', Forall2 alike ms ms' -> f n ms' = f n ms.
