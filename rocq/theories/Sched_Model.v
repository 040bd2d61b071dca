(** Model of the training of the multi-threaded CPU backend,
    /repo/knp/backends/cpu/cpu-multi-threaded-backend/impl/backend.cpp:112-199. *)
From Verif Require Import Base Messaging_Model Projection_Model Delta_Model Neuron_Model Pipeline_Model
  Stdp_Model Additive_Model Train_Model Net_Model.

(** A population up to the spike message, backend.cpp:77-162: the population and the
    neuron indexes of the message (for one part per population; what several parts
    change is the order of the indexes, see C29 and Neuron_Model.mt_post). *)
Definition front (u : uid) (step : N) (ms : list message) (a : npop) : outcome (npop * list N) :=
  match a with
  | NPlain a => obind (apop_step u step ms a) (fun r =>
      Ret (NPlain (fst r), match snd r with Some (SpikeMsg _ _ idx) => idx | _ => [] end))
  | NStdpBlifat l => obind (stdp_front (s_pre (bl_prestep true)) (s_impact bl_impact) (s_post bl_post) ms l) (fun f =>
      Ret (NStdpBlifat (fst f), snd f))
  | NStdpAltai l => obind (stdp_front (s_pre (al_prestep true)) (s_impact al_impact) (s_post al_post) ms l) (fun f =>
      Ret (NStdpAltai (fst f), snd f))
  end.
(** A population, its message, waiting for training. *)
Record job := mkJob { jb_uid : uid; jb_pop : npop; jb_fired : list N }.
Section Sched.
Variable pow2f : flt -> flt.
(** [call_finalize], backend.cpp:170-192: the projections of the resource STDP type
    that are not locked and end in the population (the conditions of
    Net_Model.working), then [train_population] (populations.h:132-139), which does
    nothing for neurons without resource STDP (lif_dispatcher.h:77-102,
    blifat_dispatcher.h:112-141, altai_dispatcher.h:114-143). *)
Definition finalize (step : N) (jb : job) (projs : list nproj) : outcome (npop * list nproj) :=
  match jb_pop jb with
  | NPlain a => Ret (NPlain a, projs)
  | NStdpBlifat l => obind (stdp_train pow2f bl_view bl_write (jb_uid jb) step (jb_fired jb) l projs) (fun r =>
      Ret (NStdpBlifat (fst r), snd r))
  | NStdpAltai l => obind (stdp_train pow2f al_view al_write (jb_uid jb) step (jb_fired jb) l projs) (fun r =>
      Ret (NStdpAltai (fst r), snd r))
  end.
(** The tasks posted in lines 163-197, executed one after the other in the order of
    the list.  (Simplification: a task is one action.) *)
Fixpoint train_jobs (step : N) (jobs : list job) (projs : list nproj) : outcome (list (uid * npop) * list nproj) :=
  match jobs with
  | [] => Ret ([], projs)
  | jb :: t =>
      obind (finalize step jb projs) (fun r =>
      obind (train_jobs step t (snd r)) (fun z => Ret ((jb_uid jb, fst r) :: fst z, snd z)))
  end.
End Sched.

(** A projection without its search index, which cannot be seen from outside. *)
Definition no_index {P} (p : proj P) : proj P := mkProj (p_syn p) [] false.
Definition forget (w : nproj) : nproj :=
  np_with w (match np_kind w with NDelta p => NDelta (no_index p) | NAdditive l p => NAdditive l (no_index p) | NResource l p => NResource l (no_index p) end)
          (np_queue w).
(** The same tasks in another order, with the indexes of each message in another order. *)
Definition reordered (jobs jobs' : list job) : Prop :=
  exists js, Permutation jobs js /\
    Forall2 (fun a b => jb_uid a = jb_uid b /\ jb_pop a = jb_pop b /\ Permutation (jb_fired a) (jb_fired b)) js jobs'.
