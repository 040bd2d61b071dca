(** Property theorems C127: models never fail under the executor on the multi-threaded backend. *)
From Verif Require Import Base ListLemmas Messaging_Model Messaging_Spec Messaging_Proofs Messaging_Proofs2 Projection_Model Delta_Model Neuron_Model
  Pipeline_Model Pipeline_Spec Pipeline_Proofs Pipeline_Proofs2 Stdp_Model Additive_Model Train_Model Net_Model Net_Spec Net_Proofs Net_Proofs2 Net_Proofs3 Net_Proofs4
  Net_Proofs5 Props_Net Props_Net2 Props_Sched Safe_Spec Safe_Proofs Safe_Proofs2 Props_Safe
  Mt_Model Mt_Spec Mt_Proofs Mt_Proofs2 Sched_Model MtNet_Model MtNet_Spec MtNet_Proofs MtNet_Proofs2 Props_MtNet MtSafe_Spec MtSafe_Proofs Props_MtSafe
  Framework_Model Exec_Model Exec_Spec Exec_Proofs Exec_Proofs2 Exec_Proofs3 Exec_Proofs4 Exec_Proofs5 Exec_Proofs6 Props_Exec Props_ExecSafe
  MtExec_Model MtExec_Spec MtExec_Proofs MtExec_Proofs2 MtExec_Proofs3 Props_MtExec MtExecSafe_Spec MtExecSafe_Proofs.

(** *** C127 *)
(** A model whose input channels have their generators and whose network is wired: every sequence of
    rounds, under every schedule of the thread pool, with any data, handlers, predicate and switching of
    learning, is carried out, if blocking synapses do not occur or no neuron is repeated in a message. *)
Theorem c127_never_fails pow2f gens ins outs calls pops projs pp pj turns :
  sound_network pops projs -> wired (connections ins calls) pops projs -> Forall loadable projs -> weights_valid projs -> (0 < pp < two64)%N ->
  incl (map fst ins) gens -> calm projs calls (map fst turns) -> schedules_ok pp pj pops projs turns ->
  exists x recs, mt_executor_ran pow2f gens ins outs calls pops projs turns x recs.
Proof.
  intros Hs Hw Hl Hv Hpp Hg0 Hca Hsch.
  assert (Hg : forallb (fun c => mem (fst c) gens) ins = true).
  { apply forallb_forall. intros c Hc. apply mem_In, Hg0, in_map, Hc. }
  destruct (set_up gens ins outs calls pops projs Hg Hs) as (x0 & k0 & e0 & ops & tr & Ei & Ek & F & E & L & T & P & J & S_ & B & D).
  destruct (mt_init_ready (connections ins calls) pops projs Hs Hl) as (k1 & Ek1 & K1 & K2 & K3 & R). rewrite Ek in Ek1. injection Ek1 as <-.
  assert (X : mt_xinv ins outs calls projs (map fst pops) pops [] [] [] x0 k0).
  { split; [|exact R]. split; [apply R|now exists ops, tr|congruence|unfold learn_all; cbn [flat_map fold_left]; congruence|congruence|exact T|].
    exists none, e0. split; [exact L|]. split; [reflexivity|]. split; [reflexivity|]. now apply sends_nil. }
  destruct (mt_xgoes pow2f ins outs calls pops projs pp pj Hs Hw Hv Hpp (map fst turns) Hca turns [] [] [] x0 k0 X (mt_safe_init _ _ _ Hs Hw k0 Hl Ek)
    ltac:(constructor) ltac:(constructor) ltac:(intros v []) (fun v Hv0 => Hv0) Hsch) as (x & recs & Er).
  exists x, recs, x0. auto.
Qed.
Print Assumptions c127_never_fails.
(** As many steps are made as there are rounds the predicate agreed to. *)
Theorem c127_steps pow2f gens ins outs calls pops projs pp pj turns :
  sound_network pops projs -> wired (connections ins calls) pops projs -> Forall loadable projs -> weights_valid projs -> (0 < pp < two64)%N ->
  incl (map fst ins) gens -> calm projs calls (map fst turns) -> schedules_ok pp pj pops projs turns ->
  exists x recs, mt_executor_ran pow2f gens ins outs calls pops projs turns x recs /\ length recs = length (filter xt_go (map fst turns)) /\ x_done x = length recs.
Proof.
  intros Hs Hw Hl Hv Hpp Hg Hca Hsch. destruct (c127_never_fails pow2f gens ins outs calls pops projs pp pj turns Hs Hw Hl Hv Hpp Hg Hca Hsch) as (x & recs & H). exists x, recs. split; [exact H|].
  destruct (mt_ran_facts _ _ _ _ _ _ _ _ _ _ _ _ Hs Hl Hpp Hsch H) as (turns' & k & _ & _ & _ & _ & _ & _ & Hn & _ & _ & _ & Hd). split; [|exact Hd]. rewrite Hn.
  clear. generalize (@nil xturn). induction (map fst turns) as [|u t IH]; intros l; cbn [rounds filter]; [reflexivity|]. destruct (xt_go u); cbn [length]; now rewrite IH.
Qed.
Print Assumptions c127_steps.

(** The model of Props_MtExec (a channel, an output, a handler that echoes, two observers) meets the hypotheses. *)
Example c127_case : sound_network Props_Sched.sc_pops Props_Sched.sc_projs /\ wired (connections mxe_ins mxe_calls) Props_Sched.sc_pops Props_Sched.sc_projs /\
  Forall loadable Props_Sched.sc_projs /\ weights_valid Props_Sched.sc_projs /\ incl (map fst mxe_ins) [9]%N /\
  calm Props_Sched.sc_projs mxe_calls (map fst mxe_turns) /\ schedules_ok 1 1 Props_Sched.sc_pops Props_Sched.sc_projs mxe_turns.
Proof.
  split; [apply sc_sound|]. split.
  { split.
    - intros u a Hu. cbn [Props_Sched.sc_pops In] in Hu. intuition (match goal with H : (_, _) = (_, _) |- _ => injection H as <- <- end; exact I).
    - intros u a w s Hu Hw Hr Hs. cbn [Props_Sched.sc_pops Props_Sched.sc_projs In] in *.
      repeat match goal with H : _ \/ _ |- _ => destruct H as [H|H] | H : False |- _ => destruct H end;
      try (injection Hu as <- <-); subst w; cbn in Hs;
      (destruct Hr as [[_ Hr]|Hr]; [cbn in Hr; try discriminate Hr|discriminate Hr]);
      repeat match goal with H : _ \/ _ |- _ => destruct H as [H|H] | H : False |- _ => destruct H end; subst s; cbn; repeat split; auto; intros; discriminate. }
  split; [repeat constructor|]. split; [repeat constructor|]. split; [intros u Hu; exact Hu|]. split; [|apply mxe_schedules].
  left. repeat constructor; cbn; discriminate.
Qed.

(** The condition on repeated neurons is needed: a channel that yields a neuron twice for a blocking
    synapse of weight [2^62]. The executor goes on on the single-threaded backend; on this one the blocking
    period does not fit its type. *)
Definition dupx_ins : list (uid * list uid) := [(9, [21])]%N.
Definition dupx_turns : list (xturn * nsched) :=
  [(mkXT [] (fun _ => [0; 0]%N) true, dup_sched); (mkXT [] (fun _ => []) true, dup_sched)].
Theorem c127_repeated_refuted :
  sound_network dup_pops dup_projs /\ wired (connections dupx_ins []) dup_pops dup_projs /\ Forall loadable dup_projs /\ weights_valid dup_projs /\
  schedules_ok 1 1 dup_pops dup_projs dupx_turns /\
  (exists x recs, executor_ran one1 one1 [9]%N dupx_ins [] [] dup_pops dup_projs (map fst dupx_turns) x recs) /\
  obind (executor_init [9]%N dupx_ins [] [] dup_pops dup_projs) (mt_executor_run one1 dupx_ins [] [] dupx_turns) = UB.
Proof.
  destruct c114_repeated_refuted as (H1 & H2 & H3 & H4 & H5 & _).
  split; [exact H1|]. split; [exact H2|]. split; [exact H3|]. split; [exact H4|]. split; [repeat (constructor; [intros _; exact H5|]); constructor|]. split.
  - apply c116_never_fails; [exact H1|exact H2|intros u Hu; exact Hu].
  - vm_compute. reflexivity.
Qed.
Print Assumptions c127_repeated_refuted.
