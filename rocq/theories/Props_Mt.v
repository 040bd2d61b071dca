(** Property theorem C70: the step pipeline of the multi-threaded backend. *)
From Verif Require Import Base ListLemmas Messaging_Model Messaging_Spec Projection_Model Projection_Spec Delta_Model Delta_Spec
  Delta_Proofs Neuron_Model Pipeline_Model Pipeline_Spec Pipeline_Proofs Pipeline_Proofs2 Props_Delta Props_Pipeline
  Mt_Model Mt_Spec Mt_Proofs Mt_Proofs2.

(** *** C70 *)
(** Every network, every list of subscriptions made before the start, every
    sequence of calls made from outside between the steps, every part sizes and,
    in every step, every schedule: every population takes in exactly, and in this
    order, the impact messages meant for it among those that waited at the start
    of the previous step and those sent by the projections in the previous step;
    every projection takes in exactly the spike messages meant for it among those
    sent by the populations in the same step and those waiting at its start. *)
Theorem c70_dataflow extra pops projs pp pj calls k0 k tr :
  NoDup (map fst pops) -> NoDup (map (fun w => ph_uid (wp_head w)) projs) ->
  Forall (fun w => wp_queue w = []) projs -> (0 < pp < two64)%N ->
  Forall (fun p => (apop_size (snd p) <= two32)%N) pops ->
  Forall (fun c => forallb outside (fst c) = true /\ sched_ok pp pj pops projs (snd c)) calls ->
  backend_init extra pops projs = Ret k0 -> mt_backend_run calls k0 = Ret (k, tr) ->
  length tr = length calls /\
  forall t r, nth_error tr t = Some r ->
    (forall i u a, nth_error pops i = Some (u, a) ->
       nth_error (r_pop_in r) i = Some (filter (to_population (map wp_head projs) extra u) (late tr t))) /\
    (forall j w, nth_error projs j = Some w ->
       nth_error (r_proj_in r) j = Some (filter (to_projection extra (wp_head w)) (sent_msgs (r_pop_out r) ++ r_ext r))).
Proof.
  intros Hu Hp Hq Hpp Hsz Hc Hi Hr. destruct (backend_init_ready extra pops projs Hq) as (k1 & E & E1 & E2 & E3 & R).
  pose proof (backend_init_front _ _ _ _ Hi) as F. rewrite Hi in E. injection E as <-.
  rewrite <- E1 in Hc, Hsz. rewrite <- E2 in Hc.
  destruct (mt_run_ind extra projs (map fst pops) pp pj Hp Hu Hpp calls [] k0 k tr R F Hc Hsz Hr) as (L & _ & IP & IJ & _).
  rewrite E1 in *. rewrite E2 in *.
  split; [exact L|]. intros t r Ht. split.
  - intros i u a Ha. rewrite (IP t r i u a Ht Ha). destruct t; reflexivity.
  - intros j w Hj. exact (IJ t r j w Ht Hj).
Qed.
Print Assumptions c70_dataflow.

(** What a population does is its single-threaded run on its own over the messages
    it took in: the same states, failures and spikes; only the order of the neurons
    inside a spike message depends on the schedule.  What a projection does is its
    single-threaded run over the first message of every step (C29), up to the order
    of the impacts inside a message and the two population identifiers of it (C27),
    if no message from outside repeats a neuron. *)
Theorem c70_alone extra pops projs pp pj calls k0 k tr :
  NoDup (map fst pops) -> NoDup (map (fun w => ph_uid (wp_head w)) projs) ->
  Forall (fun w => wp_queue w = []) projs -> (0 < pp < two64)%N -> (0 < pj < two64)%N ->
  Forall (fun p => (apop_size (snd p) <= two32)%N) pops ->
  Forall (fun c => forallb outside (fst c) = true /\ sched_ok pp pj pops projs (snd c)) calls ->
  backend_init extra pops projs = Ret k0 -> mt_backend_run calls k0 = Ret (k, tr) ->
  (forall i u a, nth_error pops i = Some (u, a) -> exists ins outs outs0 a',
     column i r_pop_in tr = map Some ins /\ column i r_pop_out tr = map Some outs /\
     apop_run u 0 ins a = Ret (a', outs0) /\ Forall2 same_spikes outs0 outs /\ nth_error (k_pops k) i = Some (u, a')) /\
  ((N.of_nat (length tr) < two64)%N -> (forall r, In r tr -> Forall distinct_spikes (r_ext r)) ->
   forall j w, nth_error projs j = Some w -> sound_projection (wp_proj w) ->
     Forall (fun s => valid_binary 24 128 (d_weight (sy_params s)) = true) (p_syn (wp_proj w)) ->
     (N.of_nat (length (p_syn (wp_proj w))) <= 2 ^ 63)%N -> exists ins outs outs0,
     column j r_proj_in tr = map Some ins /\ column j r_proj_out tr = map Some outs /\
     run_projection (wp_head w) 0 (map (fun ms => mkIn (p_syn (wp_proj w)) (firstn 1 ms)) ins) (wp_proj w) [] = Ret outs0 /\
     Forall2 same_output outs0 outs).
Proof.
  intros Hu Hp Hq Hpp Hpj Hsz Hc Hi Hr. destruct (backend_init_ready extra pops projs Hq) as (k1 & E & E1 & E2 & E3 & R).
  pose proof (backend_init_front _ _ _ _ Hi) as F. rewrite Hi in E. injection E as <-.
  rewrite <- E1 in Hc, Hsz. rewrite <- E2 in Hc.
  destruct (mt_run_ind extra projs (map fst pops) pp pj Hp Hu Hpp calls [] k0 k tr R F Hc Hsz Hr) as (L & ID & IP & IJ & CP & CJ).
  rewrite E1, E3 in *. rewrite E2 in *. split; [exact CP|].
  intros Hlen Hd j w Hj Hsp Hv Hn. destruct (CJ j w Hj) as (ins & ords & outs & C1 & C2 & C3 & C4 & C5).
  rewrite Forall_forall in Hq. rewrite (Hq w (nth_error_In _ _ Hj)) in C5.
  assert (Hli : length ins = length tr).
  { rewrite <- (map_length Some ins), <- C1. unfold column. apply map_length. }
  destruct (mt_run_same (wp_head w) pj (p_syn (wp_proj w)) Hpj Hn Hv (wp_proj w) ins ords Hsp eq_refl C3 C4) as (outs0 & E0 & S0).
  - apply Forall_forall. intros ms Hms. apply In_nth_error in Hms as (t & Ht).
    destruct (nth_error tr t) as [r|] eqn:Er.
    2:{ exfalso. apply nth_error_None in Er. assert (nth_error ins t <> None) as H by congruence. apply nth_error_Some in H. lia. }
    pose proof (column_map j r_proj_in tr ins t r C1 Er) as H. rewrite Ht, (IJ t r j w Er Hj) in H. injection H as <-.
    assert (Hin : forall m, In m (filter (to_projection extra (wp_head w)) (sent_msgs (r_pop_out r) ++ r_ext r)) ->
                  exists s t idx, m = SpikeMsg s t idx /\ NoDup idx).
    { intros m Hm. apply filter_In in Hm as (Hm & Hto). destruct m as [s0 t0 idx|]; [|discriminate]. exists s0, t0, idx. split; [reflexivity|].
      apply nth_error_In in Er. apply in_app_or in Hm as [Hm|Hm].
      - specialize (ID r Er). rewrite Forall_forall in ID. exact (ID _ Hm).
      - specialize (Hd r Er). rewrite Forall_forall in Hd. exact (Hd _ Hm). }
    destruct (filter _ _) as [|m l]; [left; reflexivity|]. right. cbn [firstn].
    destruct (Hin m (or_introl eq_refl)) as (s0 & t0 & idx & -> & Hnd). eauto 6.
  - lia.
  - exists ins, outs, outs0. rewrite C5 in S0. auto.
Qed.
Print Assumptions c70_alone.

(** An impact message sent to a population from outside while the backend is
    between two steps is taken in one step later than by the single-threaded
    backend, which takes it in in the step that begins next (C44). *)
Theorem c70_outside_impacts extra pops projs pp pj calls k0 k tr t r r' i u a m :
  NoDup (map fst pops) -> NoDup (map (fun w => ph_uid (wp_head w)) projs) ->
  Forall (fun w => wp_queue w = []) projs -> (0 < pp < two64)%N ->
  Forall (fun p => (apop_size (snd p) <= two32)%N) pops ->
  Forall (fun c => forallb outside (fst c) = true /\ sched_ok pp pj pops projs (snd c)) calls ->
  backend_init extra pops projs = Ret k0 -> mt_backend_run calls k0 = Ret (k, tr) ->
  nth_error tr t = Some r -> nth_error tr (S t) = Some r' -> nth_error pops i = Some (u, a) ->
  In m (r_ext r) -> to_population (map wp_head projs) extra u m = true ->
  exists ms, nth_error (r_pop_in r') i = Some ms /\ In m ms.
Proof.
  intros Hu Hp Hq Hpp Hsz Hc Hi Hr Ht Ht' Ha Hm Hto.
  destruct (c70_dataflow extra pops projs pp pj calls k0 k tr Hu Hp Hq Hpp Hsz Hc Hi Hr) as (_ & H).
  destruct (H (S t) r' Ht') as (H1 & _). eexists. split; [exact (H1 i u a Ha)|].
  apply filter_In. split; [|exact Hto]. cbn [late]. rewrite Ht. apply in_or_app. now left.
Qed.
Print Assumptions c70_outside_impacts.

(** The two backends on the same network with the same calls: a spike from an
    input channel takes the same time, an impact from outside one step more; here
    the first population fires in step 0 on one backend and in step 1 on the other. *)
Definition ex_calls (c : op) : list (list op) := [[OCreate; c]; []; []].
Definition ex_sched : sched := mkSched [([(0, 1)], [(0, 1)]); ([(1, 2); (0, 1)], [(0, 1); (1, 2)])] [[(0, 1)]; [(0, 1)]].
Definition ex_extra : list subscr := [mkSubscr 0 11 [9]%N; mkSubscr 1 1 [8]%N].
Definition ex_st (c : op) : outcome (list (list (option message))) :=
  obind (backend_init ex_extra ex_pops [ex_p1; ex_p2]) (fun k => obind (backend_run (ex_calls c) k) (fun r => Ret (map r_pop_out (snd r)))).
Definition ex_mt (c : op) : outcome (list (list (option message))) :=
  obind (backend_init ex_extra ex_pops [ex_p1; ex_p2]) (fun k =>
  obind (mt_backend_run (map (fun o => (o, ex_sched)) (ex_calls c)) k) (fun r => Ret (map r_pop_out (snd r)))).
Definition ex_impact : message := ImpactMsg 8 0 0 1 true [mkImpact 0 (f_of_Z 3) EXCITATORY 0 0].
Theorem c70_same_as_single_threaded_refuted :
  sched_ok 1 1 ex_pops [ex_p1; ex_p2] ex_sched /\
  ex_st (OSend 1 ex_impact) = Ret [[Some (SpikeMsg 1 0 [0]%N); None]; [None; None]; [None; Some (SpikeMsg 2 2 [1]%N)]] /\
  ex_mt (OSend 1 ex_impact) = Ret [[None; None]; [Some (SpikeMsg 1 1 [0]%N); None]; [None; None]].
Proof.
  split; [|split; vm_compute; reflexivity]. split.
  - repeat constructor; cbn [fst snd]; try (exists [(0, 1)]%N, 1; split; [reflexivity|apply Permutation_refl]);
      exists [(0, 1); (1, 2)]%N, 2; (split; [reflexivity|]); [apply perm_swap|apply Permutation_refl].
  - repeat constructor; exists [(0, 1)]%N, 1; (split; [reflexivity|apply Permutation_refl]).
Qed.
Print Assumptions c70_same_as_single_threaded_refuted.
Example c70_case :
  ex_mt (OSend 1 (SpikeMsg 9 0 [0]%N)) = Ret [[None; None]; [Some (SpikeMsg 1 1 [0]%N); None]; [None; None]] /\
  ex_st (OSend 1 (SpikeMsg 9 0 [0]%N)) = ex_mt (OSend 1 (SpikeMsg 9 0 [0]%N)) /\
  Forall (fun c => forallb outside c = true) (ex_calls (OSend 1 (SpikeMsg 9 0 [0]%N))) /\
  Forall (fun p => (apop_size (snd p) <= two32)%N) ex_pops.
Proof. split; [vm_compute; reflexivity|]. split; [vm_compute; reflexivity|]. split; repeat constructor; vm_compute; congruence. Qed.
