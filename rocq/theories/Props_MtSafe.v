(** Property theorems C114: networks never fail on the multi-threaded backend. *)
From Verif Require Import Base ListLemmas Messaging_Model Messaging_Spec Messaging_Proofs Messaging_Proofs2 Messaging_Proofs3 Projection_Model Projection_Spec Projection_Proofs
  Delta_Model Delta_Spec Delta_Proofs Neuron_Model Neuron_Proofs2 Pipeline_Model Pipeline_Spec Pipeline_Proofs Pipeline_Proofs2 Stdp_Model Additive_Model Additive_Proofs Train_Model
  Net_Model Net_Spec Net_Proofs Net_Proofs2 Net_Proofs3 Net_Proofs4 Net_Proofs5 Props_Net Props_Net2 Props_Sched Load_Model Load_Spec Load_Proofs Load_Proofs5 Props_Load Safe_Spec Safe_Proofs Safe_Proofs2 Props_Safe
  Mt_Model Mt_Spec Mt_Proofs Mt_Proofs2 Sched_Model MtNet_Model MtNet_Spec MtNet_Proofs MtNet_Proofs2 Props_MtNet MtSafe_Spec MtSafe_Proofs.

(** *** C114 *)
(** After any number of steps of a wired network on the multi-threaded backend, under
    any schedules and part sizes, and any outside calls: the next step returns, under
    every schedule, as long as impacts from outside fit and, if there are blocking
    synapses, no spike message from outside names a neuron twice. *)
Theorem c114_next_step pow2f extra pops projs pp pj turns k tr ops b x bs s :
  sound_network pops projs -> wired extra pops projs -> Forall loadable projs -> weights_valid projs -> (0 < pp < two64)%N ->
  Forall (fun c => forallb outside (tu_ops (fst c)) = true /\ nsched_ok pp pj pops projs (snd c)) turns ->
  mt_net_run pow2f extra pops projs turns k tr ->
  (forall t r, nth_error tr t = Some r -> Forall (harmless extra pops projs) (r_ext (nr_msgs r)) /\ Forall (single projs) (r_ext (nr_msgs r))) ->
  forallb outside ops = true -> run (nb_bus k) ops = Ret (b, x) ->
  Forall (harmless extra pops projs) (pending b) -> Forall (single projs) (pending b) -> nsched_ok pp pj pops projs s ->
  exists k' r, mt_nbackend_step pow2f s (pending b) (mkNB b (nb_pops k) (learn_all bs (nb_projs k)) (nb_step k)) = Ret (k', r).
Proof.
  intros Hs Hw Hl Hv Hpp Hf (k0 & Hi & Hr) Hh Hops Hb Hpe Hsi Hsch.
  destruct (mt_safe_run pow2f extra pops projs pp pj Hs Hw Hv Hpp turns [] k0 k tr (mt_safe_init extra pops projs Hs Hw k0 Hl Hi) Hf Hr Hh) as (prev & Hsa).
  pose proof (mt_safe_ops extra pops projs prev k ops b x bs Hsa Hops Hb) as Hsa1.
  destruct (mt_safe_step pow2f extra pops projs pp pj Hs Hw Hv Hpp s prev _ Hsa1 Hsch Hpe Hsi) as (k' & r & E & _). eauto.
Qed.
Print Assumptions c114_next_step.

(** A network left alone runs for any number of steps under any schedules. *)
Lemma received_pending b b' x : exec b (OReceiveAll 0) = Ret (b', x) -> pending b = [] -> pending b' = [].
Proof.
  rewrite (exec_ep (OReceiveAll 0) 0 b eq_refl). unfold on_ep. destruct (ep_find 0 b) as [e|] eqn:Ee; [|discriminate].
  cbn [ep_effect]. rewrite receive_all_eq. cbn [obind]. intros H. injection H as <- _. unfold pending, ep_put. cbn [b_route b_eps].
  intros Hp. apply app_eq_nil in Hp as [H1 H2]. rewrite H1. cbn [app]. clear H1.
  assert (He : In e (b_eps b)) by (unfold ep_find in Ee; apply find_some in Ee; apply Ee).
  assert (Hal : forall z, In z (b_eps b) -> e_alive z = true -> e_send z = []).
  { intros z Hz Ha. assert (Hin : In z (filter e_alive (b_eps b))) by now apply filter_In. clear -H2 Hin.
    induction (filter e_alive (b_eps b)) as [|y l IH]; [destruct Hin|]. cbn [flat_map] in H2. apply app_eq_nil in H2 as [A B]. destruct Hin as [<-|Hin]; auto. }
  clear H2 Ee. generalize dependent (b_eps b). intros l He Hal.
  assert (Hall : forall z, In z (map (fun y => if Nat.eqb (e_id y) (e_id (with_recv_subs e [] (map (deliver_many (rev (e_recv e))) (e_subs e)))) then with_recv_subs e [] (map (deliver_many (rev (e_recv e))) (e_subs e)) else y) l) ->
    e_alive z = true -> e_send z = []).
  { intros z Hz Ha. apply in_map_iff in Hz as (y & <- & Hy). destruct (Nat.eqb _ _); [|now apply Hal]. apply (Hal e He). exact Ha. }
  revert Hall. generalize (map (fun y => if Nat.eqb (e_id y) (e_id (with_recv_subs e [] (map (deliver_many (rev (e_recv e))) (e_subs e)))) then with_recv_subs e [] (map (deliver_many (rev (e_recv e))) (e_subs e)) else y) l).
  clear. intros l Hall. induction l as [|y l IH]; [reflexivity|]. cbn [filter]. destruct (e_alive y) eqn:Ea; cbn [flat_map].
  - rewrite (Hall y (or_introl eq_refl) Ea). cbn [app]. apply IH. intros z Hz. apply Hall. now right.
  - apply IH. intros z Hz. apply Hall. now right.
Qed.
Lemma mt_step_pending pow2f s ext k k' r : mt_nbackend_step pow2f s ext k = Ret (k', r) -> pending (nb_bus k') = [].
Proof.
  unfold mt_nbackend_step. intros Es.
  destruct (unload_all 1 _ _) as [x| |]; cbn [obind] in Es; try discriminate. destruct (mt_fronts _ _ _ _) as [jobs| |]; cbn [obind] in Es; try discriminate.
  destruct (train_at _ _ _ _ _) as [y| |]; cbn [obind] in Es; try discriminate. destruct (send_all _ _) as [b1| |]; cbn [obind] in Es; try discriminate.
  destruct (route_receive_own _) as [b2| |]; cbn [obind] in Es; try discriminate. destruct (unload_all 0 _ _) as [z| |]; cbn [obind] in Es; try discriminate.
  destruct (mt_nprojs _ _ _ _) as [v| |] eqn:Ev; cbn [obind] in Es; try discriminate. destruct (send_all (snd v) _) as [b3| |]; cbn [obind] in Es; try discriminate.
  destruct (route_receive_own b3) as [b4| |] eqn:Er; cbn [obind] in Es; try discriminate. injection Es as <- _. cbn [nb_bus].
  unfold route_receive_own in Er. destruct (route_drains b3) as (b5 & E5 & P5 & _). rewrite E5 in Er. cbn [obind fst] in Er.
  destruct (exec b5 (OReceiveAll 0)) as [[b6 x6]| |] eqn:E6; cbn [obind fst] in Er; try discriminate. injection Er as <-. eapply received_pending; eauto.
Qed.
Theorem c114_alone pow2f extra pops projs pp pj (learns : list (list bool * nsched)) :
  sound_network pops projs -> wired extra pops projs -> Forall loadable projs -> weights_valid projs -> (0 < pp < two64)%N ->
  Forall (fun c => nsched_ok pp pj pops projs (snd c)) learns ->
  exists k tr, mt_net_run pow2f extra pops projs (map (fun c => (mkTurn [] (fst c), snd c)) learns) k tr.
Proof.
  intros Hs Hw Hl Hv Hpp Hf. destruct (nbackend_init_ready extra pops projs Hs) as (k & E & _).
  assert (Hgen : forall learns prev k, Forall (fun c => nsched_ok pp pj pops projs (snd c)) learns -> mt_safe extra pops projs prev k -> pending (nb_bus k) = [] ->
    exists k' tr, mt_nbackend_run pow2f (map (fun c => (mkTurn [] (fst c), snd c)) learns) k = Ret (k', tr)).
  { clear k E learns Hf. induction learns as [|[c s] learns IH]; intros prev k Hf Hsa Hpe; cbn [map mt_nbackend_run tu_ops tu_learn run obind fst snd]; [eauto|].
    apply Forall_cons_iff in Hf as [H1 Hf]. cbn [snd] in H1.
    pose proof (mt_safe_ops extra pops projs prev k [] (nb_bus k) [] c Hsa eq_refl eq_refl) as Hsa1.
    destruct (mt_safe_step pow2f extra pops projs pp pj Hs Hw Hv Hpp s prev _ Hsa1 H1) as (k2 & r & Es & _ & Hsa2); [cbn [nb_bus]; rewrite Hpe; constructor|cbn [nb_bus]; rewrite Hpe; constructor|].
    cbn [nb_bus] in Es. rewrite Es. cbn [obind fst snd].
    destruct (IH _ k2 Hf Hsa2 (mt_step_pending _ _ _ _ _ _ Es)) as (k' & tr & E). rewrite E. cbn [obind fst snd]. eauto. }
  destruct (Hgen learns [] k Hf (mt_safe_init extra pops projs Hs Hw k Hl E) (init_pending extra pops projs k E)) as (k' & tr & Er).
  exists k', tr, k. auto.
Qed.
Print Assumptions c114_alone.

(** The network of Props_Sched meets the hypotheses. *)
Example c114_case : sound_network Props_Sched.sc_pops Props_Sched.sc_projs /\ wired sc_extra Props_Sched.sc_pops Props_Sched.sc_projs /\
  Forall loadable Props_Sched.sc_projs /\ weights_valid Props_Sched.sc_projs /\ nsched_ok 1 1 Props_Sched.sc_pops Props_Sched.sc_projs ex_sched.
Proof.
  split; [apply sc_sound|]. split; [|split; [repeat constructor|split; [repeat constructor|exact ex_sched_ok]]]. split.
  - intros u a Hu. cbn [Props_Sched.sc_pops In] in Hu. intuition (match goal with H : (_, _) = (_, _) |- _ => injection H as <- <- end; exact I).
  - intros u a w s Hu Hw Hr Hs. cbn [Props_Sched.sc_pops Props_Sched.sc_projs In] in *.
    repeat match goal with H : _ \/ _ |- _ => destruct H as [H|H] | H : False |- _ => destruct H end;
    try (injection Hu as <- <-); subst w; cbn in Hs;
    (destruct Hr as [[_ Hr]|Hr]; [cbn in Hr; try discriminate Hr|discriminate Hr]);
    repeat match goal with H : _ \/ _ |- _ => destruct H as [H|H] | H : False |- _ => destruct H end; subst s; cbn; repeat split; auto; intros; discriminate.
Qed.

(** The condition on repeated neurons is needed: this backend multiplies the weight by
    the number of repetitions.  A BLIFAT neuron behind a blocking synapse of weight
    [2^62]; a message from outside names the source twice: the single-threaded backend
    goes on, here the blocking period does not fit its type. *)
Definition dup_pops : list (uid * npop) := [(1%N, NPlain (PopBlifat [(fst (fst ex_neuron), snd (fst ex_neuron))]))].
Definition dup_projs : list nproj := [mkNP 21 0 1 true (NDelta (gen1 (mkSyn (mkDP (f_of_Z (2 ^ 62)) 1 BLOCKING) 0 0))) []].
Definition dup_turns : list turn := [mkTurn [OCreate; OSend 1 (SpikeMsg 9 0 [0; 0]%N)] []; mkTurn [] []].
Definition one_part : list (nat * nat) := [(0, 1)]%nat.
Definition dup_sched : nsched := mkNSched [(one_part, one_part)] [0]%nat [one_part].
Theorem c114_repeated_refuted :
  sound_network dup_pops dup_projs /\ wired chain_extra dup_pops dup_projs /\ Forall loadable dup_projs /\ weights_valid dup_projs /\
  nsched_ok 1 1 dup_pops dup_projs dup_sched /\
  (exists x, start_run chain_extra dup_pops dup_projs dup_turns = Ret x) /\
  obind (nbackend_init chain_extra dup_pops dup_projs) (mt_nbackend_run one1 (map (fun u => (u, dup_sched)) dup_turns)) = UB.
Proof.
  split.
  { split; cbn [dup_pops dup_projs map fst np_uid].
    - repeat constructor; cbn; intuition discriminate.
    - repeat constructor; cbn; intuition discriminate.
    - repeat constructor; cbn [np_kind sound_kind]; (eexists _, true, [], []; split; [right; split; [unfold gen1; eauto|reflexivity]|]; split; [reflexivity|exact I]).
    - repeat constructor.
    - repeat constructor; cbn; discriminate. }
  split.
  { split.
    - intros u a Hu. cbn [dup_pops In] in Hu. destruct Hu as [Hu|[]]. injection Hu as <- <-. exact I.
    - intros u a w s Hu Hw Hr Hs. cbn [dup_pops dup_projs In] in *. destruct Hu as [Hu|[]]. injection Hu as <- <-. destruct Hw as [<-|[]].
      cbn [delta_synapses np_kind gen1 p_syn In] in Hs. destruct Hs as [<-|[]]. cbn [sy_to sy_params d_type d_weight size length takes]. split; [reflexivity|].
      split; [intros _; eexists; vm_compute; reflexivity|]. intros _. eexists. reflexivity. }
  split; [repeat constructor|]. split; [repeat constructor|]. split.
  { assert (Ho : any_order 1 1 one_part) by (exists [(0, 1)]%N, 2; split; [reflexivity|apply Permutation_refl]).
    split; [|split]; [repeat constructor; exact Ho|apply Permutation_refl|repeat constructor; exact Ho]. }
  split; [eexists; vm_compute; reflexivity|]. vm_compute. reflexivity.
Qed.
Print Assumptions c114_repeated_refuted.
