(** Initial states, and a device without populations and projections. *)
From Verif Require Import Base ListLemmas Messaging_Model Messaging_Spec Messaging_Proofs Messaging_Proofs2 Projection_Model Projection_Proofs
  Delta_Model Delta_Spec Delta_Proofs Neuron_Model Pipeline_Model Pipeline_Spec Pipeline_Proofs Pipeline_Proofs2 Stdp_Model Additive_Model Train_Model
  Net_Model Net_Spec Net_Proofs Net_Proofs2 Net_Proofs3 Net_Proofs4 Load_Model Load_Spec Load_Proofs Load_Proofs2 Load_Proofs3 Load_Proofs4
  GpuStep_Model.

Lemma init_good extra pops projs k : nbackend_init extra pops projs = Ret k ->
  good (nS0 extra projs) (nb_bus k) /\ own_sent (nb_bus k) = [] /\ (forall ty r, waiting (nb_bus k) ty r = []) /\
  nb_pops k = pops /\ nb_projs k = projs /\ nb_step k = 0%N.
Proof.
  unfold nbackend_init.
  destruct (init_run (extra_ops extra ++ ninit_ops projs) (create_endpoint bus_init) (mkEp 0 true [] [] [] [])) as (b & tr & e & E & Hi & He & Hc & Hr & Hse & Hm); try reflexivity.
  - eapply (ids_ok_exec bus_init OCreate); [apply ids_ok_init|reflexivity].
  - intros k0 s. cbn [e_subs sub_find]. discriminate.
  - intros k0 s. cbn [e_subs sub_find]. discriminate.
  - apply Forall_app. split; [|apply ninit_ops_subscribe]. unfold extra_ops. apply Forall_map, Forall_forall. intros s _. eauto.
  - assert (E' : run bus_init (OCreate :: extra_ops extra ++ ninit_ops projs) = Ret (b, (OCreate, OutUnit) :: tr)).
    { cbn [run exec obind fst snd]. rewrite E. reflexivity. }
    rewrite E'. cbn [obind fst]. intros H. injection H as <-. cbn [nb_bus nb_pops nb_projs nb_step]. split; [|split; [|split; [|auto]]].
    + split; [exact Hi|exists e; auto|]. intros ty r. apply (senders_run _ _ _ 0 ty r E').
    + unfold own_sent. now rewrite He.
    + intros ty r. unfold waiting. rewrite He. destruct (sub_find _ _) eqn:Es; [eauto|reflexivity].
Qed.
Lemma init_ready_ok extra pops projs k : Forall nproj_ok projs -> Forall (fun e => (N.of_nat (size (snd e)) <= two32)%N) pops ->
  nbackend_init extra pops projs = Ret k -> nready extra projs (map fst pops) [] k /\ nb_pops k = pops /\ nb_projs k = projs /\ nb_step k = 0%N.
Proof.
  intros Hk Hs H. destruct (init_good _ _ _ _ H) as (G & O & W & E1 & E2 & E3). split; [|auto]. rewrite <- E1 in *. rewrite <- E2 in *.
  split; auto; intros; apply W.
Qed.
(** A projection nobody subscribed. *)
Lemma nobody extra projs u : ~ In u (map np_uid projs) -> ~ In (0%nat, u) (map (fun s => (sb_type s, sb_receiver s)) extra) ->
  sender_list (nS0 extra projs 0 u) = [].
Proof.
  intros H1 H2. destruct (sender_list (nS0 extra projs 0 u)) as [|x l] eqn:E; [reflexivity|exfalso].
  assert (Hm : mem x (sender_list (nS0 extra projs 0 u)) = true) by (rewrite E; apply mem_In; now left).
  apply nS0_mem in Hm as [H|H].
  - unfold ninit_from in H. destruct H as (w & Hin & [(_ & Hr & _)|(Hx & _)]); [|discriminate]. apply H1. rewrite <- Hr. now apply in_map.
  - apply subscribed_iff in H as (s & Hs & H). apply H2. apply in_map_iff. exists s. intuition congruence.
Qed.

(** ** CUDA *)
Lemma obind_ret {A B} (e : outcome A) (f : A -> outcome B) y : obind e f = Ret y -> exists x, e = Ret x /\ f x = Ret y.
Proof. destruct e; cbn [obind]; intros H; try discriminate. eauto. Qed.
Lemma empty_step sz o order d h x : gd_pops d = [] -> gd_projs d = [] -> g_step sz o order d h = Ret x ->
  gd_pops (fst (fst x)) = [] /\ gd_projs (fst (fst x)) = [] /\ gr_pout (snd x) = [] /\ gr_out (snd x) = [].
Proof.
  intros Hp Hq H. unfold g_step in H. rewrite Hp, Hq in H. cbv zeta in H. cbn [g_populations g_projections g_routes obind fst snd] in H.
  repeat match type of H with
  | obind _ _ = Ret _ => apply obind_ret in H as (? & _ & H); cbn [g_populations g_projections g_routes obind fst snd] in H
  end.
  injection H as <-. auto.
Qed.
Lemma empty_steps sz : forall turns d h x, gd_pops d = [] -> gd_projs d = [] -> g_steps sz turns d h = Ret x ->
  Forall (fun r => gr_pout r = [] /\ gr_out r = []) (snd x).
Proof.
  induction turns as [|t turns IH]; intros d h x Hp Hq H; cbn [g_steps] in H; [injection H as <-; constructor|].
  apply obind_ret in H as (y & _ & H). apply obind_ret in H as (z & Hz & H). apply obind_ret in H as (w & Hw & H). injection H as <-.
  destruct (empty_step _ _ _ _ _ _ Hp Hq Hz) as (H1 & H2 & H3). cbn [snd]. constructor; [exact H3|]. exact (IH _ _ _ H1 H2 Hw).
Qed.
