(** Property theorems C113: networks that never fail. *)
From Verif Require Import Base ListLemmas Messaging_Model Messaging_Spec Messaging_Proofs Messaging_Proofs2 Projection_Model Projection_Spec Projection_Proofs
  Delta_Model Delta_Spec Delta_Proofs Neuron_Model Neuron_Proofs2 Pipeline_Model Pipeline_Spec Pipeline_Proofs Pipeline_Proofs2 Stdp_Model Additive_Model Additive_Proofs Train_Model
  Net_Model Net_Spec Net_Proofs Net_Proofs2 Net_Proofs3 Net_Proofs4 Net_Proofs5 Props_Net Props_Net2 Load_Model Load_Spec Load_Proofs Load_Proofs5 Props_Load Safe_Spec Safe_Proofs Safe_Proofs2.

(** *** C113 *)
(** After any number of steps of a wired network, and any outside calls, as long as the
    impacts sent from outside fit: the next step returns. *)
Theorem c113_next_step pow2f expf extra pops projs turns k tr ops b x bs :
  sound_network pops projs -> wired extra pops projs ->
  Forall (fun u => forallb outside (tu_ops u) = true) turns -> net_run pow2f expf extra pops projs turns k tr ->
  (forall t r, nth_error tr t = Some r -> Forall (harmless extra pops projs) (r_ext (nr_msgs r))) ->
  forallb outside ops = true -> run (nb_bus k) ops = Ret (b, x) -> Forall (harmless extra pops projs) (pending b) ->
  exists k' r, nbackend_step pow2f expf (pending b) (mkNB b (nb_pops k) (learn_all bs (nb_projs k)) (nb_step k)) = Ret (k', r).
Proof.
  intros Hs Hw Hf (k0 & Hi & Hr) Hh Hops Hb Hpe.
  destruct (safe_run pow2f expf extra pops projs Hs Hw turns [] k0 k tr (safe_init extra pops projs Hs Hw k0 Hi) Hf Hr Hh) as (prev & Hsa).
  pose proof (safe_ops extra pops projs prev k ops b x bs Hsa Hops Hb) as Hsa1.
  destruct (safe_step pow2f expf extra pops projs Hs Hw prev _ Hsa1 Hpe) as (k' & r & E & _). eauto.
Qed.
Print Assumptions c113_next_step.
Lemma spikes_harmless extra pops projs l : Forall (fun m => msg_type m = 0) l -> Forall (harmless extra pops projs) l.
Proof. apply Forall_impl. intros m Hm u a _. destruct m; [discriminate|discriminate Hm]. Qed.
(** Spikes from outside, whatever neurons they name, never make a step fail. *)
Theorem c113_any_spikes pow2f expf extra pops projs turns k tr ops b x bs :
  sound_network pops projs -> wired extra pops projs ->
  Forall (fun u => forallb outside (tu_ops u) = true) turns -> net_run pow2f expf extra pops projs turns k tr ->
  (forall t r, nth_error tr t = Some r -> Forall (fun m => msg_type m = 0) (r_ext (nr_msgs r))) ->
  forallb outside ops = true -> run (nb_bus k) ops = Ret (b, x) -> Forall (fun m => msg_type m = 0) (pending b) ->
  exists k' r, nbackend_step pow2f expf (pending b) (mkNB b (nb_pops k) (learn_all bs (nb_projs k)) (nb_step k)) = Ret (k', r).
Proof.
  intros Hs Hw Hf Hr Hh Hops Hb Hpe. eapply c113_next_step; eauto using spikes_harmless.
Qed.
Print Assumptions c113_any_spikes.
(** A network left alone runs for any number of steps, with learning switched at will. *)
Theorem c113_alone pow2f expf extra pops projs learns : sound_network pops projs -> wired extra pops projs ->
  exists k tr, net_run pow2f expf extra pops projs (map (mkTurn []) learns) k tr.
Proof.
  intros Hs Hw. destruct (nbackend_init_ready extra pops projs Hs) as (k & E & _).
  destruct (safe_alone pow2f expf extra pops projs Hs Hw learns [] k (safe_init extra pops projs Hs Hw k E) (init_pending extra pops projs k E)) as (k' & tr & Er).
  exists k', tr, k. auto.
Qed.
Print Assumptions c113_alone.

(** The other way round. *)
Lemma flagged_In i : forall ms, In i (impacts_of ms) -> exists f, In (f, i) (flagged ms).
Proof. intros ms H. rewrite impacts_flagged in H. apply in_map_iff in H as ([f j] & E & H). cbn [snd] in E. subst j. eauto. Qed.
Lemma flagged_used {A} (imp : bool -> A -> impact -> outcome A) : forall l ns ns', impact_flagged imp l ns = Ret ns' ->
  Forall (fun e => N.to_nat (i_post (snd e)) < length ns /\ exists n n', imp (fst e) n (snd e) = Ret n') l.
Proof.
  induction l as [|[f i] l IH]; intros ns ns' H; cbn [impact_flagged] in H; [constructor|].
  destruct (update_at (N.to_nat (i_post i)) (fun n => imp f n i) ns) as [n1| |] eqn:E; cbn [obind] in H; try discriminate. constructor.
  - apply (update_at_spec (fun x => x) (fun a _ => Ret a) (fun a => (a, true))) in E. destruct E as (x & x' & H1 & H2 & _). cbn [fst snd]. split; [apply nth_error_Some; congruence|eauto].
  - rewrite <- (update_at_len _ _ _ _ E). exact (IH _ _ H).
Qed.
Lemma front_used {A} pre imp post ms (ns : list A) r : stdp_front pre imp post ms ns = Ret r ->
  Forall (fun e => N.to_nat (i_post (snd e)) < length ns /\ exists n n', imp (fst e) n (snd e) = Ret n') (flagged ms).
Proof.
  unfold stdp_front. rewrite (pre_part_all pre (imp true) post). intros H.
  destruct (impact_flagged imp (flagged ms) (map pre ns)) as [n1| |] eqn:E; cbn [obind] in H; try discriminate.
  apply flagged_used in E. rewrite map_length in E. exact E.
Qed.
Lemma plain_used {A} pre imp post u step ms (ns : list A) r : population_step pre imp post u step ms ns = Ret r ->
  Forall (fun e => N.to_nat (i_post (snd e)) < length ns /\ exists n n', imp n (snd e) = Ret n') (flagged ms).
Proof.
  rewrite (population_step_eq pre imp post), impacts_flagged, impact_plain. intros H.
  destruct (impact_flagged _ (flagged ms) (map pre ns)) as [n1| |] eqn:E; cbn [obind] in H; try discriminate.
  apply flagged_used in E. rewrite map_length in E. exact E.
Qed.
Lemma lif_used n i n' : lif_impact n i = Ret n' -> i_type i = EXCITATORY \/ i_type i = INHIBITORY_CURRENT.
Proof. unfold lif_impact. destruct (i_type i); auto; discriminate. Qed.
Lemma bl_used n i n' : bl_impact n i = Ret n' -> i_type i = BLOCKING -> exists z, to_int64 (i_value i) = Ret z.
Proof. unfold bl_impact. intros H E. rewrite E in H. apply obind_ret in H as (z & H & _). eauto. Qed.
Lemma al_used n i n' : al_impact n i = Ret n' -> i_type i <> INHIBITORY_CONDUCTANCE.
Proof. unfold al_impact. intros H E. rewrite E in H. discriminate. Qed.
(** When a step returned, every impact a population got was for one of its neurons and
    of a type it knows. *)
Theorem c113_nothing_stray pow2f expf extra pops projs turns k tr t r i u a ms m imp :
  sound_network pops projs -> Forall (fun u => forallb outside (tu_ops u) = true) turns ->
  net_run pow2f expf extra pops projs turns k tr ->
  nth_error tr t = Some r -> nth_error (nr_pops r) i = Some (u, a) -> nth_error (r_pop_in (nr_msgs r)) i = Some ms ->
  In m ms -> In imp (impacts_of [m]) -> tolerated a imp.
Proof.
  intros Hs Hf Hr Ht Hi Hms Hm Himp. destruct (net_run_facts _ _ _ _ _ _ _ _ Hs Hf Hr) as (Hlen & F & _).
  destruct (nth_error turns t) as [tu|] eqn:Etu.
  2:{ apply nth_error_None in Etu. assert (Hx : nth_error tr t <> None) by congruence. apply nth_error_Some in Hx. lia. }
  destruct (F t r tu Ht Etu) as (SF & _ & _). destruct (sf_pops _ _ _ _ _ _ _ _ SF i u a Hi) as (a' & o & H1 & _ & _ & Hp).
  rewrite Hms in H1. injection H1 as ->. match type of Hm with In m ?l => remember l as box eqn:Ebox end. clear Ebox.
  assert (Hin : In imp (impacts_of box)).
  { unfold impacts_of in *. apply in_flat_map. exists m. split; [exact Hm|]. cbn [flat_map] in Himp. now rewrite app_nil_r in Himp. }
  apply flagged_In in Hin as (f & Hin). unfold tolerated.
  assert (Hb : forall A (ns : list A) (Q : bool -> impact -> Prop), Forall (fun e => N.to_nat (i_post (snd e)) < length ns /\ Q (fst e) (snd e)) (flagged box) ->
            (i_post imp < N.of_nat (length ns))%N /\ Q f imp).
  { intros A ns Q H. rewrite Forall_forall in H. specialize (H _ Hin). cbn [fst snd] in H. destruct H. split; [lia|assumption]. }
  clear Himp Hm; destruct a as [[l|l|l]|l|l], a' as [x'|l'|l']; cbn [pop_result apop_step] in Hp; try contradiction; cbn [size].
  - apply obind_ret in Hp as (y & Hp & _). apply plain_used in Hp. destruct (Hb _ l (fun _ i => exists n n', lift_imp lif_impact n i = Ret n') Hp) as (H1 & n & n' & H2).
    split; [exact H1|]. unfold lift_imp in H2. apply obind_ret in H2 as (z & H2 & _). eapply lif_used; eauto.
  - apply obind_ret in Hp as (y & Hp & _). apply plain_used in Hp. destruct (Hb _ l (fun _ i => exists n n', lift_imp bl_impact n i = Ret n') Hp) as (H1 & n & n' & H2).
    split; [exact H1|]. unfold lift_imp in H2. apply obind_ret in H2 as (z & H2 & _). eapply bl_used; eauto.
  - apply obind_ret in Hp as (y & Hp & _). apply plain_used in Hp. destruct (Hb _ l (fun _ i => exists n n', lift_imp al_impact n i = Ret n') Hp) as (H1 & n & n' & H2).
    split; [exact H1|]. unfold lift_imp in H2. apply obind_ret in H2 as (z & H2 & _). eapply al_used; eauto.
  - destruct Hp as (ns & spikes & Hp & _). apply front_used in Hp. destruct (Hb _ l (fun f i => exists n n', s_impact bl_impact f n i = Ret n') Hp) as (H1 & [[p n] x] & n' & H2).
    split; [exact H1|]. unfold s_impact in H2. apply obind_ret in H2 as (z & H2 & _). eapply bl_used; eauto.
  - destruct Hp as (ns & spikes & Hp & _). apply front_used in Hp. destruct (Hb _ l (fun f i => exists n n', s_impact al_impact f n i = Ret n') Hp) as (H1 & [[p n] x] & n' & H2).
    split; [exact H1|]. unfold s_impact in H2. apply obind_ret in H2 as (z & H2 & _). eapply al_used; eauto.
Qed.
Print Assumptions c113_nothing_stray.

(** A network that meets the hypotheses: the one of Props_Net2 (LIF, a BLIFAT
    population with STDP, delta, additive and resource synapses). *)
Example c113_case dh : sound_network net_pops (net_projs dh) /\ wired net_extra net_pops (net_projs dh).
Proof.
  split; [apply net_sound|]. split.
  - intros u a Hu. cbn [net_pops In] in Hu. intuition (match goal with H : (_, _) = (_, _) |- _ => injection H as <- <- end; exact I).
  - intros u a w s Hu Hw Hr Hs. cbn [net_pops net_projs In] in *.
    repeat match goal with H : _ \/ _ |- _ => destruct H as [H|H] | H : False |- _ => destruct H end;
    try (injection Hu as <- <-); subst w; cbn in Hs; destruct Hs as [<-|[]];
    (destruct Hr as [[_ Hr]|Hr]; [cbn in Hr; try discriminate Hr|discriminate Hr]); cbn; repeat split; auto; intros; discriminate.
Qed.
(** Nothing checks that a network is wired.  A synapse of a type its population does
    not know, or one that leads past the last neuron, is loaded without complaint; the
    step in which its impact arrives throws, or writes outside of the population. *)
Definition stray_pops : list (uid * npop) := [(1%N, NPlain (PopLif [ex_lif2]))].
Definition stray_projs (ty : output_type) (to : N) : list nproj :=
  [mkNP 21 0 1 true (NDelta (gen1 (mkSyn (mkDP (f_of_Z 3) 1 ty) 0 to))) []].
Theorem c113_unchecked ty to : sound_network stray_pops (stray_projs ty to).
Proof.
  split; cbn [stray_pops stray_projs map fst np_uid].
  - repeat constructor; cbn; intuition discriminate.
  - repeat constructor; cbn; intuition discriminate.
  - repeat constructor; cbn [np_kind sound_kind]; (eexists _, true, [], []; split; [right; split; [unfold gen1; eauto|reflexivity]|]; split; [reflexivity|exact I]).
  - repeat constructor.
  - repeat constructor; cbn; discriminate.
Qed.
Definition stray_run (ty : output_type) (to : N) (n : nat) : outcome (list (list (option message))) :=
  obind (start_run chain_extra stray_pops (stray_projs ty to) (firstn n (chain_turns true))) (fun x => Ret (map (fun r => r_pop_out (nr_msgs r)) (snd x))).
Theorem c113_stray_refuted :
  stray_run EXCITATORY 0 2 = Ret [[None]; [Some (SpikeMsg 1 1 [0]%N)]] /\
  (forall ty to, stray_run ty to 1 = Ret [[None]]) /\
  stray_run DOPAMINE 0 2 = Throw /\ stray_run BLOCKING 0 2 = Throw /\ stray_run INHIBITORY_CONDUCTANCE 0 2 = Throw /\
  stray_run EXCITATORY 1 2 = UB.
Proof.
  split; [vm_compute; reflexivity|]. split; [intros ty to; vm_compute; reflexivity|].
  split; [vm_compute; reflexivity|]. split; [vm_compute; reflexivity|]. split; vm_compute; reflexivity.
Qed.
Print Assumptions c113_stray_refuted.
