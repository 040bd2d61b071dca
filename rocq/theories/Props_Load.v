(** Property theorems C109-C112: loading networks, the life of a backend, what a run
    depends on, and moving a network. *)
From Verif Require Import Base ListLemmas Messaging_Model Messaging_Spec Messaging_Proofs Messaging_Proofs2 Projection_Model Projection_Proofs
  Delta_Model Delta_Spec Delta_Proofs Neuron_Model Pipeline_Model Pipeline_Spec Pipeline_Proofs Pipeline_Proofs2 Stdp_Model Additive_Model Train_Model
  Net_Model Net_Spec Net_Proofs Net_Proofs2 Net_Proofs3 Net_Proofs4 Net_Proofs5 Props_Net2
  GpuStep_Model GpuStep_Spec Load_Model Load_Spec Load_Proofs Load_Proofs2 Load_Proofs3 Load_Proofs4 Load_Proofs5.

(** *** C109 *)
(** After any calls of loading, removing and reading back on a CPU backend,
    get_network_copy gives what was loaded last up to the first element the backend does
    not support. *)
Theorem c109_held b cs h rs : b <> Cuda -> lruns b held_none (cs ++ [GetCopy]) = Ret (h, rs) ->
  exists pops projs, nth_error rs (length cs) = Some (Copied pops (map wrapped projs)) /\
    longest_ok (fun e => supports_pop b (snd e)) (last_pops cs) pops /\
    longest_ok (supports_proj b) (last_projs cs) projs.
Proof.
  intros Hb H.
  assert (X : forall cs h0 h rs, lruns b h0 (cs ++ [GetCopy]) = Ret (h, rs) -> exists rs', lruns b h0 cs = Ret (h, rs') /\
    nth_error rs (length cs) = Some (Copied (h_pops h) (map wrapped (h_projs h)))).
  { clear. induction cs as [|c cs IH]; intros h0 h rs H; cbn [app lruns length] in *.
    - exists []. cbn [lexec] in H. destruct b; cbn [obind fst snd] in H; try discriminate; injection H as <- <-; auto.
    - destruct (lexec b h0 c) as [[h1 a]| |]; cbn [obind fst snd] in *; try discriminate.
      destruct (lruns b h1 (cs ++ [GetCopy])) as [[h2 rs2]| |] eqn:E; cbn [obind fst snd] in *; try discriminate. injection H as <- <-.
      destruct (IH _ _ _ E) as (rs' & E1 & E2). rewrite E1. cbn [obind fst snd nth_error]. eauto. }
  destruct (X _ _ _ _ H) as (rs' & E & En). pose proof (lruns_pops b Hb _ _ _ _ E) as Hp. pose proof (lruns_projs b Hb _ _ _ _ E) as Hq.
  assert (Hp' : longest_ok (fun e => supports_pop b (snd e)) (last_pops cs) (h_pops h)).
  { destruct (existsb pops_call cs) eqn:Ex; [exact Hp|]. rewrite Hp, (last_pops_none _ Ex). exists []. auto. }
  assert (Hq' : exists q, h_projs h = map wrapped q /\ longest_ok (supports_proj b) (last_projs cs) q).
  { destruct (existsb projs_call cs) eqn:Ex.
    - destruct (load_from_spec (supports_proj b) wrapped (last_projs cs) []) as (q & Hl & _). exists q. split; [|exact Hl].
      exact (longest_unique _ _ _ _ Hq (map_wrapped_longest _ _ _ Hl)).
    - rewrite Hq, (last_projs_none _ Ex). exists []. split; [reflexivity|]. exists []. auto. }
  destruct Hq' as (q & Eq & Hl). exists (h_pops h), q. split; [|auto]. rewrite En, Eq. f_equal. f_equal. rewrite map_map. apply map_ext. reflexivity.
Qed.
(** A whole list that is supported is read back as it was given (a projection without
    the messages a backend kept with it). *)
Corollary c109_round_trip b cs h rs : b <> Cuda ->
  forallb (fun e => supports_pop b (snd e)) (last_pops cs) = true -> forallb (supports_proj b) (last_projs cs) = true ->
  lruns b held_none (cs ++ [GetCopy]) = Ret (h, rs) ->
  nth_error rs (length cs) = Some (Copied (last_pops cs) (map wrapped (last_projs cs))).
Proof.
  intros Hb H1 H2 H. destruct (c109_held b _ h rs Hb H) as (p & q & Hn & Hp & Hq).
  pose proof (longest_unique _ _ _ _ Hp (longest_all _ _ H1)) as ->. pose proof (longest_unique _ _ _ _ Hq (longest_all _ _ H2)) as ->. exact Hn.
Qed.
(** load_all_populations and load_all_projections throw exactly if something in the
    list is not supported. *)
Theorem c109_answers b cs h rs i : lruns b held_none cs = Ret (h, rs) ->
  (forall l, nth_error cs i = Some (LoadAllPops l) ->
     nth_error rs i = Some (if forallb (fun e => supports_pop b (snd e)) l then Done else Threw)) /\
  (forall l, nth_error cs i = Some (LoadAllProjs l) ->
     nth_error rs i = Some (if forallb (supports_proj b) l then Done else Threw)).
Proof.
  intros H. split; intros l Hi; destruct (lruns_answer b _ _ _ _ _ _ H Hi) as (h1 & h2 & a & E & Ea); cbn [lexec] in E; injection E as _ <-; rewrite Ea; f_equal.
  - destruct (load_from_spec (fun e => supports_pop b (snd e)) (fun e => e) l []) as (p & _ & _ & ->). reflexivity.
  - destruct (load_from_spec (supports_proj b) wrapped l []) as (p & _ & _ & ->). reflexivity.
Qed.
(** Which types those are. *)
Theorem c109_supported b h u a w :
  ((exists h', lexec b h (LoadAllPops [(u, a)]) = Ret (h', Done)) <-> known_pop b a) /\
  ((exists h', lexec b h (LoadAllProjs [w]) = Ret (h', Done)) <-> known_kind b (np_kind w)).
Proof.
  split; cbn [lexec load_from snd]; split.
  - intros (h' & E). destruct (supports_pop b a) eqn:S1; cbn [fst snd app] in E; [|discriminate]. clear E.
    destruct b; [constructor|destruct a as [[]| |]; try discriminate S1; constructor..].
  - intros H. inversion H; subst; cbn [supports_pop fst snd]; eauto.
  - intros (h' & E). destruct (supports_proj b w) eqn:S1; cbn [fst snd app] in E; [|discriminate]. clear E. unfold supports_proj in S1.
    destruct b; [constructor|destruct (np_kind w); try discriminate S1; constructor..].
  - intros H. unfold supports_proj. inversion H; subst; cbn [fst snd]; eauto.
Qed.
Print Assumptions c109_supported.
(** remove_populations and remove_projections remove nothing: whatever is removed, the
    copy is the same. *)
Theorem c109_remove_refuted b pops projs us vs : b <> Cuda ->
  forallb (fun e => supports_pop b (snd e)) pops = true -> forallb (supports_proj b) projs = true ->
  exists h, lruns b held_none [LoadAllPops pops; LoadAllProjs projs; RemovePops us; RemoveProjs vs; GetCopy] =
    Ret (h, [Done; Done; Done; Done; Copied pops (map wrapped projs)]).
Proof.
  intros Hb Hp Hq.
  assert (H1 : load_from (fun e : uid * npop => supports_pop b (snd e)) (fun e => e) pops [] = (pops, true)).
  { destruct (load_from_spec (fun e : uid * npop => supports_pop b (snd e)) (fun e => e) pops []) as (p & Hl & E1 & E2).
    rewrite (longest_unique _ _ _ _ Hl (longest_all _ _ Hp)) in E1. rewrite Hp in E2. cbn [app] in E1. rewrite map_id in E1.
    rewrite (surjective_pairing (load_from _ _ _ _)). congruence. }
  assert (H2 : load_from (supports_proj b) wrapped projs [] = (map wrapped projs, true)).
  { destruct (load_from_spec (supports_proj b) wrapped projs []) as (p & Hl & E1 & E2).
    rewrite (longest_unique _ _ _ _ Hl (longest_all _ _ Hq)) in E1. rewrite Hq in E2. cbn [app] in E1.
    rewrite (surjective_pairing (load_from _ _ _ _)). congruence. }
  cbn [lruns lexec obind fst snd]. rewrite H1, H2. cbn [obind fst snd h_pops h_projs].
  assert (Hw : map wrapped (map wrapped projs) = map wrapped projs) by (rewrite map_map; apply map_ext; reflexivity).
  destruct b; [| |now destruct Hb]; cbn [obind fst snd h_pops h_projs]; rewrite Hw; eauto.
Qed.
(** On CUDA nothing loaded by load_all_populations and load_all_projections reaches the
    device: a run after any such calls makes no spike and no impact message.  And
    get_network_copy dereferences a null pointer. *)
Theorem c109_cuda_refuted cs h rs :
  lruns Cuda held_none cs = Ret (h, rs) -> (forall c, In c cs -> match c with LoadPops _ | LoadProjs _ => False | _ => True end) ->
  h_dev_pops h = [] /\ h_dev_projs h = [] /\ lruns Cuda held_none (cs ++ [GetCopy]) = UB /\
  forall sz turns h0 d h' recs, gpu_run sz [] [] turns h0 d h' recs -> Forall (fun r => gr_pout r = [] /\ gr_out r = []) recs.
Proof.
  intros H Hc. destruct (lruns_device _ _ _ _ H Hc) as [H1 H2]. split; [exact H1|]. split; [exact H2|]. split.
  - clear Hc H1 H2. revert H. generalize held_none as h0. revert h rs. induction cs as [|c cs IH]; intros h rs h0 H; cbn [app lruns lexec obind] in *; [reflexivity|].
    destruct (lexec Cuda h0 c) as [[h1 a]| |]; cbn [obind fst snd] in *; try discriminate.
    destruct (lruns Cuda h1 cs) as [[h2 rs2]| |] eqn:E; cbn [obind fst snd] in *; try discriminate. now rewrite (IH _ _ _ E).
  - intros sz turns h0 d h' recs R. destruct (run_made _ _ _ _ _ _ _ _ R) as (o & d0 & _ & Hi & Hs).
    unfold g_init in Hi. apply obind_ret in Hi as (b & _ & Hi). injection Hi as <-.
    exact (empty_steps sz turns (mkGD b [] [] 0) _ (d, h', recs) eq_refl eq_refl Hs).
Qed.
Print Assumptions c109_held.
Print Assumptions c109_round_trip.
Print Assumptions c109_answers.
Print Assumptions c109_remove_refuted.
Print Assumptions c109_cuda_refuted.
(** The multi-threaded backend does not know additive STDP: loading the example network
    throws and leaves the two projections before it. *)
Example c109_case : exists h,
  lruns MultiThreaded held_none [LoadAllPops net_pops; LoadAllProjs (net_projs 2); RemoveProjs [21%N]; GetCopy] =
    Ret (h, [Done; Threw; Done; Copied net_pops (firstn 2 (net_projs 2))]) /\
  exists h', lruns SingleThreaded held_none [LoadPops net_pops; LoadProjs (net_projs 2); LoadAllProjs (net_projs 0); GetCopy] =
    Ret (h', [Done; Done; Done; Copied net_pops (net_projs 0)]) /\
  lruns Cuda held_none [LoadAllPops net_pops; LoadAllProjs (net_projs 2)] = Ret (mkHeld [] [] [] [], [Threw; Threw]).
Proof. eexists. split; [reflexivity|]. eexists. split; reflexivity. Qed.

(** *** C110 *)
(** What runs at the first start is the network loaded last, with the subscriptions made
    before, in whatever order the calls came. *)
Theorem c110_last_load pow2f expf ss turns l tr : life_run pow2f expf life_new (ss ++ [SStart turns]) = Ret (l, tr) -> Forall no_start ss ->
  net_run pow2f expf (subscriptions ss) (fst (last_load ss)) (map wrapped (snd (last_load ss))) turns (lf_net l) tr.
Proof. intros H Hf. exact (proj1 (first_start _ _ _ _ _ _ H Hf)). Qed.
(** Stopping and starting again goes on where the network was. *)
Theorem c110_restart pow2f expf l t1 t2 :
  life_run pow2f expf l [SStart t1; SStart t2] = life_run pow2f expf l [SStart (t1 ++ t2)].
Proof.
  cbn [life_run life_stage].
  destruct (if lf_init l then Ret (lf_net l) else subscribed_to (lf_net l) (ninit_ops (nb_projs (lf_net l)))) as [k| |]; cbn [obind fst snd]; try reflexivity.
  rewrite run_turns_app. destruct (nbackend_run pow2f expf t1 k) as [[k1 r1]| |]; cbn [obind fst snd lf_init lf_net]; try reflexivity.
  destruct (nbackend_run pow2f expf t2 k1) as [[k2 r2]| |]; cbn [obind fst snd lf_init lf_net]; try reflexivity.
  now rewrite !app_nil_r.
Qed.
(** But a projection loaded after the first start is not subscribed to anything: in no
    step does it receive or send, unless the user subscribed it before or loaded one with
    its identifier. *)
Theorem c110_late_refuted pow2f expf ss turns ss' u l tr :
  life_run pow2f expf life_new (ss ++ SStart turns :: ss') = Ret (l, tr) -> Forall no_start ss ->
  Forall (fun t => forallb outside (tu_ops t) = true) turns -> Forall settled ss' ->
  ~ In u (map np_uid (snd (last_load ss))) -> ~ In (0%nat, u) (map (fun s => (sb_type s, sb_receiver s)) (subscriptions ss)) ->
  forall t r j w, nth_error tr t = Some r -> nth_error (nr_projs r) j = Some w -> np_uid w = u ->
    nth_error (r_proj_in (nr_msgs r)) j = Some [] /\ nth_error (r_proj_out (nr_msgs r)) j = Some None.
Proof.
  intros H Hns Ho Hs Hu Hx. replace (ss ++ SStart turns :: ss') with ((ss ++ [SStart turns]) ++ ss') in H by now rewrite <- app_assoc.
  destruct (life_app _ _ _ _ _ _ _ H) as (l1 & tr1 & tr2 & H1 & H2 & ->). destruct (first_start _ _ _ _ _ _ H1 Hns) as [(k0 & Hi & Hr) Hin].
  destruct (init_good _ _ _ _ Hi) as (G & _ & W & _ & Eq & _).
  assert (Hnone : sender_list (nS0 (subscriptions ss) (map wrapped (snd (last_load ss))) 0 u) = []).
  { apply nobody; [|exact Hx]. rewrite map_map. exact Hu. }
  assert (I0 : idle u (nb_projs k0)).
  { rewrite Eq. intros w Hw _. apply in_map_iff in Hw as (x & <- & _). reflexivity. }
  destruct (deaf_run pow2f expf _ u Hnone turns k0 (lf_net l1) tr1 (conj G (W 0 u)) I0 Ho Hr) as (D1 & I1 & U1).
  destruct (deaf_life pow2f expf _ u Hnone ss' l1 l tr2 D1 I1 Hin Hs H2) as (_ & _ & U2).
  intros t r j w Ht Hj Hw. assert (U : unheard u r).
  { assert (F : Forall (unheard u) (tr1 ++ tr2)) by (apply Forall_app; auto). rewrite Forall_forall in F. apply F. eapply nth_error_In; eauto. }
  exact (U j w Hj Hw).
Qed.
(** Reading the network back and loading it again changes nothing between starts if no
    projection keeps a message for later. *)
Theorem c110_reload_partial pow2f expf l : Forall unqueued (nb_projs (lf_net l)) -> life_stage pow2f expf l SReload = Ret (l, []).
Proof.
  intros H. cbn [life_stage]. assert (E : map wrapped (nb_projs (lf_net l)) = nb_projs (lf_net l)).
  { rewrite <- map_id. apply map_ext_in. intros w Hw. rewrite Forall_forall in H. specialize (H w Hw). unfold unqueued in H. destruct w. cbn in *. now subst. }
  rewrite E. destruct l as [[b p q n] i]. reflexivity.
Qed.
Print Assumptions c110_last_load.
Print Assumptions c110_restart.
Print Assumptions c110_late_refuted.
Print Assumptions c110_reload_partial.

(** A chain of two LIF neurons behind input channel 9; the second synapse has the given
    delay. *)
Definition chain_pops : list (uid * npop) := [(1%N, NPlain (PopLif [ex_lif2])); (2%N, NPlain (PopLif [ex_lif2]))].
Definition chain_projs (delay : N) : list nproj :=
  [mkNP 21 0 1 true (NDelta (gen1 ex_dsyn)) []; mkNP 22 1 2 true (NDelta (gen1 (mkSyn (mkDP (f_of_Z 3) delay EXCITATORY) 0 0))) []].
Definition chain_turns (create : bool) : list turn :=
  mkTurn ((if create then [OCreate] else []) ++ [OSend 1 (SpikeMsg 9 0 [0]%N)]) [] :: repeat (mkTurn [] []) 2.
(** An impact on its way is lost. *)
Theorem c110_reload_refuted : exists l0 tr0 l tr l' tr',
  life_run one1 one1 life_new [SSubscribe (mkSubscr 0 21 [9]%N); SLoad chain_pops (chain_projs 3); SStart (chain_turns true)] = Ret (l0, tr0) /\
  life_run one1 one1 l0 [SStart (chain_turns false)] = Ret (l, tr) /\
  life_run one1 one1 l0 [SReload; SStart (chain_turns false)] = Ret (l', tr') /\
  map (fun r => r_pop_out (nr_msgs r)) tr = [[None; None]; [Some (SpikeMsg 1 4 [0]%N); Some (SpikeMsg 2 4 [0]%N)]; [None; None]] /\
  map (fun r => r_pop_out (nr_msgs r)) tr' = [[None; None]; [Some (SpikeMsg 1 4 [0]%N); None]; [None; None]].
Proof. do 6 eexists. split; [vm_compute; reflexivity|]. split; [vm_compute; reflexivity|]. split; [vm_compute; reflexivity|]. split; reflexivity. Qed.
(** The hypotheses of c110_late_refuted: projection 22, loaded after the first start,
    never hears the spikes of population 1. *)
Example c110_case : exists l tr,
  life_run one1 one1 life_new ([SLoad chain_pops []; SSubscribe (mkSubscr 0 21 [9]%N); SLoad chain_pops (firstn 1 (chain_projs 1))] ++
    SStart (chain_turns true) :: [SReload; SLoad chain_pops (chain_projs 1); SStart (chain_turns false)]) = Ret (l, tr) /\
  map (fun r => r_pop_out (nr_msgs r)) tr =
    [[None; None]; [Some (SpikeMsg 1 1 [0]%N); None]; [None; None]; [None; None]; [Some (SpikeMsg 1 4 [0]%N); None]; [None; None]] /\
  map (fun r => map np_uid (nr_projs r)) tr = [[21]; [21]; [21]; [21; 22]; [21; 22]; [21; 22]]%N.
Proof. do 2 eexists. split; [vm_compute; reflexivity|]. split; reflexivity. Qed.

(** *** C111 *)
(** Two runs of the same network with the same switching of learning, in which at every
    step the same messages wait for every population and every projection - whatever else
    is sent over the bus, by whomever - are the same. *)
Theorem c111_deterministic pow2f expf extra pops projs ta tb ka kb tra trb :
  sound_network pops projs ->
  Forall (fun u => forallb outside (tu_ops u) = true) ta -> Forall (fun u => forallb outside (tu_ops u) = true) tb ->
  map tu_learn ta = map tu_learn tb ->
  net_run pow2f expf extra pops projs ta ka tra -> net_run pow2f expf extra pops projs tb kb trb ->
  (forall t ra rb, nth_error tra t = Some ra -> nth_error trb t = Some rb ->
     (forall u, In u (map fst pops) -> filter (to_population (map np_head projs) extra u) (r_ext (nr_msgs ra)) =
                                       filter (to_population (map np_head projs) extra u) (r_ext (nr_msgs rb))) /\
     (forall w, In w projs -> filter (to_nproj extra w) (r_ext (nr_msgs ra)) = filter (to_nproj extra w) (r_ext (nr_msgs rb)))) ->
  Forall2 (fun ra rb => nr_pops ra = nr_pops rb /\ nr_projs ra = nr_projs rb /\ nr_trained ra = nr_trained rb /\
             nr_pops' ra = nr_pops' rb /\ nr_projs' ra = nr_projs' rb /\
             r_pop_in (nr_msgs ra) = r_pop_in (nr_msgs rb) /\ r_pop_out (nr_msgs ra) = r_pop_out (nr_msgs rb) /\
             r_proj_in (nr_msgs ra) = r_proj_in (nr_msgs rb) /\ r_proj_out (nr_msgs ra) = r_proj_out (nr_msgs rb)) tra trb /\
  nb_pops ka = nb_pops kb /\ nb_projs ka = nb_projs kb.
Proof.
  intros Hs Fa Fb El (k0 & Hi & Ha) (k1 & Hi1 & Hb) Hin. rewrite Hi in Hi1. injection Hi1 as <-.
  destruct (nbackend_init_ready extra pops projs Hs) as (k & E & E1 & E2 & E3 & R). rewrite Hi in E. injection E as <-.
  exact (twin_runs pow2f expf extra projs (map fst pops) (sn_projs _ _ Hs) (sn_pops _ _ Hs) ta tb [] k0 k0 ka kb tra trb R R eq_refl eq_refl eq_refl Fa Fb El Ha Hb Hin).
Qed.
Print Assumptions c111_deterministic.
(** In the second run the input comes in two messages through an endpoint made later,
    among messages for nobody. *)
Definition noisy_turns (on : bool) : list turn :=
  [mkTurn [OCreate; OCreate; OSend 1 (SpikeMsg 77 0 [5]%N); OSend 2 (SpikeMsg 9 0 [0]%N); OSend 1 (ImpactMsg 9 0 0 1 false [])] [on];
   mkTurn [OSend 1 (SpikeMsg 5 1 [0]%N)] []; mkTurn [OSend 2 (SpikeMsg 9 2 [0]%N); ODestroy 1] []; mkTurn [OCreate] []].
Example c111_case : exists ka tra kb trb,
  net_run one1 one1 net_extra net_pops (net_projs 2) (net_turns true) ka tra /\
  net_run one1 one1 net_extra net_pops (net_projs 2) (noisy_turns true) kb trb /\
  Forall (fun u => forallb outside (tu_ops u) = true) (noisy_turns true) /\ map tu_learn (net_turns true) = map tu_learn (noisy_turns true) /\
  map (fun r => (map (fun w => filter (to_nproj net_extra w) (r_ext (nr_msgs r))) (net_projs 2),
                 map (fun u => filter (to_population (map np_head (net_projs 2)) net_extra u) (r_ext (nr_msgs r))) (map fst net_pops))) tra =
  map (fun r => (map (fun w => filter (to_nproj net_extra w) (r_ext (nr_msgs r))) (net_projs 2),
                 map (fun u => filter (to_population (map np_head (net_projs 2)) net_extra u) (r_ext (nr_msgs r))) (map fst net_pops))) trb /\
  map (fun r => length (r_ext (nr_msgs r))) tra = [1; 0; 1; 0] /\ map (fun r => length (r_ext (nr_msgs r))) trb = [3; 1; 1; 0].
Proof.
  assert (H : exists ka tra kb trb, run_of 2 true = Ret (ka, tra) /\
    obind (nbackend_init net_extra net_pops (net_projs 2)) (nbackend_run one1 one1 (noisy_turns true)) = Ret (kb, trb) /\
    map (fun r => (map (fun w => filter (to_nproj net_extra w) (r_ext (nr_msgs r))) (net_projs 2),
                 map (fun u => filter (to_population (map np_head (net_projs 2)) net_extra u) (r_ext (nr_msgs r))) (map fst net_pops))) tra =
    map (fun r => (map (fun w => filter (to_nproj net_extra w) (r_ext (nr_msgs r))) (net_projs 2),
                 map (fun u => filter (to_population (map np_head (net_projs 2)) net_extra u) (r_ext (nr_msgs r))) (map fst net_pops))) trb /\
    map (fun r => length (r_ext (nr_msgs r))) tra = [1; 0; 1; 0] /\ map (fun r => length (r_ext (nr_msgs r))) trb = [3; 1; 1; 0]).
  { do 4 eexists. split; [vm_compute; reflexivity|]. split; [vm_compute; reflexivity|]. split; [vm_compute; reflexivity|]. split; reflexivity. }
  destruct H as (ka & tra & kb & trb & E1 & E2 & E3 & E4 & E5). exists ka, tra, kb, trb. split; [now apply run_of_net|]. split.
  { unfold net_run. apply obind_ret in E2 as (k0 & E2 & E2'). eauto. }
  split; [repeat constructor|]. split; [reflexivity|]. auto.
Qed.

(** *** C112 *)
(** A network without learning, at rest (its projections sent nothing in the last step
    and keep nothing for later), moved to another backend with get_network_copy and
    load_all_*: with the same input it does there, step by step, what it would have done
    here, up to the time stamps of messages. *)
Theorem c112_transfer pow2f expf extra pops projs t1 k1 tr1 t2 k2 tr2 tb kb trb :
  sound_network pops projs -> Forall plain_pop pops -> Forall plain_proj projs ->
  Forall (fun u => forallb outside (tu_ops u) = true) t1 -> Forall (fun u => forallb outside (tu_ops u) = true) t2 ->
  Forall (fun u => forallb outside (tu_ops u) = true) tb -> length t2 = length tb ->
  net_run pow2f expf extra pops projs t1 k1 tr1 ->
  sent_before (map nr_msgs tr1) (length tr1) = [] -> Forall unqueued (nb_projs k1) ->
  nbackend_run pow2f expf t2 k1 = Ret (k2, tr2) ->
  net_run pow2f expf extra (nb_pops k1) (map wrapped (nb_projs k1)) tb kb trb ->
  (forall i ra rb, nth_error tr2 i = Some ra -> nth_error trb i = Some rb ->
     map unstamp (r_ext (nr_msgs ra)) = map unstamp (r_ext (nr_msgs rb))) ->
  Forall2 (fun ra rb =>
    map (option_map unstamp) (r_pop_out (nr_msgs ra)) = map (option_map unstamp) (r_pop_out (nr_msgs rb)) /\
    map (option_map unstamp) (r_proj_out (nr_msgs ra)) = map (option_map unstamp) (r_proj_out (nr_msgs rb)) /\
    nr_pops' ra = nr_pops' rb /\ map delta_synapses (nr_projs' ra) = map delta_synapses (nr_projs' rb)) tr2 trb.
Proof.
  intros Hs Hpp Hpq F1 F2 Fb El Hr1 Hrest Hq Hr2 Hrb Hin.
  destruct (net_run_facts _ _ _ _ _ _ _ _ Hs F1 Hr1) as (L1 & Fa & Ea & R1). rewrite Hrest in R1.
  assert (Ew : map wrapped (nb_projs k1) = nb_projs k1).
  { rewrite <- map_id. apply map_ext_in. intros w Hw. rewrite Forall_forall in Hq. specialize (Hq w Hw). unfold unqueued in Hq. destruct w. cbn in *. now subst. }
  rewrite Ew in Hrb. destruct Hrb as (k0 & Hi & Hb).
  destruct (init_ready_ok extra (nb_pops k1) (nb_projs k1) k0 (nrd_ok _ _ _ _ _ R1) (nrd_sizes _ _ _ _ _ R1) Hi) as (R0 & P0 & Q0 & N0).
  rewrite (nrd_us _ _ _ _ _ R1) in R0. destruct (map_fixed_uid _ _ (nrd_hs _ _ _ _ _ R1)) as [Hu Hh].
  assert (Hnd : NoDup (map np_uid (nb_projs k1))) by (rewrite Hu; exact (sn_projs _ _ Hs)).
  (* the populations and projections stay plain *)
  assert (Hkinds : Forall plain_pop (nb_pops k1) /\ Forall plain_proj (nb_projs k1)).
  { destruct Hr1 as (k00 & Hi0 & Hr1). destruct (nbackend_init_ready extra pops projs Hs) as (kk & E & E1 & E2 & E3 & R). rewrite Hi0 in E. injection E as <-.
    clear - Hr1 R F1 Hpp Hpq E1 E2 Hs. rewrite <- E1 in Hpp. rewrite <- E2 in Hpq. clear E1 E2.
    assert (Hud : NoDup (map fst pops)) by exact (sn_pops _ _ Hs). assert (Hpd : NoDup (map np_uid projs)) by exact (sn_projs _ _ Hs).
    revert Hud Hpd R. clear Hs. generalize (map fst pops) as us. generalize ([] : list message) as prev. intros prev us Hud Hpd R.
    revert prev k00 tr1 R Hpp Hpq Hr1. induction t1 as [|u t1 IH]; intros prev k00 tr1 R Hpp Hpq Hr1; [cbn [nbackend_run] in Hr1; injection Hr1 as <- _; auto|].
    apply Forall_cons_iff in F1 as [Fo F1].
    destruct (run_cons _ _ _ _ _ Hpd Hud _ _ _ _ _ _ R Fo Hr1) as (ka & r & tr' & -> & (A1 & A2 & _) & Ra & Pa & Qa & Pa1 & Qa1 & _ & Ha).
    apply (IH F1 _ ka tr' Ra); [| |exact Ha].
    - assert (Hx : Forall plain_pop (nr_pops r)) by (rewrite Pa; exact Hpp).
      destruct (pops_pair pow2f _ _ _ _ _ _ _ _ _ _ _ _ _ Hx (fun _ => eq_refl) A1 A1) as (_ & _ & _ & X & _). now rewrite Pa1.
    - assert (Hx : Forall plain_pop (nr_pops r)) by (rewrite Pa; exact Hpp).
      destruct (pops_pair pow2f _ _ _ _ _ _ _ _ _ _ _ _ _ Hx (fun _ => eq_refl) A1 A1) as (_ & Y & _). rewrite Y, Qa in A2. rewrite Qa1.
      assert (Hl : Forall plain_proj (learn_all (tu_learn u) (nb_projs k00))).
      { pose proof (learn_all_spec (fun w w' => np_kind w' = np_kind w) (fun w => eq_refl) (fun w w' b H => H) (tu_learn u) (nb_projs k00)) as L.
        revert L Hpq. clear. induction 1 as [|w w' l l' E _ IH]; intros H; [constructor|]. apply Forall_cons_iff in H as [H1 H]. constructor; [|auto].
        unfold plain_proj in *. now rewrite E. }
      revert A2 Hl. generalize (learn_all (tu_learn u) (nb_projs k00)) as l. generalize (nr_projs' r) as l'. generalize (r_proj_out (nr_msgs r)) as os.
      generalize (nproj_box extra (r_ext (nr_msgs r)) (sent_msgs (r_pop_out (nr_msgs r)))) as box. clear. intros box os l' l. revert os l'.
      induction l as [|w l IH]; intros os l' H Hp; cbn [nprojs_alone] in H; [injection H as <- _; constructor|].
      apply Forall_cons_iff in Hp as [H1 Hp]. apply obind_ret in H as ([w' o] & E & H). apply obind_ret in H as ([t o'] & E' & H). injection H as <- <-.
      cbn [fst snd]. constructor; [|eauto]. unfold nproj_step in E. unfold plain_proj in *. destruct (np_kind w); try contradiction.
      apply obind_ret in E as ([[p' q'] o2] & _ & E). injection E as <- _. exact I. }
  destruct Hkinds as [Kp Kq].
  set (t := nb_step k1). 
  assert (Hpair : Forall2 (pair_proj t) (nb_projs k1) (nb_projs k0)).
  { rewrite Q0. clear -Kq Hq. induction (nb_projs k1) as [|w l IH]; [constructor|]. apply Forall_cons_iff in Kq as [K1 Kq]. apply Forall_cons_iff in Hq as [Q1 Hq].
    constructor; [|auto]. split; [reflexivity|]. split; [unfold plain_proj in K1; destruct (np_kind w) as [p| |]; try contradiction; eauto|]. unfold unqueued in Q1. rewrite Q1. constructor. }
  assert (Hst : nb_step k1 = add64 (nb_step k0) t).
  { rewrite N0. unfold add64, w64. rewrite N.add_0_l. symmetry. apply N.mod_small. unfold t. clear -Hr1. destruct Hr1 as (k00 & Hi & Hr).
    destruct (init_good _ _ _ _ Hi) as (_ & _ & _ & _ & _ & Z). assert (Hz : (nb_step k00 < two64)%N) by (rewrite Z; reflexivity). clear Hi Z. revert k00 tr1 Hr Hz.
    induction t1 as [|u t1 IH]; intros k00 tr1 H Hz; cbn [nbackend_run] in H; [now injection H as <- _|].
    apply obind_ret in H as (x & _ & H). apply obind_ret in H as (y & E & H). apply obind_ret in H as ([z1 z2] & E2 & H). injection H as <- _.
    apply (IH _ _ E2). unfold nbackend_step in E. apply obind_ret in E as (b1 & _ & E). apply obind_ret in E as ([[[[p1 p2] p3] p4] p5] & _ & E).
    apply obind_ret in E as (b3 & _ & E). apply obind_ret in E as ([[[q1 q2] q3] q4] & _ & E). apply obind_ret in E as (b5 & _ & E). injection E as <-.
    cbn [fst nb_step]. apply add64_lt. }
  assert (Hz0 : (nb_step k0 < two64)%N) by (rewrite N0; reflexivity).
  assert (Kp0 : Forall plain_pop (nb_pops k0)) by (rewrite P0; exact Kp).
  pose proof (moved_runs pow2f expf t extra projs (nb_projs k1) (map fst pops) (sn_projs _ _ Hs) Hnd (sn_pops _ _ Hs) (eq_sym Hh)
    t2 tb [] [] k1 k0 k2 kb tr2 trb R1 R0 eq_refl (eq_sym P0) Kp0 Hpair Hst Hz0 F2 Fb El Hr2 Hb Hin) as X.
  clear -X. induction X as [|ra rb la lb (H1 & H2 & H3 & H4 & H5) _ IH]; [constructor|]. constructor; [|exact IH].
  split; [exact H4|]. split; [exact H5|]. split; [exact H2|]. clear -H3. induction H3 as [|w w' l l' (_ & (p & E1 & E2) & _) _ IH]; cbn [map]; [reflexivity|].
  rewrite IH. f_equal. unfold delta_synapses. now rewrite E1, E2.
Qed.
Print Assumptions c112_transfer.
Definition chain_extra : list subscr := [mkSubscr 0 21 [9]%N].
Lemma chain_sound d : sound_network chain_pops (chain_projs d).
Proof.
  split; cbn [chain_pops chain_projs map fst np_uid].
  - repeat constructor; cbn; intuition discriminate.
  - repeat constructor; cbn; intuition discriminate.
  - repeat constructor; cbn [np_kind sound_kind]; (eexists _, true, [], []; split; [right; split; [unfold gen1; eauto|reflexivity]|]; split; [reflexivity|exact I]).
  - repeat constructor.
  - repeat constructor; cbn; discriminate.
Qed.
Definition start_run (extra : list subscr) (pops : list (uid * npop)) (projs : list nproj) (turns : list turn) : outcome (nbackend * list nrecord) :=
  obind (nbackend_init extra pops projs) (nbackend_run one1 one1 turns).
Lemma start_run_net extra pops projs turns k tr : start_run extra pops projs turns = Ret (k, tr) -> net_run one1 one1 extra pops projs turns k tr.
Proof. unfold start_run, net_run. intros H. apply obind_ret in H as (k0 & H1 & H2). eauto. Qed.
(** The run and its continuation here and there. *)
Definition moved (extra : list subscr) (pops : list (uid * npop)) (projs : list nproj) (t1 t2 tb : list turn)
    (show : list nrecord -> list nrecord -> list nrecord -> nbackend -> Prop) : Prop :=
  exists k1 tr1 k2 tr2 kb trb, net_run one1 one1 extra pops projs t1 k1 tr1 /\ nbackend_run one1 one1 t2 k1 = Ret (k2, tr2) /\
    net_run one1 one1 extra (nb_pops k1) (map wrapped (nb_projs k1)) tb kb trb /\ show tr1 tr2 trb k1.
Definition pop_outs (tr : list nrecord) := map (fun r => r_pop_out (nr_msgs r)) tr.
(** The hypotheses of c112_transfer are met: the chain fires again, here at step 4 and 5,
    there at steps 1 and 2. *)
Example c112_case : sound_network chain_pops (chain_projs 1) /\ Forall plain_pop chain_pops /\ Forall plain_proj (chain_projs 1) /\
  moved chain_extra chain_pops (chain_projs 1) (chain_turns true) (chain_turns false) (chain_turns true) (fun tr1 tr2 trb k1 =>
    sent_before (map nr_msgs tr1) (length tr1) = [] /\ map np_queue (nb_projs k1) = [[]; []] /\
    map (fun r => r_ext (nr_msgs r)) tr2 = map (fun r => r_ext (nr_msgs r)) trb /\
    pop_outs tr2 = [[None; None]; [Some (SpikeMsg 1 4 [0]%N); None]; [None; Some (SpikeMsg 2 5 [0]%N)]] /\
    pop_outs trb = [[None; None]; [Some (SpikeMsg 1 1 [0]%N); None]; [None; Some (SpikeMsg 2 2 [0]%N)]]).
Proof.
  split; [apply chain_sound|]. split; [repeat constructor|]. split; [repeat constructor|].
  assert (H : exists k1 tr1 k2 tr2 kb trb, start_run chain_extra chain_pops (chain_projs 1) (chain_turns true) = Ret (k1, tr1) /\
    nbackend_run one1 one1 (chain_turns false) k1 = Ret (k2, tr2) /\
    start_run chain_extra (nb_pops k1) (map wrapped (nb_projs k1)) (chain_turns true) = Ret (kb, trb) /\
    sent_before (map nr_msgs tr1) (length tr1) = [] /\ map np_queue (nb_projs k1) = [[]; []] /\
    map (fun r => r_ext (nr_msgs r)) tr2 = map (fun r => r_ext (nr_msgs r)) trb /\
    pop_outs tr2 = [[None; None]; [Some (SpikeMsg 1 4 [0]%N); None]; [None; Some (SpikeMsg 2 5 [0]%N)]] /\
    pop_outs trb = [[None; None]; [Some (SpikeMsg 1 1 [0]%N); None]; [None; Some (SpikeMsg 2 2 [0]%N)]]).
  { do 6 eexists. split; [vm_compute; reflexivity|]. split; [vm_compute; reflexivity|]. split; [vm_compute; reflexivity|]. repeat split; reflexivity. }
  destruct H as (k1 & tr1 & k2 & tr2 & kb & trb & E1 & E2 & E3 & H). exists k1, tr1, k2, tr2, kb, trb.
  split; [now apply start_run_net|]. split; [exact E2|]. split; [now apply start_run_net|exact H].
Qed.
(** An impact that waits for its step is not part of the copy: the spike of population 2
    at step 3 happens here and not there. *)
Theorem c112_waiting_refuted :
  moved chain_extra chain_pops (chain_projs 3) (firstn 3 (chain_turns true)) (repeat (mkTurn [] []) 2) (repeat (mkTurn [] []) 2) (fun tr1 tr2 trb k1 =>
    sent_before (map nr_msgs tr1) (length tr1) = [] /\ map (fun r => r_ext (nr_msgs r)) tr2 = map (fun r => r_ext (nr_msgs r)) trb /\
    pop_outs tr2 = [[None; None]; [None; Some (SpikeMsg 2 4 [0]%N)]] /\ pop_outs trb = [[None; None]; [None; None]]).
Proof.
  assert (H : exists k1 tr1 k2 tr2 kb trb, start_run chain_extra chain_pops (chain_projs 3) (firstn 3 (chain_turns true)) = Ret (k1, tr1) /\
    nbackend_run one1 one1 (repeat (mkTurn [] []) 2) k1 = Ret (k2, tr2) /\
    start_run chain_extra (nb_pops k1) (map wrapped (nb_projs k1)) (repeat (mkTurn [] []) 2) = Ret (kb, trb) /\
    sent_before (map nr_msgs tr1) (length tr1) = [] /\ map (fun r => r_ext (nr_msgs r)) tr2 = map (fun r => r_ext (nr_msgs r)) trb /\
    pop_outs tr2 = [[None; None]; [None; Some (SpikeMsg 2 4 [0]%N)]] /\ pop_outs trb = [[None; None]; [None; None]]).
  { do 6 eexists. split; [vm_compute; reflexivity|]. split; [vm_compute; reflexivity|]. split; [vm_compute; reflexivity|]. repeat split; reflexivity. }
  destruct H as (k1 & tr1 & k2 & tr2 & kb & trb & E1 & E2 & E3 & H). exists k1, tr1, k2, tr2, kb, trb.
  split; [now apply start_run_net|]. split; [exact E2|]. split; [now apply start_run_net|exact H].
Qed.
(** With resource STDP the copy behaves differently, since the steps kept in its
    synapses and neurons refer to the step counter of the backend it came from: with no
    input and at rest, the weight of projection 21 stays here and is changed there in the
    first step. *)
Definition long_turns : list turn := mkTurn [OCreate; OSend 1 (SpikeMsg 9 0 [0]%N)] [true] :: repeat (mkTurn [] []) 6.
Theorem c112_stdp_refuted :
  moved net_extra net_pops (net_projs 2) long_turns [mkTurn [] []] [mkTurn [] []] (fun tr1 tr2 trb k1 =>
    sent_before (map nr_msgs tr1) (length tr1) = [] /\ map np_queue (nb_projs k1) = [[]; []; []] /\
    map (fun r => r_ext (nr_msgs r)) tr2 = [[]] /\ map (fun r => r_ext (nr_msgs r)) trb = [[]] /\
    map (fun r => nth_error (weights (nr_projs' r)) 0) tr2 = [Some [S754_finite false 10066330 (-22)]] /\
    map (fun r => nth_error (weights (nr_projs' r)) 0) trb = [Some [f_of_Z 3]]).
Proof.
  assert (H : exists k1 tr1 k2 tr2 kb trb, start_run net_extra net_pops (net_projs 2) long_turns = Ret (k1, tr1) /\
    nbackend_run one1 one1 [mkTurn [] []] k1 = Ret (k2, tr2) /\
    start_run net_extra (nb_pops k1) (map wrapped (nb_projs k1)) [mkTurn [] []] = Ret (kb, trb) /\
    sent_before (map nr_msgs tr1) (length tr1) = [] /\ map np_queue (nb_projs k1) = [[]; []; []] /\
    map (fun r => r_ext (nr_msgs r)) tr2 = [[]] /\ map (fun r => r_ext (nr_msgs r)) trb = [[]] /\
    map (fun r => nth_error (weights (nr_projs' r)) 0) tr2 = [Some [S754_finite false 10066330 (-22)]] /\
    map (fun r => nth_error (weights (nr_projs' r)) 0) trb = [Some [f_of_Z 3]]).
  { do 6 eexists. split; [vm_compute; reflexivity|]. split; [vm_compute; reflexivity|]. split; [vm_compute; reflexivity|]. repeat split; vm_compute; reflexivity. }
  destruct H as (k1 & tr1 & k2 & tr2 & kb & trb & E1 & E2 & E3 & H). exists k1, tr1, k2, tr2, kb, trb.
  split; [now apply start_run_net|]. split; [exact E2|]. split; [now apply start_run_net|exact H].
Qed.
Print Assumptions c110_reload_refuted.
Print Assumptions c112_waiting_refuted.
Print Assumptions c112_stdp_refuted.
