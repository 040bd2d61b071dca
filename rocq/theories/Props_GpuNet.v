(** Populations and projections of the CUDA backend: C99, C100. *)
From Verif Require Import Base ListLemmas Messaging_Model Projection_Model Projection_Spec Projection_Proofs Delta_Model Delta_Spec Delta_Proofs
  Neuron_Model Neuron_Spec Neuron_Proofs2 Pipeline_Model Gpu_Model Gpu_Spec Gpu_Proofs Gpu_Proofs2 Gpu_Proofs3
  GpuBus_Model GpuBus_Spec GpuBus_Proofs GpuBus_Proofs2 GpuNet_Model GpuNet_Spec GpuNet_Proofs GpuNet_Proofs2 Props_Gpu Props_Delta.

(** ** C99: a delta projection on the device *)
(** As long as no step finds impacts waiting for three different steps or more
    than two messages, every run sends in each step exactly the impacts due at
    it, in the order of the spikes, in one message stamped with that step; with
    any order of threads of the copies. *)
Theorem c99_exactly_once sz h l s0 ins : 1 <= sz -> Forall syn_ok l ->
  Forall (fun s => 1 <= d_delay (sy_params s))%N l ->
  Forall (fun i => any_orders (gi_ord i)) ins -> (s0 + N.of_nat (length ins) + two32 <= two64)%N ->
  (forall t, t < length ins -> ~ crowded l ins t) ->
  Forall (fun i => length (read_by i) <= 2) ins ->
  exists outs, g_run sz s0 ins (load_projection h l) = Ret outs /\ length outs = length ins /\
    forall t o, nth_error outs t = Some o ->
      o = match due (map (as_in l) ins) t with
          | [] => []
          | d => [GImpact (ph_uid h) (s0 + N.of_nat t) false (ph_pre h) (ph_post h) true d]
          end.
Proof.
  intros Z Sok Dly O B NC R2. rewrite (load_same h l Sok).
  destruct (run_cases sz Z h l s0 Sok Dly ins [] v_empty [] ltac:(eapply ginv_init; eassumption) O B) as [[_ [outs [R [Lo H]]]]|[[t [Ht [C|[i [Hi H2]]]]] _]].
  - cbn [length app Nat.add] in *. rewrite N.add_0_r in R. exists outs. split; [exact R|]. split; [exact Lo|].
    intros t o Ho. assert (t < length outs) by (apply nth_error_Some; congruence). rewrite H in Ho by lia. injection Ho as <-. unfold out_of.
    now destruct (due (map (as_in l) ins) t).
  - exfalso. cbn [app length] in *. apply (NC t); [lia|exact C].
  - exfalso. cbn [app] in Hi. apply nth_error_In in Hi. rewrite Forall_forall in R2. specialize (R2 i Hi). lia.
Qed.

(** Otherwise: three waiting steps, or three messages at once, make the step
    undefined (a third message in a vector of the device, C93). *)
Theorem c99_third_refuted sz h l s0 ins t : 1 <= sz -> Forall syn_ok l ->
  Forall (fun s => 1 <= d_delay (sy_params s))%N l ->
  Forall (fun i => any_orders (gi_ord i)) ins -> (s0 + N.of_nat (length ins) + two32 <= two64)%N ->
  t < length ins -> crowded l ins t \/ (exists i, nth_error ins t = Some i /\ 2 < length (read_by i)) ->
  g_run sz s0 ins (load_projection h l) = UB.
Proof.
  intros Z Sok Dly O B Ht H. rewrite (load_same h l Sok).
  destruct (run_cases sz Z h l s0 Sok Dly ins [] v_empty [] ltac:(eapply ginv_init; eassumption) O B) as [[Nb _]|[_ R]].
  - exfalso. cbn [app length Nat.add] in *. apply (Nb t); [lia|exact H].
  - cbn [length] in R. rewrite N.add_0_r in R. exact R.
Qed.

(** The same impacts as the host's projection in every step, not always in the
    same order. *)
Theorem c99_same_as_host sz h l s0 ins p : 1 <= sz -> Forall syn_ok l ->
  Forall (fun s => 1 <= d_delay (sy_params s))%N l ->
  Forall (fun i => any_orders (gi_ord i)) ins -> (s0 + N.of_nat (length ins) + two32 <= two64)%N ->
  (forall t, t < length ins -> ~ crowded l ins t) ->
  Forall (fun i => length (read_by i) <= 2) ins ->
  sound_projection p -> p_syn p = l ->
  exists outs houts, g_run sz s0 ins (load_projection h l) = Ret outs /\
    run_projection h s0 (map (as_in l) ins) p [] = Ret houts /\ length outs = length houts /\
    forall t o ho, nth_error outs t = Some o -> nth_error houts t = Some ho ->
      match o, ho with
      | [], None => True
      | [GImpact u time _ pre post _ d], Some (ImpactMsg u' time' pre' post' _ d') =>
          u = u' /\ pre = pre' /\ post = post' /\ time = (s0 + N.of_nat t)%N /\ Permutation d d'
      | _, _ => False
      end.
Proof.
  intros Z Sok Dly O B NC R2 P El.
  destruct (c99_exactly_once sz h l s0 ins Z Sok Dly O B NC R2) as [outs [R [Lo H]]].
  assert (Fa : forall (Q : pinput -> Prop), (forall i, Q (as_in l i)) -> Forall Q (map (as_in l) ins)).
  { intros Q HQ. apply Forall_map, Forall_forall. auto. }
  destruct (c24_exactly_once h s0 (map (as_in l) ins) p (ends_of l) P) as [houts [HR [HL HH]]].
  - now rewrite El.
  - apply Fa. reflexivity.
  - apply Fa. intros i. exact Sok.
  - rewrite map_length. exact B.
  - exists outs, houts. split; [exact R|]. split; [exact HR|]. rewrite map_length in HL. split; [congruence|].
    intros t o ho Ho Hh. specialize (H t o Ho). destruct (HH t ho Hh) as [Hn Hs]. subst o.
    destruct (due (map (as_in l) ins) t) as [|x d] eqn:D.
    + destruct ho as [m|]; [|exact I]. discriminate (proj2 Hn eq_refl).
    + destruct ho as [m|]; [|discriminate (proj1 Hn eq_refl)].
      destruct (Hs m eq_refl) as [time [imps [-> [Pm _]]]]. repeat split. now apply Permutation_sym.
Qed.


(** Delays 1 and 2 are always safe. *)
Lemma due_inv ins k : due ins k <> [] -> exists n i s, n <= k /\ nth_error ins n = Some i /\ In s (in_syn i) /\
  d_delay (sy_params s) = (N.of_nat (k - n) + 1)%N.
Proof.
  intros H. destruct (due ins k) as [|x d] eqn:D; [congruence|]. clear H.
  assert (I : In x (due ins k)) by (rewrite D; now left). unfold due in I. apply in_flat_map in I. destruct I as [n [Hn I]].
  apply in_seq in Hn. destruct (nth_error ins n) as [i|] eqn:E; [|contradiction]. apply in_flat_map in I. destruct I as [q [_ I]].
  unfold impacts_with_delay in I. apply in_map_iff in I. destruct I as [y [_ I]]. apply filter_In in I. destruct I as [I1 I2].
  apply andb_prop in I2. destruct I2 as [_ I2]. apply N.eqb_eq in I2. exists n, i, (snd y). repeat split; try assumption; [lia|].
  apply (in_map snd) in I1. now rewrite map_snd_numbered in I1.
Qed.
Theorem c99_short_delays l ins t : Forall (fun s => 1 <= d_delay (sy_params s) <= 2)%N l -> ~ crowded l ins t.
Proof.
  intros F [k1 [k2 [k3 [D12 [D13 [D23 H]]]]]].
  assert (K : forall k, k = k1 \/ k = k2 \/ k = k3 -> t <= k <= S t).
  { intros k Hk. destruct (H k Hk) as [A D]. split; [exact A|]. destruct (due_inv _ _ D) as [n [i [s [Hn [Hi [Hs Hd]]]]]].
    rewrite nth_error_map in Hi. assert (n < S t).
    { assert (X : n < length (firstn (S t) ins)) by (apply nth_error_Some; destruct (nth_error (firstn (S t) ins) n); [discriminate|discriminate Hi]).
      rewrite firstn_length in X. lia. }
    destruct (nth_error (firstn (S t) ins) n) as [j|]; [|discriminate Hi]. injection Hi as <-. cbn [as_in in_syn] in Hs.
    rewrite Forall_forall in F. specialize (F s Hs). lia. }
  pose proof (K k1 ltac:(auto)). pose proof (K k2 ltac:(auto)). pose proof (K k3 ltac:(auto)). lia.
Qed.

(** One spike through synapses with delays 1, 2 and 3 is enough to break the
    projection; with the delays 1 and 2 all impacts arrive. *)
Definition g_in (bus : list gmsg) (idx : list nat) : ginput := mkGI bus idx in_turns.
Definition g_syn (d : N) (from to : N) : dsyn := mkSyn (mkDP (f_of_Z 3) d EXCITATORY) from to.
Definition g_net : list dsyn := [g_syn 1 0 0; g_syn 2 0 1; g_syn 1 1 0].
Definition g_ins : list ginput :=
  [g_in [GSpike 7 0 false [0; 1]%N] [0]; g_in [GImpact 5 0 false 0 0 true []] [0; 4];
   g_in [GSpike 7 0 false [1]%N; GSpike 7 0 true [0]%N] [1; 0]].
Example c99_case : Forall syn_ok g_net /\ Forall (fun s => 1 <= d_delay (sy_params s))%N g_net /\
  Forall (fun i => any_orders (gi_ord i)) g_ins /\ Forall (fun i => length (read_by i) <= 2) g_ins /\
  (forall t, ~ crowded g_net g_ins t) /\
  g_run 64 5 g_ins (load_projection (mkPH 9 7 8 true) g_net) =
    Ret [[GImpact 9 5 false 7 8 true [mkImpact 0 (f_of_Z 3) EXCITATORY 0 0; mkImpact 2 (f_of_Z 3) EXCITATORY 1 0]];
         [GImpact 9 6 false 7 8 true [mkImpact 1 (f_of_Z 3) EXCITATORY 0 1]];
         [GImpact 9 7 false 7 8 true [mkImpact 0 (f_of_Z 3) EXCITATORY 0 0; mkImpact 2 (f_of_Z 3) EXCITATORY 1 0]]].
Proof.
  split; [repeat constructor|]. split; [repeat constructor; discriminate|].
  split; [repeat (apply Forall_cons; [apply in_turns_any|]); constructor|].
  split; [repeat (apply Forall_cons; [cbn; lia|]); constructor|].
  split; [|vm_compute; reflexivity]. intros t. apply c99_short_delays. repeat constructor; discriminate.
Qed.
Definition g_net3 : list dsyn := [g_syn 1 0 0; g_syn 2 0 0; g_syn 3 0 0].
Example c99_third_case :
  crowded g_net3 [g_in [GSpike 7 0 false [0]%N] [0]] 0 /\
  g_run 64 5 [g_in [GSpike 7 0 false [0]%N] [0]] (load_projection (mkPH 9 7 8 true) g_net3) = UB.
Proof.
  split; [|vm_compute; reflexivity]. exists 0, 1, 2. split; [lia|]. split; [lia|]. split; [lia|].
  intros k [-> | [-> | ->]]; (split; [lia|vm_compute; discriminate]).
Qed.
(** Delay 0: the impacts are never sent, and keep one of the two places. *)
Example c99_zero_delay :
  let i := g_in [GSpike 7 0 false [0]%N] [0] in let e := g_in [] [] in
  g_run 64 5 [i; e; e] (load_projection (mkPH 9 7 8 true) [g_syn 0 0 0]) = Ret [[]; []; []] /\
  g_run 64 5 [i; e; e; i; e; e; i] (load_projection (mkPH 9 7 8 true) [g_syn 0 0 0]) = UB.
Proof. split; vm_compute; reflexivity. Qed.

(** ** C100: a BLIFAT population on the device *)
(** Three messages at once make the step undefined. *)
Theorem c100_three_messages_refuted sz u step bus idx ns : 1 <= sz -> 2 < length (messages_at bus idx) ->
  g_population_thread sz u step (map Obj bus) (length bus) idx ns = UB.
Proof.
  intros Z H. unfold g_population_thread. pose proof (collect_ok sz Z bus idx v_empty [] vok_empty) as C. cbn [length Nat.add] in C.
  destruct (Nat.leb_spec (length (messages_at bus idx)) 2); [lia|]. rewrite C; [reflexivity|left; reflexivity|lia].
Qed.
(** Up to two are handed on in the order in which their places were found. *)
Theorem c100_messages sz u step bus idx ns : 1 <= sz -> length (messages_at bus idx) <= 2 ->
  g_population_thread sz u step (map Obj bus) (length bus) idx ns =
  obind (g_population u step (messages_at bus idx) ns)
    (fun r => Ret (fst r, match snd r with Some m => m | None => GSpike 0 0 false [] end)).
Proof.
  intros Z H. unfold g_population_thread. pose proof (collect_ok sz Z bus idx v_empty [] vok_empty) as C. cbn [length Nat.add app] in C.
  destruct (Nat.leb_spec (length (messages_at bus idx)) 2); [|lia]. destruct C as [v [-> [V _]]]; [left; reflexivity|]. cbn [obind].
  destruct (vok_contains _ _ V) as [-> _]. reflexivity.
Qed.

(** The impacts of a step act on the neurons they name like on the host, after
    the count-down; the test for a spike happens for the first neuron only. *)
Lemma g_neurons_other u step ms : forall ns index i, 1 <= i -> nth_error (fst (g_neurons u step ms index ns)) i = nth_error ns i.
Proof.
  induction ns as [|[p n] t IH]; intros index i Hi; cbn [g_neurons]; [reflexivity|].
  destruct i as [|i]; [lia|]. destruct (first_impacts ms) as [is|] eqn:F.
  - destruct (g_tests p index is (g_block n) false []) as [n' idx]. reflexivity.
  - specialize (IH (S index)). clear Hi.
    assert (X : forall ns index, fst (g_neurons u step ms index ns) = ns).
    { clear - F. induction ns as [|[p n] t IH]; intros index; cbn [g_neurons]; [reflexivity|]. rewrite F.
      specialize (IH (S index)). destruct (g_neurons u step ms (S index) t). cbn [fst] in *. now rewrite IH. }
    specialize (X t (S index)). destruct (g_neurons u step ms (S index) t) as [t' m]. cbn [fst nth_error] in *. now rewrite X.
Qed.
Lemma g_neurons_none u step ms : first_impacts ms = None -> forall ns index, g_neurons u step ms index ns = (ns, None).
Proof. intros F. induction ns as [|[p n] t IH]; intros index; cbn [g_neurons]; [reflexivity|]. now rewrite F, IH. Qed.
Lemma g_tests_idx p index : forall l n spike k, exists j, j <= length l /\
  snd (g_tests p index l n spike (repeat (w32 (N.of_nat index)) k)) = repeat (w32 (N.of_nat index)) (k + j).
Proof.
  induction l as [|x l IH]; intros n spike k; cbn [g_tests].
  - exists 0. rewrite Nat.add_0_r. split; [lia|reflexivity].
  - destruct (g_test p n) as [n' s]. destruct (spike || s).
    + replace (repeat (w32 (N.of_nat index)) k ++ [w32 (N.of_nat index)]) with (repeat (w32 (N.of_nat index)) (k + 1)).
      * destruct (IH n' true (k + 1)) as [j [Hj ->]]. exists (S j). split; [cbn [length]; lia|]. f_equal. lia.
      * rewrite repeat_app. reflexivity.
    + destruct (IH n' false k) as [j [Hj ->]]. exists j. split; [cbn [length]; lia|reflexivity].
Qed.

(** False: only the neuron 0 ever fires, and it is named once for every impact of
    the first message from the one that made it fire on. *)
Theorem c100_first_neuron_refuted u step ms ns ns' m : g_population u step ms ns = Ret (ns', Some m) ->
  exists k is, m = GSpike u step false (repeat 0%N k) /\ first_impacts ms = Some is /\ 1 <= k <= length is.
Proof.
  unfold g_population. destruct (impact_population _ _ _) as [n1| |]; cbn [obind]; try discriminate. intros [= E].
  destruct (first_impacts ms) as [is|] eqn:F; [|rewrite (g_neurons_none _ _ _ F) in E; discriminate].
  destruct n1 as [|[p n] t]; cbn [g_neurons] in E; [discriminate|]. rewrite F in E.
  pose proof (g_tests_idx p 0 is (g_block n) false 0) as [j [Hj X]]. cbn [repeat Nat.add] in X.
  destruct (g_tests p 0 is (g_block n) false []) as [n' idx]. cbn [snd] in X. subst idx.
  destruct j as [|j]; cbn [repeat] in E; [discriminate|]. injection E as _ <-. exists (S j), is. split; [reflexivity|]. split; [reflexivity|lia].
Qed.
(** Which message is sent: the neuron 0, after its impacts, is tested once for
    every impact of the first message; a test changes it.  If the [j]-th test is
    the first at which it fires, it is named for this and every later impact. *)
Fixpoint tested (j : nat) (p : bl_par) (n : bl) : bl := match j with 0 => n | S j' => tested j' p (fst (g_test p n)) end.
Lemma g_tests_none p index : forall l n, (forall j, j < length l -> snd (g_test p (tested j p n)) = false) ->
  g_tests p index l n false [] = (tested (length l) p n, []).
Proof.
  induction l as [|x l IH]; intros n H; cbn [g_tests length tested]; [reflexivity|].
  pose proof (H 0 ltac:(cbn [length]; lia)) as H0. cbn [tested] in H0. destruct (g_test p n) as [n' s] eqn:E. cbn [snd fst] in *. subst s. cbn [orb].
  apply IH. intros j Hj. specialize (H (S j) ltac:(cbn [length]; lia)). cbn [tested] in H. now rewrite E in H.
Qed.
Lemma g_tests_true p index : forall l n idx, g_tests p index l n true idx = (tested (length l) p n, idx ++ repeat (w32 (N.of_nat index)) (length l)).
Proof.
  induction l as [|x l IH]; intros n idx; cbn [g_tests length tested repeat]; [now rewrite app_nil_r|].
  destruct (g_test p n) as [n' s]. cbn [orb fst]. rewrite IH, <- app_assoc. reflexivity.
Qed.
Lemma g_tests_at p index : forall l n j, j < length l -> (forall i, i < j -> snd (g_test p (tested i p n)) = false) ->
  snd (g_test p (tested j p n)) = true -> g_tests p index l n false [] = (tested (length l) p n, repeat (w32 (N.of_nat index)) (length l - j)).
Proof.
  induction l as [|x l IH]; intros n j Hj H1 H2; cbn [length] in Hj; [lia|]. cbn [g_tests length tested].
  destruct (g_test p n) as [n' s] eqn:E. cbn [fst]. destruct j as [|j].
  - cbn [tested] in H2. rewrite E in H2. cbn [snd] in H2. subst s. cbn [orb app]. rewrite g_tests_true. now rewrite Nat.sub_0_r.
  - pose proof (H1 0 ltac:(lia)) as H0. cbn [tested] in H0. rewrite E in H0. cbn [snd] in H0. subst s. cbn [orb].
    rewrite (IH n' j); [reflexivity|lia| |].
    + intros i Hi. specialize (H1 (S i) ltac:(lia)). cbn [tested] in H1. now rewrite E in H1.
    + cbn [tested] in H2. now rewrite E in H2.
Qed.
Theorem c100_first_neuron u step ms is p n rest ns1 :
  first_impacts ms = Some is ->
  impact_population (fun x i => obind (g_impact (snd x) i) (fun n => Ret (fst x, n)))
    (flat_map (fun m => match m with GImpact _ _ _ _ _ _ l => l | _ => [] end) ms)
    (map (fun x => (fst x, g_prestep (fst x) (snd x))) ns1) = Ret ((p, n) :: rest) -> is <> [] ->
  (* it does not fire *)
  ((forall j, j < length is -> snd (g_test p (tested j p (g_block n))) = false) ->
   g_population u step ms ns1 = Ret ((p, tested (length is) p (g_block n)) :: rest, None)) /\
  (* the test number [j] is the first at which it fires *)
  forall j, j < length is -> (forall i, i < j -> snd (g_test p (tested i p (g_block n))) = false) ->
    snd (g_test p (tested j p (g_block n))) = true ->
    g_population u step ms ns1 =
      Ret ((p, tested (length is) p (g_block n)) :: rest, Some (GSpike u step false (repeat 0%N (length is - j)))).
Proof.
  intros F I Ne. unfold g_population. fold (g_impacts_of ms) in I. rewrite I. cbn [obind g_neurons]. rewrite F. split.
  - intros H. rewrite (g_tests_none p 0 is (g_block n) H). destruct is; [congruence|reflexivity].
  - intros j Hj H1 H2. rewrite (g_tests_at p 0 is (g_block n) j Hj H1 H2). destruct is as [|i0 is]; [congruence|].
    destruct (length (i0 :: is) - j) as [|k] eqn:E; [lia|]. reflexivity.
Qed.
(** Without a message with impacts there is no spike, whatever the potentials. *)
Theorem c100_silent u step ms ns ns' m : first_impacts ms = None -> g_population u step ms ns = Ret (ns', m) -> m = None.
Proof.
  unfold g_population. intros F. destruct (impact_population _ _ _) as [n1| |]; cbn [obind]; try discriminate.
  rewrite (g_neurons_none _ _ _ F). congruence.
Qed.
(** All other neurons only collect impacts: no test, no spike, no inhibition, no
    floor of the potential. *)
Theorem c100_others u step ms ns ns' m : g_population u step ms ns = Ret (ns', m) ->
  length ns' = length ns /\
  forall i p n, 1 <= i -> nth_error ns i = Some (p, n) ->
    exists n', nth_error ns' i = Some (p, n') /\ impacts g_impact (g_prestep p n) (addressed i (flat_map (fun m => match m with GImpact _ _ _ _ _ _ l => l | _ => [] end) ms)) = Ret n'.
Proof.
  unfold g_population. destruct (impact_population _ _ _) as [n1| |] eqn:E; cbn [obind]; try discriminate. intros [= G].
  apply (impact_population_spec (fun x => x) _ (fun x => (x, true))) in E. rewrite map_length in E. destruct E as [_ [L H]].
  assert (Len : forall ns index, length (fst (g_neurons u step ms index ns)) = length ns).
  { induction ns0 as [|[p n] t IH]; intros index; cbn [g_neurons]; [reflexivity|]. destruct (first_impacts ms).
    - destruct (g_tests p index l (g_block n) false []). reflexivity.
    - specialize (IH (S index)). destruct (g_neurons u step ms (S index) t). cbn [fst length] in *. now rewrite IH. }
  specialize (Len n1 0). rewrite G in Len. cbn [fst] in Len. split; [congruence|].
  intros i p n Hi Hn. destruct (H i (p, g_prestep p n)) as [[p' n'] [E1 E2]].
  { rewrite nth_error_map, Hn. reflexivity. }
  pose proof (g_neurons_other u step ms n1 0 i Hi) as O. rewrite G in O. cbn [fst] in O. rewrite O.
  assert (X : forall l (x y : bl_par * bl), impacts (fun x i => obind (g_impact (snd x) i) (fun n => Ret (fst x, n))) x l = Ret y ->
    fst y = fst x /\ impacts g_impact (snd x) l = Ret (snd y)).
  { clear. induction l as [|i l IH]; intros x y; cbn [impacts].
    - intros [= ->]. auto.
    - destruct (g_impact (snd x) i) as [n| |]; cbn [obind]; try discriminate. intros H. apply IH in H. exact H. }
  apply X in E2. cbn [fst snd] in E2. destruct E2 as [-> E2]. exists n'. split; [exact E1|exact E2].
Qed.

(** A population of one neuron whose first message has exactly one impact is
    computed as on the host, if the neuron has no additional threshold, no burst
    of more than one step is going on, and blocking values fit 32 bits. *)
Definition fits (i : impact) : Prop := i_type i <> BLOCKING \/ exists z, Z_trunc (i_value i) = Some z /\ (0 <= z < 2 ^ 32)%Z.
Lemma g_impact_same n i : fits i -> g_impact n i = bl_impact n i.
Proof.
  unfold g_impact. intros [H|[z [H B]]].
  - destruct (i_type i); congruence.
  - unfold bl_impact. destruct (i_type i); try reflexivity. unfold to_uint32, to_int64. rewrite H.
    assert (E1 : ((0 <=? z) && (z <? 2 ^ 32))%Z = true) by (apply andb_true_intro; split; [apply Z.leb_le|apply Z.ltb_lt]; lia).
    assert (E2 : ((int64_min <=? z) && (z <=? int64_max))%Z = true)
      by (apply andb_true_intro; split; apply Z.leb_le; unfold int64_min, int64_max; lia).
    rewrite E1, E2. reflexivity.
Qed.

Lemma f_ge_zero x a : f_ge x (d_add a d_zero) = f_ge x a.
Proof.
  unfold f_ge, d_add, d_zero. destruct a as [s|s| |s m e]; cbn [SFadd]; try reflexivity.
  destruct s; cbn [Bool.eqb]; destruct x as [[]|[]| |[] m e]; reflexivity.
Qed.
Lemma g_post_same p n : bp_add p = d_zero -> g_test p (g_block n) = bl_post p n.
Proof.
  intros A. unfold g_test, bl_post, g_fires, bl_fires, g_block, bl_next_block. rewrite A.
  destruct (Z.leb_spec (b_block n) 0) as [L|L].
  - assert (X : (b_block n >? 0)%Z = false) by (rewrite Z.gtb_ltb; apply Z.ltb_ge; lia). rewrite X.
    cbn [b_since b_dyn b_trace b_inh b_pot b_pre b_phase b_block b_dopa].
    destruct (Z.ltb_spec (b_block n) 0) as [B|B].
    + rewrite andb_true_r. rewrite f_ge_zero. reflexivity.
    + rewrite andb_false_r. rewrite f_ge_zero. reflexivity.
  - assert (X : (b_block n >? 0)%Z = true) by (rewrite Z.gtb_ltb; apply Z.ltb_lt; lia). rewrite X.
    assert (Y : (b_block n <? 0)%Z = false) by (apply Z.ltb_ge; lia). rewrite Y.
    cbn [b_since b_dyn b_trace b_inh b_pot b_pre b_phase b_block b_dopa]. rewrite f_ge_zero. reflexivity.
Qed.
Lemma g_prestep_same p n : (b_phase n <= 1)%N -> g_prestep p n = bl_prestep false p n.
Proof.
  intros H. unfold g_prestep, bl_prestep. assert (b_phase n = 0 \/ b_phase n = 1)%N as [E|E] by lia; rewrite E; reflexivity.
Qed.
Lemma impacts_host ms : impacts_of (map as_host ms) = g_impacts_of ms.
Proof.
  unfold impacts_of, g_impacts_of. induction ms as [|[] ms IH]; cbn [map flat_map as_host]; [reflexivity|exact IH|]. now rewrite IH.
Qed.
Lemma impact_population_ext {A} (f g : A -> impact -> outcome A) l : (forall x i, In i l -> f x i = g x i) ->
  forall ns, impact_population f l ns = impact_population g l ns.
Proof.
  intros H. induction l as [|i l IH]; intros ns; cbn [impact_population]; [reflexivity|].
  assert (U : forall k ns, update_at k (fun n => f n i) ns = update_at k (fun n => g n i) ns).
  { clear ns. induction k as [|k IHk]; intros [|x t]; cbn [update_at]; try reflexivity.
    - rewrite H by now left. reflexivity.
    - now rewrite IHk. }
  rewrite U. destruct (update_at _ _ ns); cbn [obind]; try reflexivity. apply IH. intros x j Hj. apply H. now right.
Qed.
Theorem c100_same_as_host_partial u step ms p n x : first_impacts ms = Some [x] ->
  bp_add p = d_zero -> (b_phase n <= 1)%N ->
  Forall fits (flat_map (fun m => match m with GImpact _ _ _ _ _ _ l => l | _ => [] end) ms) ->
  apop_step u step (map as_host ms) (PopBlifat [(p, n)]) =
  obind (g_population u step ms [(p, n)]) (fun r => Ret (PopBlifat (fst r), option_map as_host (snd r))).
Proof.
  intros F A Ph Fit. unfold g_population. cbn [apop_step]. rewrite population_step_eq, impacts_host. cbn [map fst snd].
  change (lift_pre (bl_prestep false) (p, n)) with (p, bl_prestep false p n). rewrite <- (g_prestep_same p n Ph).
  rewrite (impact_population_ext (lift_imp bl_impact) (fun x i => obind (g_impact (snd x) i) (fun n => Ret (fst x, n)))).
  2: { intros y i Hi. unfold lift_imp. rewrite g_impact_same; [reflexivity|]. fold (g_impacts_of ms) in Fit. rewrite Forall_forall in Fit. now apply Fit. }
  destruct (impact_population _ _ _) as [n1| |] eqn:E; cbn [obind]; try reflexivity.
  apply (impact_population_spec (fun x => x) _ (fun x => (x, true))) in E. destruct E as [_ [L H]]. cbn [length] in L.
  destruct n1 as [|[p1 n1] [|? ?]]; try discriminate L.
  assert (p1 = p).
  { destruct (H 0 _ eq_refl) as [y [E1 E2]]. injection E1 as <-.
    assert (X : forall l (x y : bl_par * bl), impacts (fun x i => obind (g_impact (snd x) i) (fun n => Ret (fst x, n))) x l = Ret y -> fst y = fst x).
    { clear. induction l as [|i l IH]; intros x y; cbn [impacts]; [now intros [= ->]|].
      destruct (g_impact (snd x) i) as [n| |]; cbn [obind]; try discriminate. intros H. apply IH in H. exact H. }
    apply X in E2. exact E2. }
  subst p1. cbn [g_neurons]. rewrite F. cbn [g_tests]. rewrite (g_post_same p n1 A). unfold lift_post. cbn [map fst snd].
  destruct (bl_post p n1) as [n2 s]. cbn [fst snd orb]. destruct s; reflexivity.
Qed.

(** The differences are real: for each hypothesis dropped, a case in which the two
    backends disagree. *)
Definition z_d (z : Z) : flt := d_of_f (f_of_Z z).
Definition par (add : flt) (burst : N) : bl_par :=
  mkBlPar (z_d 5) add d_one d_zero d_one d_zero d_zero d_one burst (z_d 7) d_zero 0 d_zero (z_d (-100)).
Definition cell0 (phase : N) : bl := mkBl 10 d_zero d_zero d_zero d_zero d_zero phase 100 d_zero.
Definition imp (v : Z) (post : N) : impact := mkImpact 0 (f_of_Z v) EXCITATORY 0 post.
Definition of_gpu (r : outcome (list (bl_par * bl) * option gmsg)) : option (option message) :=
  match r with Ret (_, m) => Some (option_map as_host m) | _ => None end.
Definition of_cpu (r : outcome (apop * option message)) : option (option message) :=
  match r with Ret (_, m) => Some m | _ => None end.
Definition both (ms : list gmsg) (ns : list (bl_par * bl)) : option (option message) * option (option message) :=
  (of_gpu (g_population 3 1 ms ns), of_cpu (apop_step 3 1 (map as_host ms) (PopBlifat ns))).
Definition msg (l : list impact) : gmsg := GImpact 9 1 false 0 3 true l.
Theorem c100_same_as_host_refuted :
  (* the second neuron does not fire *)
  both [msg [imp 6 1]] [(par d_zero 0, cell0 0); (par d_zero 0, cell0 0)] = (Some None, Some (Some (SpikeMsg 3 1 [1%N]))) /\
  (* three impacts: the neuron is named three times *)
  both [msg [imp 6 0; imp 1 0; imp 1 0]] [(par d_zero 0, cell0 0)] =
    (Some (Some (SpikeMsg 3 1 [0%N; 0%N; 0%N])), Some (Some (SpikeMsg 3 1 [0%N]))) /\
  (* the additional threshold is ignored *)
  both [msg [imp 6 0]] [(par (z_d 2) 0, cell0 0)] = (Some (Some (SpikeMsg 3 1 [0%N])), Some None) /\
  (* a potential above the threshold without impacts *)
  both [] [(par d_zero 0, mkBl 10 d_zero d_zero d_zero (z_d 6) d_zero 0 0 d_zero)] = (Some None, Some (Some (SpikeMsg 3 1 [0%N]))) /\
  (* the reflexive weight of a burst of two steps *)
  (exists p n1 n2 m2 m1, p = par d_zero 2 /\
     g_population 3 1 [] [(p, cell0 2)] = Ret ([(p, n1)], m1) /\ g_population 3 2 [msg [imp 1 0]] [(p, n1)] = Ret ([(p, n2)], m2) /\
     option_map as_host m2 = Some (SpikeMsg 3 2 [0%N])).
Proof.
  split; [vm_compute; reflexivity|]. split; [vm_compute; reflexivity|]. split; [vm_compute; reflexivity|].
  split; [vm_compute; reflexivity|].
  eexists _, _, _, _, _. split; [reflexivity|]. split; [vm_compute; reflexivity|]. split; [vm_compute; reflexivity|]. vm_compute. reflexivity.
Qed.

(** The order in which threads found the messages decides what is sent. *)
Theorem c100_order_refuted : exists sz u step bus ns,
  Permutation [0; 1] [1; 0] /\
  match g_population_thread sz u step (map Obj bus) (length bus) [0; 1] ns, g_population_thread sz u step (map Obj bus) (length bus) [1; 0] ns with
  | Ret (_, m), Ret (_, m') => m = GSpike u step false [0%N] /\ m' = GSpike u step false [0%N; 0%N]
  | _, _ => False
  end.
Proof.
  exists 64, 3%N, 1%N, [msg [imp 6 0]; msg [imp 1 0; imp 1 0]], [(par d_zero 0, cell0 0)].
  split; [constructor|]. vm_compute. auto.
Qed.

(** Bursting: a neuron on the device counts its phase down in every step, and the
    reflexive weight is added in the step in which the count reaches zero (on the
    host only a period of one step works, c34_bursting_refuted). *)
Fixpoint presteps (k : nat) (p : bl_par) (n : bl) : bl := match k with 0 => n | S k' => presteps k' p (g_prestep p n) end.
Theorem c100_bursting p n k : b_phase n = N.of_nat (S k) ->
  let m := presteps k p n in
  b_phase m = 1%N /\ b_phase (g_prestep p m) = 0%N /\
  b_pot (g_prestep p m) = d_add (d_mul (b_pot m) (bp_pot_decay p)) (bp_reflex p) /\
  forall j, j < k -> b_pot (presteps (S j) p n) = d_mul (b_pot (presteps j p n)) (bp_pot_decay p).
Proof.
  assert (S1 : forall j p n, presteps (S j) p n = g_prestep p (presteps j p n)).
  { clear. induction j as [|j IH]; intros p n; [reflexivity|]. cbn [presteps] in IH |- *. apply IH. }
  assert (Ph : forall j p n, (N.of_nat j < b_phase n)%N -> b_phase (presteps j p n) = (b_phase n - N.of_nat j)%N).
  { clear - S1. induction j as [|j IH]; intros p n H; [cbn [presteps]; lia|]. rewrite S1. unfold g_prestep. rewrite IH by lia.
    destruct (N.eqb_spec (b_phase n - N.of_nat j) 0); [lia|]. destruct (b_phase n - N.of_nat j - 1 =? 0)%N; cbn [b_phase]; lia. }
  intros H. cbv zeta. assert (E : b_phase (presteps k p n) = 1%N) by (rewrite Ph by lia; lia). split; [exact E|].
  split; [unfold g_prestep; rewrite E; reflexivity|]. split; [unfold g_prestep; rewrite E; reflexivity|].
  intros j Hj. rewrite S1. unfold g_prestep. rewrite Ph by lia.
  destruct (N.eqb_spec (b_phase n - N.of_nat j) 0); [reflexivity|].
  destruct (N.eqb_spec (b_phase n - N.of_nat j - 1) 0); [lia|]. reflexivity.
Qed.
Example c100_case : exists n' m', g_population 3 1 [msg [imp 6 0]; GSpike 1 1 true [4%N]; msg [imp 1 0]] [(par d_zero 1, cell0 1)] =
    Ret ([(par d_zero 1, n')], m') /\ m' = Some (GSpike 3 1 false [0%N]) /\
  first_impacts [msg [imp 6 0]; GSpike 1 1 true [4%N]; msg [imp 1 0]] = Some [imp 6 0] /\
  Forall fits (flat_map (fun m => match m with GImpact _ _ _ _ _ _ l => l | _ => [] end) [msg [imp 6 0]; GSpike 1 1 true [4%N]; msg [imp 1 0]]).
Proof.
  eexists _, _. split; [vm_compute; reflexivity|]. split; [reflexivity|]. split; [reflexivity|].
  repeat (apply Forall_cons; [left; discriminate|]). constructor.
Qed.
Print Assumptions c99_exactly_once.
