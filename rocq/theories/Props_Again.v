(** Property theorems C129: a network that ran can be used again. *)
From Verif Require Import Base ListLemmas Messaging_Model Messaging_Spec Messaging_Proofs Messaging_Proofs2 Projection_Model Projection_Spec Projection_Proofs Delta_Model Delta_Spec Delta_Proofs Neuron_Model
  Pipeline_Model Pipeline_Spec Pipeline_Proofs Pipeline_Proofs2 Stdp_Model Additive_Model Train_Model Net_Model Net_Spec Net_Proofs Net_Proofs2 Net_Proofs3 Net_Proofs4
  Net_Proofs5 Props_Net Props_Net2 Framework_Model Load_Spec Safe_Spec Safe_Proofs Safe_Proofs2 Props_Safe Exec_Model Exec_Spec Exec_Proofs Exec_Proofs2 Exec_Proofs3 Exec_Proofs4 Exec_Proofs5 Exec_Proofs6 Props_Exec
  Props_ExecSafe Classify_Model Infer_Model Build_Model Build_Spec Build_Proofs Props_Build Mnist_Model Mnist_Spec Mnist_Proofs Props_Mnist Again_Spec Again_Proofs.

Lemma handled_spikes : forall recs t, (forall s rec, nth_error recs s = Some rec -> is_spikes (flat_map snd (xr_handled rec))) -> is_spikes (handled_before recs t).
Proof. intros recs t H. unfold handled_before. destruct t as [|t]; [constructor|]. destruct (nth_error recs t) eqn:E; [exact (H _ _ E)|constructor]. Qed.
Lemma takes_like a0 a t v : same_kind a0 a -> Safe_Spec.takes a0 t v -> Safe_Spec.takes a t v.
Proof. destruct a0 as [[?|?|?]|?|?], a as [[?|?|?]|?|?]; cbn [same_kind Safe_Spec.takes]; try contradiction; auto. Qed.
Lemma same_size a0 a : same_kind a0 a -> size a = size a0.
Proof. destruct a0 as [[?|?|?]|?|?], a as [[?|?|?]|?|?]; cbn [same_kind]; try contradiction; auto. Qed.
Lemma Forall2_In_r {A B} (R : A -> B -> Prop) l l' : Forall2 R l l' -> forall b, In b l' -> exists a, In a l /\ R a b.
Proof. induction 1 as [|a b l l' H _ IH]; intros c Hc; [contradiction|]. destruct Hc as [<-|Hc]; [exists a; cbn; auto|]. destruct (IH c Hc) as (x & H1 & H2). exists x. cbn. auto. Qed.
Lemma NoDup_sub {A B} (f : A -> B) p l : NoDup (map f l) -> NoDup (map f (filter p l)).
Proof.
  induction l as [|a l IH]; [auto|]. cbn [map filter]. intros H. inversion H as [|? ? N1 N2]. destruct (p a); [|auto]. cbn [map]. constructor; [|auto].
  intros Hi. apply N1. apply in_map_iff in Hi as (z & E & Hz). apply filter_In in Hz as [Hz _]. apply in_map_iff. eauto.
Qed.

Lemma ran_inv pow2f expf gens ins outs calls pops projs turns x recs :
  sound_network pops projs -> Forall indexed projs -> wired (connections ins calls) pops projs ->
  executor_ran pow2f expf gens ins outs calls pops projs turns x recs ->
  map fst (nb_pops (x_net x)) = map fst pops /\ Forall (fun e => (N.of_nat (size (snd e)) <= two32)%N) (nb_pops (x_net x)) /\
  pops_like pops (nb_pops (x_net x)) /\ Forall indexed (nb_projs (x_net x)) /\ Forall nproj_ok (nb_projs (x_net x)) /\
  Forall2 (proj_inv (connections ins calls) pops) projs (nb_projs (x_net x)) /\ map fixed (nb_projs (x_net x)) = map fixed projs.
Proof.
  intros Hs Hi Hw Hr.
  destruct (ran_facts _ _ _ _ _ _ _ _ _ _ _ Hs Hr) as (turns' & k & Hf & _ & (k0 & Ek & En) & Ep & Ej & Lr & F & _).
  assert (Hsp : forall t rec, nth_error recs t = Some rec -> exists g, nth_error (rounds [] turns) t = Some g).
  { intros t rec Ht. destruct (nth_error (rounds [] turns) t) eqn:E; [eauto|]. apply nth_error_None in E. assert (t < length recs) by (apply nth_error_Some; congruence). lia. }
  assert (Hh : forall t r, nth_error (map xr_net recs) t = Some r -> Forall (harmless (connections ins calls) pops projs) (r_ext (nr_msgs r))).
  { intros t r Ht. apply spikes_harmless. rewrite nth_error_map in Ht. destruct (nth_error recs t) as [rec|] eqn:E; [|discriminate Ht]. injection Ht as <-.
    destruct (Hsp t rec E) as (g & Eg). destruct (F t rec g E Eg) as (-> & _). apply Forall_app. split; [apply inputs_spikes|]. apply handled_spikes.
    intros s rec' Es. destruct (Hsp s rec' Es) as (g' & Eg'). destruct (F s rec' g' Es Eg') as (_ & _ & -> & _).
    apply Forall_flat_map, Forall_map, Forall_forall. intros [[u ss] f] _. unfold reply. cbn [snd]. destruct (f s _); repeat constructor. }
  destruct (safe_run pow2f expf _ pops projs Hs Hw turns' [] k0 k _ (safe_init _ pops projs Hs Hw k0 Ek) Hf En Hh) as (prev & [R Hp Hj _]).
  destruct (nbackend_init_ready (connections ins calls) pops projs Hs) as (k1 & Ek1 & _ & K2 & _). rewrite Ek in Ek1. injection Ek1 as <-.
  assert (Up : Forall indexed (nb_projs (x_net x))). { rewrite Ej. apply learn_up. apply (nrun_up _ _ _ _ _ _ En). now rewrite K2. }
  assert (Ok : Forall nproj_ok (nb_projs (x_net x))) by (rewrite Ej; apply learn_all_ok; apply (nrd_ok _ _ _ _ _ R)).
  assert (Inv : Forall2 (proj_inv (connections ins calls) pops) projs (nb_projs (x_net x))) by (rewrite Ej; now apply inv_learn).
  rewrite Ep. split; [exact (nrd_us _ _ _ _ _ R)|]. split; [exact (nrd_sizes _ _ _ _ _ R)|]. split; [exact Hp|]. split; [exact Up|]. split; [exact Ok|]. split; [exact Inv|].
  clear -Inv. induction Inv as [|w0 w l l' [[H _] _] _ IH]; [reflexivity|]. cbn [map]. now rewrite H, IH.
Qed.

(** *** C129 *)
(** After any rounds of the executor with a wired network made by constructors, whatever the data, the handlers
    and the learning: any part of the network, taken out of the backend, is again
    sound, and wired whatever channels and handlers are connected to it. *)
Theorem c129_again pow2f expf gens ins outs calls pops projs turns x recs :
  sound_network pops projs -> Forall indexed projs -> wired (connections ins calls) pops projs ->
  executor_ran pow2f expf gens ins outs calls pops projs turns x recs ->
  forall keep_pops keep_projs ins' calls',
  let pops' := filter (fun e => keep_pops (fst e)) (nb_pops (x_net x)) in
  let projs' := filter (fun w => keep_projs (np_uid w)) (map emptied (nb_projs (x_net x))) in
  sound_network pops' projs' /\ Forall indexed projs' /\ wired (connections ins' calls') pops' projs'.
Proof.
  intros Hs Hi Hw Hr keep_pops keep_projs ins' calls' pops' projs'.
  destruct (ran_inv _ _ _ _ _ _ _ _ _ _ _ Hs Hi Hw Hr) as (Eus & Zs & Hp & Up & Ok & Inv & _).
  assert (Us : map np_uid (nb_projs (x_net x)) = map np_uid projs).
  { clear -Inv. induction Inv as [|w0 w l l' [[H _] _] _ IH]; [reflexivity|]. cbn [map]. rewrite IH. f_equal. unfold fixed in H. congruence. }
  assert (Emp : forall w', In w' projs' -> exists w, In w (nb_projs (x_net x)) /\ w' = emptied w).
  { intros w' Hin. apply filter_In in Hin as [Hin _]. apply in_map_iff in Hin as (w & <- & Hin). eauto. }
  assert (Pin : forall e, In e pops' -> In e (nb_pops (x_net x))) by (intros e He; now apply filter_In in He as [He _]).
  rewrite Forall_forall in Up, Ok.
  split; [|split].
  - split.
    + apply NoDup_sub. rewrite Eus. apply (sn_pops _ _ Hs).
    + apply NoDup_sub. rewrite map_map. change (NoDup (map np_uid (nb_projs (x_net x)))). rewrite Us. apply (sn_projs _ _ Hs).
    + apply Forall_forall. intros w' Hin. destruct (Emp w' Hin) as (w & Hw' & ->). apply indexed_sound; [exact (Up w Hw')|exact (proj1 (Ok w Hw'))].
    + apply Forall_forall. intros w' Hin. now destruct (Emp w' Hin) as (w & _ & ->).
    + apply Forall_forall. intros e He. rewrite Forall_forall in Zs. exact (Zs e (Pin e He)).
  - apply Forall_forall. intros w' Hin. destruct (Emp w' Hin) as (w & Hw' & ->). exact (Up w Hw').
  - split.
    + intros u a Hin. destruct (Forall2_In_r _ _ _ Hp _ (Pin _ Hin)) as ([u0 a0] & _ & _ & _ & S). exact S.
    + intros u a w' s Hu Hin Hre Hsy. destruct (Forall2_In_r _ _ _ Hp _ (Pin _ Hu)) as ([u0 a0] & Hu0 & Eu & Sk & _). cbn [fst snd] in Eu, Sk. subst u0.
      destruct (Emp w' Hin) as (w & Hw' & ->). destruct (Forall2_In_r _ _ _ Inv w Hw') as (w0 & Hw0 & [[Hfx Hd] _]).
      change (delta_synapses (emptied w)) with (delta_synapses w) in Hsy.
      assert (Hre0 : reaches (connections ins calls) w0 u).
      { destruct Hre as [[H1 H2]|H]; [|now rewrite connections_spikes in H]. left. split; [exact H1|]. cbn [emptied np_post] in H2. rewrite <- H2. symmetry. now apply fixed_post. }
      assert (Hm : exists s0, In s0 (delta_synapses w0) /\ sy_to s0 = sy_to s /\ d_type (sy_params s0) = d_type (sy_params s)).
      { assert (E : map (fun s => (sy_from s, sy_to s, d_delay (sy_params s), d_type (sy_params s))) (delta_synapses w) =
                    map (fun s => (sy_from s, sy_to s, d_delay (sy_params s), d_type (sy_params s))) (delta_synapses w0)) by (unfold fixed in Hfx; congruence).
        pose proof Hsy as Hsy'. apply (in_map (fun s => (sy_from s, sy_to s, d_delay (sy_params s), d_type (sy_params s)))) in Hsy'. rewrite E in Hsy'.
        apply in_map_iff in Hsy' as (s0 & E0 & Hs0). exists s0. split; [exact Hs0|]. split; congruence. }
      destruct Hm as (s0 & Hs0 & Eto & Ety). destruct (wi_synapses _ _ _ Hw u a0 w0 s0 Hu0 Hw0 Hre0 Hs0) as (W1 & W2 & W3).
      rewrite Eto in W1. rewrite Ety in W2, W3. split; [now rewrite (same_size _ _ Sk)|]. split.
      * apply (takes_like _ _ _ _ Sk). destruct (d_type (sy_params s)) eqn:Et.
        5:{ destruct (W3 eq_refl) as (p & E). assert (Fo : np_forced w0 = true) by (unfold np_forced; now rewrite E).
            rewrite (Hd Fo) in Hsy. destruct (wi_synapses _ _ _ Hw u a0 w0 s Hu0 Hw0 Hre0 Hsy) as (_ & W2' & _). now rewrite Et in W2'. }
        all: destruct a0 as [[?|?|?]|?|?]; cbn [Safe_Spec.takes] in *; try exact W2; try (intros; discriminate); (split; [apply W2|intros; discriminate]).
      * intros Eb. destruct (W3 Eb) as (p & E). assert (Fo : np_forced w = true) by (replace (np_forced w) with (np_forced w0) by (unfold fixed in Hfx; congruence); unfold np_forced; now rewrite E).
        cbn [emptied np_kind]. unfold np_forced in Fo. destruct (np_kind w) as [q|l q|l q]; try discriminate Fo. eauto.
Qed.
Print Assumptions c129_again.
(** So it can be run again, with other channels, outputs, handlers and rounds, any number of times, and never fails. *)
Theorem c129_never_fails pow2f expf gens ins outs calls pops projs turns x recs :
  sound_network pops projs -> Forall indexed projs -> wired (connections ins calls) pops projs ->
  executor_ran pow2f expf gens ins outs calls pops projs turns x recs ->
  forall keep_pops keep_projs gens' ins' outs' calls' turns', incl (map fst ins') gens' ->
  exists x' recs', executor_ran pow2f expf gens' ins' outs' calls'
    (filter (fun e => keep_pops (fst e)) (nb_pops (x_net x))) (filter (fun w => keep_projs (np_uid w)) (map emptied (nb_projs (x_net x)))) turns' x' recs'.
Proof.
  intros Hs Hi Hw Hr keep_pops keep_projs gens' ins' outs' calls' turns' Hg.
  destruct (c129_again _ _ _ _ _ _ _ _ _ _ _ Hs Hi Hw Hr keep_pops keep_projs ins' calls') as (S' & _ & W'). now apply c116_never_fails.
Qed.
Print Assumptions c129_never_fails.
(** It is the same network but for states, weights, learning rules' values and locks: the same populations, of the same sizes;
    the same projections, with the same ends, and the same synapses, with the same ends, delays and types. *)
Theorem c129_same pow2f expf gens ins outs calls pops projs turns x recs :
  sound_network pops projs -> Forall indexed projs -> wired (connections ins calls) pops projs ->
  executor_ran pow2f expf gens ins outs calls pops projs turns x recs ->
  map (fun e => (fst e, size (snd e))) (nb_pops (x_net x)) = map (fun e => (fst e, size (snd e))) pops /\
  map fixed (map emptied (nb_projs (x_net x))) = map fixed projs.
Proof.
  intros Hs Hi Hw Hr. destruct (ran_inv _ _ _ _ _ _ _ _ _ _ _ Hs Hi Hw Hr) as (_ & _ & Hp & _ & _ & _ & Ef). split.
  - clear -Hp. induction Hp as [|e0 e l l' (H1 & H2 & _) _ IH]; [reflexivity|]. cbn [map]. now rewrite IH, H1, (same_size _ _ H2).
  - rewrite map_map. exact Ef.
Qed.
Print Assumptions c129_same.

Lemma build_indexed : forall calls s s', build calls s = Ret s' -> Forall indexed (bt_projs s) -> Forall indexed (bt_projs s').
Proof.
  induction calls as [|c t IH]; intros s s' H U; cbn [build] in H; [now injection H as <-|]. destruct (build_call c s) as [s1| |] eqn:E; try discriminate H. cbn [obind] in H.
  apply (IH _ _ H). destruct c as [|u n k r keep|k keep|u t' c' pre post tr wta]; cbn [build_call] in E; try (injection E as <-; exact U).
  unfold add_projection in E. destruct (nth_error _ pre) as [a|]; [|discriminate E]. destruct (nth_error _ post) as [b|]; [|discriminate E].
  destruct (make_kind _ _ _ _) as [k| |] eqn:Ek; try discriminate E. cbn [obind] in E. injection E as <-. cbn [bt_projs]. apply Forall_app. split; [exact U|]. constructor; [|constructor].
  unfold indexed. cbn [np_kind]. unfold make_kind in Ek. destruct t'; destruct (connect _ _ _ _) as [l| |]; try discriminate Ek; cbn [obind] in Ek; injection Ek as <-; reflexivity.
Qed.
Lemma filter_map {A B} (f : A -> B) (p : B -> bool) l : map f (filter (fun a => p (f a)) l) = filter p (map f l).
Proof. induction l as [|a l IH]; [reflexivity|]. cbn [map filter]. destruct (p (f a)); cbn [map]; now rewrite IH. Qed.
(** The MNIST network that [train_network] leaves, cut down to what the constructor kept for inference: the populations and
    projections are those of [prepare_network_for_inference] of the network before the training, and the
    executor never fails with it, whatever channels, handlers and rounds. *)
Theorem c129_inference pow2f expf network_calls m q classes column raster borders winners d images labels output b limit fresh r before after fuel x recs e s :
  proper m q classes column raster -> network_calls = altai_calls m q classes column raster \/ network_calls = blifat_calls m q classes column raster ->
  trainable d -> Permutation.Permutation (concat b) (input_entries m images labels) -> build network_calls nothing = Ret s ->
  train_network pow2f expf network_calls m borders winners d images labels output b limit fresh r before after fuel = Ret (x, recs, e) ->
  let (projs', pops') := prepare_blifat (bt_keep_pops s) (bt_keep_projs s) (map emptied (nb_projs (x_net x))) (nb_pops (x_net x)) in
  map fst pops' = map fst (snd (prepare_blifat (bt_keep_pops s) (bt_keep_projs s) (bt_projs s) (bt_pops s))) /\
  map fixed projs' = map fixed (fst (prepare_blifat (bt_keep_pops s) (bt_keep_projs s) (bt_projs s) (bt_pops s))) /\
  forall gens' ins' outs' calls' turns', incl (map fst ins') gens' ->
    exists x' recs', executor_ran pow2f expf gens' ins' outs' calls' pops' projs' turns' x' recs'.
Proof.
  intros Hp Hc Hd Hb Eb Hr. pose proof (example_sensible _ _ _ _ _ _ Hp Hc) as Hse.
  destruct (trained pow2f expf network_calls m borders winners d images labels output b limit fresh r before after fuel Hse Hd Hb) as (s' & x' & recs' & turns & Eb' & S & F1 & _ & F3 & _).
  rewrite Eb in Eb'. injection Eb' as <-. rewrite Hr in F1. injection F1 as <- <- _.
  assert (I : Forall indexed (bt_projs s)) by (apply (build_indexed _ _ _ Eb); constructor).
  match type of F3 with executor_ran _ _ _ ?i _ ?c _ _ _ _ _ => destruct (c126_runs network_calls s (connections i c) Hse (fun u v => connections_spikes _ _ u v) Eb) as [_ W] end.
  destruct (c129_same _ _ _ _ _ _ _ _ _ _ _ S I W F3) as [Q1 Q2]. destruct (ran_inv _ _ _ _ _ _ _ _ _ _ _ S I W F3) as (Q0 & _).
  unfold prepare_blifat, marked_only. cbn [fst snd]. split; [|split].
  - rewrite !(filter_map fst (fun u => mem u (bt_keep_pops s))). now rewrite Q0.
  - assert (G : forall l, map fixed (filter (fun a => mem (np_uid a) (bt_keep_projs s)) l) = filter (fun y => mem (fst (fst (fst (fst (fst y))))) (bt_keep_projs s)) (map fixed l)).
    { intros l. exact (filter_map fixed (fun y => mem (fst (fst (fst (fst (fst y))))) (bt_keep_projs s)) l). }
    rewrite !G. now rewrite Q2.
  - intros gens' ins' outs' calls' turns' Hg. exact (c129_never_fails _ _ _ _ _ _ _ _ _ _ _ S I W F3 (fun u => mem u (bt_keep_pops s)) (fun u => mem u (bt_keep_projs s)) gens' ins' outs' calls' turns' Hg).
Qed.
Print Assumptions c129_inference.

(** The network of Props_Exec meets the hypotheses; it runs, and can be run again without one of its populations
    and with other channels. *)
Example c129_case : sound_network net_pops (net_projs 2) /\ Forall indexed (net_projs 2) /\ wired (connections xe_ins xe_calls) net_pops (net_projs 2).
Proof. destruct c116_case as (H1 & H2 & _). split; [exact H1|]. split; [repeat constructor|exact H2]. Qed.
Example c129_case_again pow2f expf turns turns' : exists x recs x' recs',
  executor_ran pow2f expf [9]%N xe_ins xe_outs xe_calls net_pops (net_projs 2) turns x recs /\
  executor_ran pow2f expf [5]%N [(5, [21; 22])]%N [] [] (filter (fun e => negb (N.eqb (fst e) 2)) (nb_pops (x_net x))) (filter (fun w => true) (map emptied (nb_projs (x_net x)))) turns' x' recs'.
Proof.
  destruct c129_case as (H1 & H2 & H3). destruct (c116_never_fails pow2f expf [9]%N xe_ins xe_outs xe_calls _ _ turns H1 H3 (proj2 (proj2 c116_case))) as (x & recs & Hr).
  destruct (c129_never_fails _ _ _ _ _ _ _ _ _ _ _ H1 H2 H3 Hr (fun u => negb (N.eqb u 2)) (fun _ => true) [5]%N [(5, [21; 22])]%N [] [] turns' (fun u Hu => Hu)) as (x' & recs' & Hr').
  exists x, recs, x', recs'. auto.
Qed.
