(** Property theorems C128: the training program of the MNIST example. *)
From Verif Require Import Base ListLemmas Messaging_Model Messaging_Spec Projection_Model Neuron_Model Pipeline_Model Pipeline_Spec Train_Model Net_Model Net_Spec
  Framework_Model Safe_Spec Exec_Model Exec_Spec Props_Exec Props_ExecSafe Handlers_Model Handlers_Proofs Classify_Model Classify_Spec Classify_Proofs Props_Classify Build_Model Build_Spec Build_Proofs Props_Build
  Mnist_Model Mnist_Spec Mnist_Proofs.

(** *** C128 *)
Lemma trained pow2f expf network_calls m borders winners d images labels output b limit fresh r before after fuel :
  sensible network_calls -> trainable d -> Permutation.Permutation (concat b) (input_entries m images labels) ->
  exists s x recs turns, build network_calls nothing = Ret s /\ sound_network (bt_pops s) (bt_projs s) /\
    train_network pow2f expf network_calls m borders winners d images labels output b limit fresh r before after fuel
      = Ret (x, recs, Nat.ltb (N.to_nat (ds_train d * 15)) fuel) /\
    length recs = Nat.min fuel (N.to_nat (ds_train d * 15)) /\
    executor_ran pow2f expf [images; labels] (channels_of b) [(output, bt_outputs s)] (before ++ wta_calls limit fresh r 0 winners borders (wta_groups m) ++ after)
      (bt_pops s) (bt_projs s) turns x recs /\
    forall i u, nth_error turns i = Some u -> round_at (generator_of d images) (channels_of b) [] (ds_train d * 15) (N.of_nat i) = Ret u.
Proof.
  intros Hs Hd Hb. destruct (build_ok network_calls (sensible_sized _ Hs)) as (s & Eb & _). exists s.
  set (calls := before ++ wta_calls limit fresh r 0 winners borders (wta_groups m) ++ after).
  destruct (c126_runs network_calls s (connections (channels_of b) calls) Hs (fun u v => connections_spikes _ _ u v) Eb) as [S W].
  assert (Hg : incl (map fst (channels_of b)) [images; labels]).
  { intros c Hc. apply (channels_named _ _ Hb) in Hc. cbn in Hc. cbn. intuition. }
  destruct (c116_never_fails pow2f expf [images; labels] (channels_of b) [(output, bt_outputs s)] calls (bt_pops s) (bt_projs s) [] S W Hg) as (_ & _ & x0 & Ei & _).
  pose proof (trainable_steps d Hd) as Et.
  destruct (loop_all pow2f expf [images; labels] (generator_of d images) (channels_of b) [(output, bt_outputs s)] calls (bt_pops s) (bt_projs s) [] (ds_train d * 15) S W Hg
    (fun c step H => source_ok d images c step Hd H)) with (x0 := x0) (fuel := fuel) as (x & recs & turns & F1 & F2 & F3 & F4).
  - destruct Hd as (_ & _ & _ & H). unfold two32, two64 in *. lia.
  - exact Ei.
  - exists x, recs, turns. split; [exact Eb|]. split; [exact S|]. split; [|auto]. unfold train_network. rewrite Eb. cbn [obind]. cbv zeta. fold calls. rewrite Ei. cbn [obind]. rewrite Et. exact F1.
Qed.
Lemma example_sensible m q classes column raster network_calls : proper m q classes column raster ->
  network_calls = altai_calls m q classes column raster \/ network_calls = blifat_calls m q classes column raster -> sensible network_calls.
Proof. intros H [->| ->]; [now apply c126_altai|now apply c126_blifat]. Qed.
(** Training goes through, however the channels fall into the buckets of the multimap, whatever the handlers draw and whatever
    observers there are: the loop ends in the round after step 15 * (training frames) - 1; it makes exactly
    that many steps. *)
Theorem c128_trains pow2f expf network_calls m q classes column raster borders winners d images labels output b limit fresh r before after fuel :
  proper m q classes column raster -> network_calls = altai_calls m q classes column raster \/ network_calls = blifat_calls m q classes column raster ->
  trainable d -> Permutation.Permutation (concat b) (input_entries m images labels) -> N.to_nat (ds_train d * 15) < fuel ->
  exists x recs, train_network pow2f expf network_calls m borders winners d images labels output b limit fresh r before after fuel = Ret (x, recs, true) /\
    length recs = N.to_nat (ds_train d * 15) /\ x_done x = length recs.
Proof.
  intros Hp Hc Hd Hb Hf. destruct (trained pow2f expf network_calls m borders winners d images labels output b limit fresh r before after fuel (example_sensible _ _ _ _ _ _ Hp Hc) Hd Hb) as (s & x & recs & turns & _ & S & F1 & F2 & F3 & _).
  exists x, recs. split; [rewrite F1; f_equal; f_equal; apply Nat.ltb_lt, Hf|]. split; [lia|].
  destruct (c105_network _ _ _ _ _ _ _ _ _ _ _ S F3) as (_ & _ & _ & _ & _ & _ & D & _). exact D.
Qed.
Print Assumptions c128_trains.
(** In every step, from outside come the pixels, in the step of the frame, of the training frame whose turn it
    is, and in its step 11 its label, from the channels; and what the handlers sent in the step
    before.  Frames come in order, every one once. *)
Theorem c128_told pow2f expf network_calls m q classes column raster borders winners d images labels output b limit fresh r before after fuel x recs e t rec :
  proper m q classes column raster -> network_calls = altai_calls m q classes column raster \/ network_calls = blifat_calls m q classes column raster ->
  trainable d -> Permutation.Permutation (concat b) (input_entries m images labels) ->
  train_network pow2f expf network_calls m borders winners d images labels output b limit fresh r before after fuel = Ret (x, recs, e) -> nth_error recs t = Some rec ->
  exists label data pixels, t / 15 < N.to_nat (ds_train d) /\ nth_error (ds_data d) (t / 15) = Some (label, data) /\ shows (ds_image d) data (N.of_nat (t mod 15)) pixels /\
    r_ext (nr_msgs (xr_net rec)) =
      flat_map (fun c => spoken (fst c) t (if N.eqb (fst c) images then pixels else if Nat.eqb (t mod 15) 11 then [label] else [])) (channels_of b) ++ handled_before recs t.
Proof.
  intros Hp Hc Hd Hb Hr Ht. destruct (trained pow2f expf network_calls m borders winners d images labels output b limit fresh r before after fuel (example_sensible _ _ _ _ _ _ Hp Hc) Hd Hb) as (s & x' & recs' & turns & _ & S & F1 & F2 & F3 & F4).
  rewrite Hr in F1. injection F1 as <- <- _. pose proof Hd as ((_ & P2 & _) & D1 & D2 & D3).
  assert (Lt : t < N.to_nat (ds_train d * 15)). { assert (t < length recs) by (apply nth_error_Some; congruence). lia. }
  assert (Go : forall i u, nth_error turns i = Some u -> i <= t -> xt_go u = true).
  { intros i u Hu Hl. apply F4 in Hu. unfold round_at in Hu. destruct (generate _ _ _); try discriminate Hu. injection Hu as <-. cbn [xt_go]. apply negb_true_iff, N.eqb_neq. lia. }
  pose proof (rounds_go t turns Go) as Er.
  assert (Lr : exists g, nth_error (rounds [] turns) t = Some g).
  { destruct (nth_error (rounds [] turns) t) eqn:E; [eauto|]. apply nth_error_None in E. destruct (c105_network _ _ _ _ _ _ _ _ _ _ _ S F3) as (_ & _ & _ & _ & _ & L & _).
    assert (t < length recs) by (apply nth_error_Some; congruence). assert (K : forall l l0, length (rounds l0 l) = length (filter xt_go l)).
    { clear. induction l as [|u l IH]; intros l0; cbn [rounds filter]; [reflexivity|]. destruct (xt_go u); cbn [length]; now rewrite IH. }
    rewrite K in E. lia. }
  destruct Lr as (g & Eg). rewrite Eg in Er. destruct (nth_error turns t) as [u|] eqn:Eu; [|discriminate Er]. cbn [option_map] in Er. injection Er as ->.
  destruct (c105_messages _ _ _ _ _ _ _ _ _ _ _ t rec [u] S F3 Ht Eg) as (E & _). apply F4 in Eu. unfold round_at in Eu. destruct (generate _ _ _) as [l| |] eqn:El; try discriminate Eu. injection Eu as <-.
  assert (Dv : (N.of_nat t / 15 = N.of_nat (t / 15))%N) by (change 15%N with (N.of_nat 15); symmetry; apply Nat2N.inj_div).
  assert (Md : (N.of_nat t mod 15 = N.of_nat (t mod 15))%N) by (change 15%N with (N.of_nat 15); symmetry; apply Nat2N.inj_mod).
  assert (Lf : (N.of_nat t / 15 < ds_train d)%N) by (apply N.div_lt_upper_bound; lia).
  destruct (labels_ok d (N.of_nat t) Hd ltac:(lia)) as ([label data] & N1 & N2).
  destruct (c64_training d (N.of_nat t) (proj1 Hd) D2) as (label' & data' & pixels & M1 & _ & M3 & M4). rewrite D1 in M1, M4. rewrite (N.mod_small _ _ Lf), N1 in M1. injection M1 as <- <-.
  exists label, data, pixels. rewrite Dv in N1, Lf. rewrite Nat2N.id in N1. split; [lia|]. split; [exact N1|]. split; [rewrite <- Md; exact M4|].
  rewrite E. f_equal. rewrite N.mod_small by (unfold two32, two64 in *; lia). etransitivity; [exact (generated _ _ t _ l _ _ 0 [] El eq_refl)|].
  apply flat_map_ext. intros [c ps]. cbn [fst]. unfold generator_of. destruct (N.eqb c images); [now rewrite M3|]. rewrite N2, Md. cbn [fst].
  destruct (Nat.eqb_spec (t mod 15) 11) as [->|Hne]; [reflexivity|]. replace (N.eqb (N.of_nat (t mod 15)) 11) with false by (symmetry; apply N.eqb_neq; lia). reflexivity.
Qed.
Print Assumptions c128_told.
(** With a bucket of its own, the channel of the images leads to the projection of the images, and that of the
    labels to the three projections of the classes. *)
Theorem c128_connected m images labels b : separate b -> Permutation.Permutation (concat b) (input_entries m images labels) ->
  forall c p, (exists ps, In (c, ps) (channels_of b) /\ In p ps) <->
    (c = images /\ p = nm_raster_input m) \/ (c = labels /\ In p [nm_target_input_dopamine m; nm_target_input_excitatory m; nm_target_gate m]).
Proof.
  intros Hs Hb c p. assert (G : (exists ps, In (c, ps) (channels_of b) /\ In p ps) <-> In (c, p) (concat b)).
  { split.
    - intros (ps & Hc & Hp). unfold channels_of in Hc. apply in_flat_map in Hc as (k & Hk & Hi). destruct k as [|[c' q] k]; [contradiction|]. destruct Hi as [Hi|[]].
      apply pair_equal_spec in Hi as [-> <-]. apply in_map_iff in Hp as ([c2 q2] & E & H2). cbn [snd] in E. subst q2. apply in_concat. exists ((c, q) :: k). split; [exact Hk|].
      assert (E : c2 = c) by (apply (Hs _ (c2, p) (c, q) Hk H2); now left). now rewrite <- E at 1.
    - intros H. apply in_concat in H as (k & Hk & H). destruct k as [|[c' q] k]; [contradiction|].
      assert (E : c' = c) by (apply (Hs _ (c', q) (c, p) Hk); [now left|exact H]). subst c'.
      exists (map snd ((c, q) :: k)). split; [|change p with (snd (c, p)); now apply in_map]. unfold channels_of. apply in_flat_map. eexists. split; [exact Hk|]. now left. }
  rewrite G. transitivity (In (c, p) (input_entries m images labels)).
  - split; apply Permutation.Permutation_in; [exact Hb|now apply Permutation.Permutation_sym].
  - unfold input_entries. cbn [In]. rewrite !pair_equal_spec. intuition congruence.
Qed.
Print Assumptions c128_connected.
Lemma observers_only l : Forall observer l -> handlers l = [].
Proof. induction 1 as [|c l H _ IH]; [reflexivity|]. destruct c; [contradiction|]. exact IH. Qed.
(** In every step the handler of the winners is called with the spikes of the input population and sends, for
    the next step, the winners that are chosen among them; the projection from the
    input to the output population hears it.  The output channel gets the spikes of the output population. *)
Theorem c128_competition pow2f expf network_calls m q classes column raster borders winners d images labels output b limit fresh r before after fuel x recs e t rec :
  proper m q classes column raster -> network_calls = altai_calls m q classes column raster \/ network_calls = blifat_calls m q classes column raster ->
  trainable d -> Permutation.Permutation (concat b) (input_entries m images labels) -> Forall observer before -> Forall observer after ->
  train_network pow2f expf network_calls m borders winners d images labels output b limit fresh r before after fuel = Ret (x, recs, e) -> nth_error recs t = Some rec ->
  let heard := received 0 [nm_input m] (nr_msgs (xr_net rec)) in
  xr_handled rec = [(heard, match winners_of limit (r 0 t) borders winners heard with [] => [] | w :: l => [SpikeMsg (fresh 0) (N.of_nat (S t)) (w :: l)] end)] /\
  xr_out rec = [received 0 [nm_output m] (nr_msgs (xr_net rec))] /\
  subscribed (connections (channels_of b) (before ++ wta_calls limit fresh r 0 winners borders (wta_groups m) ++ after)) 0 (nm_input_output m) (fresh 0) = true.
Proof.
  intros Hp Hc Hd Hb Hob Hoa Hr Ht heard. destruct (trained pow2f expf network_calls m borders winners d images labels output b limit fresh r before after fuel (example_sensible _ _ _ _ _ _ Hp Hc) Hd Hb) as (s & x' & recs' & turns & Eb & S & F1 & F2 & F3 & F4).
  rewrite Hr in F1. injection F1 as <- <- _. pose proof Hd as (_ & _ & _ & D3).
  assert (Lt : t < N.to_nat (ds_train d * 15)). { assert (t < length recs) by (apply nth_error_Some; congruence). lia. }
  assert (Lr : exists g, nth_error (rounds [] turns) t = Some g).
  { destruct (nth_error (rounds [] turns) t) eqn:E; [eauto|]. apply nth_error_None in E. destruct (c105_network _ _ _ _ _ _ _ _ _ _ _ S F3) as (_ & _ & _ & _ & _ & L & _).
    assert (t < length recs) by (apply nth_error_Some; congruence). assert (K : forall l l0, length (rounds l0 l) = length (filter xt_go l)).
    { clear. induction l as [|u l IH]; intros l0; cbn [rounds filter]; [reflexivity|]. destruct (xt_go u); cbn [length]; now rewrite IH. }
    rewrite K in E. lia. }
  destruct Lr as (g & Eg). destruct (c105_messages _ _ _ _ _ _ _ _ _ _ _ t rec g S F3 Ht Eg) as (_ & Eo & Eh & _).
  split; [|split].
  - rewrite Eh. assert (Ehs : handlers (before ++ wta_calls limit fresh r 0 winners borders (wta_groups m) ++ after) = [(fresh 0, [nm_input m], fun n ms => winners_of limit (r 0 n) borders winners ms)]).
    { unfold handlers in *. rewrite !flat_map_app. fold (handlers before) (handlers after). rewrite (observers_only _ Hob), (observers_only _ Hoa). reflexivity. }
    rewrite Ehs. cbn [map reply]. fold heard. f_equal. f_equal. rewrite N.mod_small by (unfold two32, two64 in *; lia). destruct (winners_of _ _ _ _ heard); reflexivity.
  - rewrite Eo. cbn [map snd]. assert (Eos : bt_outputs s = [nm_output m]); [|now rewrite Eos].
    destruct Hc as [-> | ->]; [destruct (c126_altai_shapes _ _ _ _ _ Hp) as (s' & E' & O & _)|destruct (c126_blifat_shapes _ _ _ _ _ Hp) as (s' & E' & O & _)]; rewrite Eb in E'; injection E' as <-; exact O.
  - apply (wired_handler _ _ _ _ [nm_input m] [nm_input_output m] (fun n ms => winners_of limit (r 0 n) borders winners ms)); [|now left].
    apply in_or_app. right. apply in_or_app. left. now left.
Qed.
Print Assumptions c128_competition.
(** The winners are found without an exception. *)
Theorem c128_winners limit r classes column winners ms : (N.of_nat classes * N.of_nat winners <= limit)%N ->
  exists l r', kwta_per_group limit r (map N.of_nat (wta_borders classes column)) winners ms = Ret (l, r').
Proof.
  intros H. unfold kwta_per_group. destruct ms as [|m ms]; [eauto|]. destruct (Handlers_Model.spikes_of m) as [|a l]; [eauto|].
  assert (L : length (sort_borders (map N.of_nat (wta_borders classes column))) = classes).
  { rewrite (Permutation.Permutation_length (sort_borders_perm _)). unfold wta_borders. now rewrite !map_length, seq_length. }
  rewrite L. match goal with |- context [(limit <? ?a)%N] => replace (limit <? a)%N with false end.
  - destruct (select_groups _ _ _) as [x y]. eauto.
  - symmetry. apply N.ltb_ge. unfold w64. etransitivity; [|exact H]. apply N.mod_le. discriminate.
Qed.
Print Assumptions c128_winners.
(** Without training frames the first round divides by zero: the generators are called before the predicate. *)
Theorem c128_nothing_to_train_refuted pow2f expf network_calls m q classes column raster borders winners d images labels output b limit fresh r before after fuel :
  proper m q classes column raster -> network_calls = altai_calls m q classes column raster \/ network_calls = blifat_calls m q classes column raster ->
  prepared d -> ds_spf d = 15%N -> ds_train d = 0%N -> Permutation.Permutation (concat b) (input_entries m images labels) -> In images (map fst (channels_of b)) ->
  train_network pow2f expf network_calls m borders winners d images labels output b limit fresh r before after (S fuel) = UB.
Proof.
  intros Hp Hc Hd H15 H0 Hb Hi. destruct (build_ok network_calls (sensible_sized _ (example_sensible _ _ _ _ _ _ Hp Hc))) as (s & Eb & _).
  set (calls := before ++ wta_calls limit fresh r 0 winners borders (wta_groups m) ++ after).
  destruct (c126_runs network_calls s (connections (channels_of b) calls) (example_sensible _ _ _ _ _ _ Hp Hc) (fun u v => connections_spikes _ _ u v) Eb) as [S W].
  assert (Hg : incl (map fst (channels_of b)) [images; labels]).
  { intros c Hx. apply (channels_named _ _ Hb) in Hx. cbn in Hx. cbn. intuition. }
  destruct (c116_never_fails pow2f expf [images; labels] (channels_of b) [(output, bt_outputs s)] calls (bt_pops s) (bt_projs s) [] S W Hg) as (_ & _ & x0 & Ei & _).
  unfold train_network. rewrite Eb. cbn [obind]. cbv zeta. fold calls. rewrite Ei. cbn [obind executor_loop]. rewrite (init_step _ _ _ _ _ _ _ Ei).
  assert (G : generate (generator_of d images) 0 (channels_of b) = UB).
  { clear - Hi H0 H15. induction (channels_of b) as [|[c ps] l IH]; [contradiction|]. cbn [generate map fst] in *. unfold generator_of at 1. destruct (N.eqb c images) eqn:E.
    - destruct (c64_empty_part_ub d 0) as [F _]. destruct (F H0) as [_ ->]. reflexivity.
    - change (training_labels d 0) with (Ret (@nil N)). cbn [obind]. destruct Hi as [->|Hi]; [rewrite N.eqb_refl in E; discriminate|]. rewrite (IH Hi). reflexivity. }
  unfold round_at. rewrite G. reflexivity.
Qed.
Print Assumptions c128_nothing_to_train_refuted.

(** Two frames of four pixels: what is told to a small network of two classes. *)
Definition m_frame (k : nat) : frame := map (fun i => Nat.eqb (i mod (3 + k)) 0) (seq 0 60).
Definition m_data : dataset := mkDs [(1%N, m_frame 0); (0%N, m_frame 1); (1%N, m_frame 2)] 2 1 15 2 4.
Definition m_buckets : buckets := [[]; [(22%N, 12%N); (22%N, 13%N); (22%N, 14%N)]; []; [(21%N, 11%N)]].
Example c128_case : proper case_names case_parts 10 20 784 /\ trainable m_data /\
  Permutation.Permutation (concat m_buckets) (input_entries case_names 21 22) /\ channels_of m_buckets = [(22, [12; 13; 14]); (21, [11])]%N.
Proof.
  split; [apply c126_case; lia|]. split; [|split; [|reflexivity]].
  - split; [|split; [reflexivity|split; reflexivity]]. split; [|repeat split; vm_compute; congruence]. intros nf [<-|[<-|[<-|[]]]]; reflexivity.
  - cbn. apply (Permutation.Permutation_app_comm [(22%N, 12%N); (22%N, 13%N); (22%N, 14%N)] [(21%N, 11%N)]).
Qed.
Definition m_told : outcome (list (nat * list N)) :=
  match train_network (fun x => x) (fun x => x) (altai_calls case_names case_parts 2 2 4) case_names [2; 4]%N 1 m_data 21 22 23 m_buckets 1000 (fun _ => 24%N) (fun _ _ _ => 0%N) [] [AddObserver 0 25 [2]%N] 100 with
  | Ret (_, recs, true) => Ret (map (fun r => (length (r_ext (nr_msgs (xr_net r))), flat_map (fun m => match m with SpikeMsg 22 _ l => l | _ => [] end) (r_ext (nr_msgs (xr_net r))))) recs)
  | Ret _ => Throw | Throw => Throw | UB => UB
  end.
Example c128_seen : exists l, m_told = Ret l /\ length l = 30 /\ map snd (firstn 13 (skipn 10 l)) = [[]; [1%N]; []; []; []; []; []; []; []; []; []; []; []] /\ snd (nth 26 l (0, [])) = [0%N].
Proof. eexists. split; [vm_compute; reflexivity|]. repeat split. Qed.
