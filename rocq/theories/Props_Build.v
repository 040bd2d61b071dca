(** Property theorems C126: networks made with the network constructor. *)
From Verif Require Import Base ListLemmas Messaging_Model Messaging_Spec Projection_Model Projection_Spec Delta_Model Neuron_Model Pipeline_Model Pipeline_Spec
  Stdp_Model Additive_Model Train_Model Net_Model Net_Spec Net_Proofs Load_Spec Safe_Spec Props_Safe Connect_Model Connect_Spec Connect_Proofs Props_Connect Infer_Model Infer_Spec Infer_Proofs
  Props_Infer Build_Model Build_Spec Build_Proofs.

(** *** C126 *)
Lemma sensible_sized calls : sensible calls -> projections_sized calls.
Proof. intros H before u t c pre post tr wta after E. destruct (se_projection _ H _ _ _ _ _ _ _ _ _ E) as (a & b & H1 & H2 & H3 & _). eauto. Qed.
Lemma same_place u : forall calls, NoDup (declared_projections calls) ->
  forall b1 t1 c1 p1 q1 r1 w1 a1 b2 t2 c2 p2 q2 r2 w2 a2,
    calls = b1 ++ AddProjection u t1 c1 p1 q1 r1 w1 :: a1 -> calls = b2 ++ AddProjection u t2 c2 p2 q2 r2 w2 :: a2 ->
    b1 = b2 /\ (t1, c1, p1, q1, r1, w1) = (t2, c2, p2, q2, r2, w2).
Proof.
  assert (M : forall b t c p q r w a, In u (declared_projections (b ++ AddProjection u t c p q r w :: a))).
  { intros. unfold declared_projections. rewrite flat_map_app. apply in_or_app. right. now left. }
  induction calls as [|x l IH]; intros Hn b1 t1 c1 p1 q1 r1 w1 a1 b2 t2 c2 p2 q2 r2 w2 a2 E1 E2.
  - destruct b1; discriminate.
  - assert (Hn' : NoDup (declared_projections l)).
    { change (NoDup (declared_projections ([x] ++ l))) in Hn. unfold declared_projections in Hn. rewrite flat_map_app in Hn. destruct x; cbn [flat_map app] in Hn; try exact Hn. now inversion Hn. }
    destruct b1 as [|y1 b1], b2 as [|y2 b2]; cbn [app] in E1, E2.
    + injection E1 as -> E1. injection E2 as -> -> -> -> -> -> E2. auto.
    + injection E1 as -> E1. injection E2 as <- E2. exfalso. cbn in Hn. inversion Hn as [|? ? H1 H2]. apply H1. fold (declared_projections l). rewrite E2. apply M.
    + injection E2 as -> E2. injection E1 as <- E1. exfalso. cbn in Hn. inversion Hn as [|? ? H1 H2]. apply H1. fold (declared_projections l). rewrite E1. apply M.
    + injection E1 as <- E1. injection E2 as <- E2. destruct (IH Hn' _ _ _ _ _ _ _ _ _ _ _ _ _ _ _ _ E1 E2) as [-> E]. auto.
Qed.
(** The network constructor makes the network the calls describe: the populations in order; every
    projection with the ends, the lock and exactly the synapses asked for; the outputs; and marks to keep a
    population when asked to, a projection exactly when it joins populations (or channels) to keep. *)
Theorem c126_network calls : sensible calls ->
  exists s, build calls nothing = Ret s /\ bt_pops s = declared calls /\ bt_outputs s = declared_outputs calls /\
    bt_keep_pops s = declared_kept calls /\ map np_uid (bt_projs s) = declared_projections calls /\
    incl (bt_keep_projs s) (declared_projections calls) /\
    forall w, In w (bt_projs s) -> exists before c after a b, calls = before ++ c :: after /\ asked (scope before) c a b w /\
      (In (np_uid w) (bt_keep_projs s) <-> pi_keep a = true /\ pi_keep b = true).
Proof.
  intros Hs. destruct (build_ok calls (sensible_sized _ Hs)) as (s & E & S). exists s. split; [exact E|].
  split; [apply (so_pops _ _ S)|]. split; [apply (so_outputs _ _ S)|]. split; [apply (so_keep _ _ S)|]. split; [apply (so_uids _ _ S)|]. split.
  - intros u Hu. destruct (so_marks _ _ S u Hu) as (before & t & c & pre & post & tr & wta & after & a & b & Ec & _). rewrite Ec. unfold declared_projections. rewrite flat_map_app. apply in_or_app. right. now left.
  - intros w Hw. destruct (so_made _ _ S w Hw) as (before & u & t & c & pre & post & tr & wta & after & a & b & Ec & H1 & H2 & H3 & H4 & H5 & H6 & H7 & H8 & H9 & H10).
    exists before, (AddProjection u t c pre post tr wta), after, a, b. split; [exact Ec|]. split.
    + cbn [asked]. destruct H9 as (_ & K1 & K2 & K3 & K4). repeat (split; [assumption|]). exact K4.
    + rewrite H4. split.
      * intros Hu. destruct (so_marks _ _ S u Hu) as (before' & t' & c' & pre' & post' & tr' & wta' & after' & a' & b' & Ec' & G1 & G2 & G3 & G4).
        destruct (same_place u calls (se_projs _ Hs) _ _ _ _ _ _ _ _ _ _ _ _ _ _ _ _ Ec Ec') as [-> Eq]. apply pair_equal_spec in Eq as [Eq _]. apply pair_equal_spec in Eq as [Eq _].
        apply pair_equal_spec in Eq as [Eq Q1]. apply pair_equal_spec in Eq as [_ Q2]. subst. rewrite G1 in H1. rewrite G2 in H2. injection H1 as ->. injection H2 as ->. auto.
      * intros [Ka Kb]. apply H10. now rewrite Ka, Kb.
Qed.
Print Assumptions c126_network.

Lemma kept_declared calls a : known calls a -> pi_keep a = true -> pi_uid a = 0%N \/ In (pi_uid a) (declared_kept calls).
Proof. intros [H|[n H]] K; [now left|right]. unfold declared_kept. apply in_flat_map. eexists. split; [exact H|]. cbn. rewrite K. now left. Qed.
Lemma declared_kept_app l1 l2 : incl (declared_kept l1) (declared_kept (l1 ++ l2)).
Proof. unfold declared_kept. rewrite flat_map_app. apply incl_appl, incl_refl. Qed.
(** Whatever is called: a projection that is kept leads from and to populations that are kept, or from or to
    nothing. *)
Theorem c126_closed calls s : sensible calls -> build calls nothing = Ret s ->
  forall w, In w (bt_projs s) -> In (np_uid w) (bt_keep_projs s) ->
    (np_pre w = 0%N \/ In (np_pre w) (bt_keep_pops s)) /\ (np_post w = 0%N \/ In (np_post w) (bt_keep_pops s)).
Proof.
  intros Hs E w Hw Hk. destruct (c126_network calls Hs) as (s' & E' & _ & _ & Ek & _ & _ & F). rewrite E in E'. injection E' as <-.
  destruct (F w Hw) as (before & c & after & a & b & Ec & Ha & Hm). apply Hm in Hk as [Ka Kb].
  destruct c as [| | |u t c pre post tr wta]; try contradiction. destruct Ha as (H1 & H2 & _ & H3 & H4 & _). pose proof (scope_known before) as Hkn. rewrite Forall_forall in Hkn.
  assert (G : forall i x, nth_error (scope before) i = Some x -> pi_keep x = true -> pi_uid x = 0%N \/ In (pi_uid x) (bt_keep_pops s)).
  { intros i x Hx Kx. apply nth_error_In in Hx. destruct (kept_declared before x (Hkn x Hx) Kx) as [G|G]; [now left|right]. rewrite Ek, Ec. now apply declared_kept_app. }
  rewrite H3, H4. split; [destruct wta; [now left|eauto]|eauto].
Qed.
Print Assumptions c126_closed.

Lemma population_size n k : size (population_of n k) = k.
Proof. destruct n; cbn; apply repeat_length. Qed.
Lemma declared_In calls u p : In (u, p) (declared calls) -> exists n k r keep, In (AddPopulation u n k r keep) calls /\ p = population_of n k.
Proof.
  unfold declared. rewrite in_flat_map. intros (c & Hc & Hi). destruct c; cbn in Hi; try contradiction. destruct Hi as [Hi|[]].
  apply pair_equal_spec in Hi as [-> <-]. eauto 6.
Qed.
Lemma In_declared calls u n k r keep : In (AddPopulation u n k r keep) calls -> In (u, population_of n k) (declared calls).
Proof. intros H. unfold declared. apply in_flat_map. eexists. split; [exact H|]. now left. Qed.
Lemma NoDup_fst {A} (l : list (uid * A)) u x y : NoDup (map fst l) -> In (u, x) l -> In (u, y) l -> x = y.
Proof.
  induction l as [|[v z] t IH]; intros Hn H1 H2; [contradiction|]. cbn [map fst] in Hn. inversion Hn as [|? ? N1 N2]. destruct H1 as [H1|H1], H2 as [H2|H2].
  - congruence.
  - exfalso. apply N1. apply in_map_iff. exists (u, y). split; [now injection H1 as -> _|exact H2].
  - exfalso. apply N1. apply in_map_iff. exists (u, x). split; [now injection H2 as -> _|exact H1].
  - auto.
Qed.
(** Such a network is sound and wired: no step of it fails, whatever spikes come (C113). *)
Theorem c126_runs calls s extra : sensible calls -> (forall u v, subscribed extra 1 u v = false) -> build calls nothing = Ret s ->
  sound_network (bt_pops s) (bt_projs s) /\ wired extra (bt_pops s) (bt_projs s).
Proof.
  intros Hs Hx E. destruct (build_ok calls (sensible_sized _ Hs)) as (s' & E' & S). rewrite E in E'. injection E' as <-. split.
  - constructor.
    + rewrite (so_pops _ _ S). apply (se_pops _ Hs).
    + rewrite (so_uids _ _ S). apply (se_projs _ Hs).
    + apply Forall_forall. intros w Hw. destruct (so_made _ _ S w Hw) as (before & u & t & c & pre & post & tr & wta & after & a & b & _ & _ & _ & _ & _ & _ & _ & _ & _ & H9 & _). apply H9.
    + apply Forall_forall. intros w Hw. destruct (so_made _ _ S w Hw) as (before & u & t & c & pre & post & tr & wta & after & a & b & _ & _ & _ & _ & _ & _ & _ & _ & H8 & _). apply H8.
    + apply Forall_forall. intros [u p] Hp. rewrite (so_pops _ _ S) in Hp. apply declared_In in Hp as (n & k & r & keep & Hp & ->). cbn [snd]. rewrite population_size. now destruct (se_population _ Hs _ _ _ _ _ Hp) as (_ & H & _).
  - constructor.
    + intros u p Hp. rewrite (so_pops _ _ S) in Hp. apply declared_In in Hp as (n & k & r & keep & Hp & ->). now destruct (se_population _ Hs _ _ _ _ _ Hp) as (_ & _ & H).
    + intros u p w y Hp Hw Hr Hy. destruct Hr as [[Hu Hr]|Hr]; [|congruence].
      destruct (so_made _ _ S w Hw) as (before & u' & t & c & pre & post & tr & wta & after & a & b & Ec & H1 & H2 & H3 & H4 & H5 & H6 & H7 & H8 & H9 & _).
      destruct (se_projection _ Hs _ _ _ _ _ _ _ _ _ Ec) as (a' & b' & G1 & G2 & _ & G3 & G4). rewrite H1 in G1. injection G1 as <-. rewrite H2 in G2. injection G2 as <-.
      destruct H9 as (_ & K1 & _ & K3 & K4). destruct (K4 y Hy) as [Et Ew]. rewrite H6 in Hr. subst u.
      rewrite (so_pops _ _ S) in Hp.
      assert (Hb : p = match b with mkInfo _ _ k _ => p end) by (now destruct b). clear Hb.
      pose proof (scope_known before) as Hkn. rewrite Forall_forall in Hkn. destruct (Hkn b (nth_error_In _ _ H2)) as [Z|[n Hn]]; [contradiction|].
      assert (Hd : In (pi_uid b, population_of n (pi_size b)) (declared calls)) by (eapply In_declared; rewrite Ec; apply in_or_app; left; exact Hn).
      pose proof (NoDup_fst _ _ _ _ (se_pops _ Hs) Hp Hd) as ->. rewrite population_size. rewrite Et, Ew. split; [|split].
      * assert (Hj : In (N.of_nat (N.to_nat (sy_from y)), N.of_nat (N.to_nat (sy_to y))) (ends (delta_synapses w))).
        { rewrite !N2Nat.id. unfold ends. apply in_map_iff. exists y. auto. }
        apply K3 in Hj as (_ & Hj & _). lia.
      * apply G4. exact Hd.
      * intros Eb. destruct (G3 Eb) as [x ->]. destruct (np_kind w); try contradiction. eauto.
Qed.
Print Assumptions c126_runs.
(** And so is the network prepared for inference (BLIFAT), which has the populations to keep, in order,
    and the projections between them. *)
Theorem c126_prepared calls s extra : sensible calls -> (forall u v, subscribed extra 1 u v = false) -> build calls nothing = Ret s ->
  let (projs, pops) := prepare_blifat (bt_keep_pops s) (bt_keep_projs s) (bt_projs s) (bt_pops s) in
  map fst pops = declared_kept calls /\ (forall e, In e pops <-> In e (declared calls) /\ In (fst e) (declared_kept calls)) /\
  (forall w, In w projs <-> In w (bt_projs s) /\ In (np_uid w) (bt_keep_projs s)) /\
  sound_network pops projs /\ wired extra pops projs.
Proof.
  intros Hs Hx E. destruct (c126_runs calls s extra Hs Hx E) as [[S1 S2 S3 S4 S5] [W1 W2]].
  destruct (c126_network calls Hs) as (s' & E' & Ep & _ & Ek & _). rewrite E in E'. injection E' as <-. unfold prepare_blifat, marked_only.
  assert (FI : forall A (f : A -> bool) l x, In x (filter f l) -> In x l) by (intros; now apply filter_In in H).
  assert (ND : forall A (f : A -> uid) (g : A -> bool) l, NoDup (map f l) -> NoDup (map f (filter g l))).
  { intros A f g. induction l as [|y t IH]; intros Hn; [constructor|]. cbn [map] in Hn. inversion Hn as [|? ? N1 N2]. cbn [filter]. destruct (g y); [|auto]. cbn [map]. constructor; [|auto].
    intros Hi. apply N1. apply in_map_iff in Hi as (z & Ez & Hz). apply in_map_iff. eauto. }
  assert (EX : forall l u, mem u l = true <-> In u l) by (intros; apply mem_In).
  split; [|split; [|split; [|split]]].
  - rewrite Ek, Ep. pose proof (se_pops _ Hs) as Hn. clear - Hn EX. revert Hn.
    assert (G : forall calls K, NoDup (map fst (declared calls)) -> (forall u, In u (map fst (declared calls)) -> In u K <-> In u (declared_kept calls)) ->
      map fst (filter (fun x => mem (fst x) K) (declared calls)) = declared_kept calls).
    { induction calls0 as [|c l IH]; intros K Hn HK; [reflexivity|]. destruct c as [|u n k r keep|k keep|u t c pre post tr wta];
        try (cbn [declared declared_kept flat_map app] in *; apply IH; assumption).
      change (declared (AddPopulation u n k r keep :: l)) with ((u, population_of n k) :: declared l) in *.
      assert (Hd : declared_kept (AddPopulation u n k r keep :: l) = (if keep then [u] else []) ++ declared_kept l) by (now destruct keep).
      rewrite Hd in *. cbn [map fst] in Hn. inversion Hn as [|? ? N1 N2].
      assert (NK : ~ In u (declared_kept l)).
      { intros Hi. apply N1. unfold declared_kept in Hi. apply in_flat_map in Hi as (c & Hc & Hi). destruct c; cbn in Hi; try contradiction. destruct keep0; [|contradiction]. destruct Hi as [->|[]].
        apply in_map_iff. eexists. split; [|eapply In_declared; exact Hc]. reflexivity. }
      assert (Hr : map fst (filter (fun x => mem (fst x) K) (declared l)) = declared_kept l).
      { apply IH; [exact N2|]. intros v Hv. rewrite (HK v) by (now right). rewrite in_app_iff. split; [intros [Hi|Hi]; [|exact Hi]|now right].
        destruct keep; [destruct Hi as [<-|[]]; contradiction|contradiction]. }
      cbn [filter fst]. destruct (mem u K) eqn:Ex.
      - apply EX in Ex. apply HK in Ex; [|now left]. apply in_app_or in Ex as [Ex|Ex]; [|contradiction]. destruct keep; [|contradiction]. cbn [map fst app]. now f_equal.
      - destruct keep; [|exact Hr]. exfalso. assert (Hi : In u K) by (apply HK; [now left|now left]). apply EX in Hi. congruence. }
    intros Hn. apply G; [exact Hn|]. reflexivity.
  - intros e. rewrite filter_In, EX, Ep, Ek. reflexivity.
  - intros w. rewrite filter_In, EX. reflexivity.
  - constructor; auto; try (apply Forall_forall; intros e He; apply FI in He).
    + rewrite Forall_forall in S3. auto.
    + rewrite Forall_forall in S4. auto.
    + rewrite Forall_forall in S5. auto.
  - constructor.
    + intros u p Hp. apply FI in Hp. eauto.
    + intros u p w y Hp Hw. apply FI in Hp, Hw. eauto.
Qed.
Print Assumptions c126_prepared.

(** The networks of the example. *)
Lemma nth_at {A} (b : list A) x a : nth_error (b ++ x :: a) (length b) = Some x /\ firstn (length b) (b ++ x :: a) = b.
Proof. induction b as [|y b [IH1 IH2]]; [split; reflexivity|]. cbn. rewrite IH1, IH2. auto. Qed.
Lemma aligned_sized_l c k : 0 < c -> 0 < k -> sized Aligned (c * k) c.
Proof. intros Hc Hk. unfold sized. assert (c <= c * k) by nia. rewrite Nat.max_l, Nat.min_r by lia. repeat split; [nia|lia|]. rewrite Nat.mul_comm. apply Nat.mod_mul. lia. Qed.
Lemma aligned_sized_r c k : 0 < c -> 0 < k -> sized Aligned c (c * k).
Proof. intros Hc Hk. unfold sized. assert (c <= c * k) by nia. rewrite Nat.max_r, Nat.min_l by lia. repeat split; [lia|nia|]. rewrite Nat.mul_comm. apply Nat.mod_mul. lia. Qed.
Lemma aligned_sized_e c : 0 < c -> sized Aligned c c.
Proof. intros Hc. unfold sized. rewrite Nat.max_id, Nat.min_id. repeat split; auto. apply Nat.mod_same. lia. Qed.
Lemma proper_count m q classes column raster : proper m q classes column raster -> (N.of_nat classes * N.of_nat (classes * column) < two64)%N.
Proof.
  intros H. pose proof (pr_input _ _ _ _ _ H). pose proof (pr_classes _ _ _ _ _ H). pose proof (pr_column _ _ _ _ _ H). assert (classes <= classes * column) by nia.
  change two64 with (two32 * two32)%N. generalize dependent (classes * column). intros n. intros. nia.
Qed.
Definition three m q classes column : list (uid * npop) :=
  [(nm_input m, population_of (pt_input q) (classes * column)); (nm_output m, population_of (pt_other q) classes); (nm_gate m, population_of (pt_other q) classes)].
Lemma own m q classes column raster p : proper m q classes column raster ->
  (In (nm_input m, p) (three m q classes column) -> p = population_of (pt_input q) (classes * column)) /\
  (In (nm_output m, p) (three m q classes column) -> p = population_of (pt_other q) classes) /\
  (In (nm_gate m, p) (three m q classes column) -> p = population_of (pt_other q) classes).
Proof.
  intros H. assert (Hn : NoDup (map fst (three m q classes column))) by exact (pr_pops _ _ _ _ _ H).
  split; [intros Hi|split; intros Hi]; eapply NoDup_fst; try exact Hn; try exact Hi; unfold three; cbn [In]; auto.
Qed.
Lemma sensible_by_place calls : NoDup (map fst (declared calls)) -> NoDup (declared_projections calls) ->
  Forall (fun c => match c with AddPopulation u n k _ _ => u <> 0%N /\ (N.of_nat k <= two32)%N /\ settled (population_of n k) | _ => True end) calls ->
  (forall i u t c pre post tr wta, nth_error calls i = Some (AddProjection u t c pre post tr wta) ->
    exists a b, nth_error (scope (firstn i calls)) pre = Some a /\ nth_error (scope (firstn i calls)) post = Some b /\ sized c (pi_size a) (pi_size b) /\
      (template_type t = BLOCKING -> exists x, t = GDelta x) /\
      forall n k, In (pi_uid b, population_of n k) (declared calls) -> takes (population_of n k) (template_type t) (template_weight t)) ->
  sensible calls.
Proof.
  intros H1 H2 H3 H4. rewrite Forall_forall in H3. constructor; auto.
  - intros u n k r keep Hi. exact (H3 _ Hi).
  - intros before u t c pre post tr wta after E. destruct (nth_at before (AddProjection u t c pre post tr wta) after) as [E1 E2]. rewrite <- E in E1, E2.
    destruct (H4 _ _ _ _ _ _ _ _ E1) as (a & b & G). rewrite E2 in G. eauto.
Qed.
Lemma example_populations m q classes column raster : proper m q classes column raster ->
  Forall (fun c => match c with AddPopulation u n k _ _ => u <> 0%N /\ (N.of_nat k <= two32)%N /\ settled (population_of n k) | _ => True end)
    (populations_calls m q classes column raster).
Proof.
  intros H. pose proof (pr_input _ _ _ _ _ H) as Hi. pose proof (pr_column _ _ _ _ _ H) as Hc. assert (classes <= classes * column) by nia.
  pose proof (pr_some _ _ _ _ _ H) as Hz. cbn [In] in Hz.
  repeat constructor; try (apply (pr_settled _ _ _ _ _ H)); try lia; intros E; apply Hz; auto.
Qed.
Ltac one_call H Hc := cbn [firstn]; match goal with |- context [scope ?l] => let v := eval cbn in (scope l) in change (scope l) with v end;
  do 2 eexists; split; [reflexivity|split; [reflexivity|]]; cbn [pi_size pi_uid]; split;
  [first [apply aligned_sized_l|apply aligned_sized_r|apply aligned_sized_e|exact (pr_raster _ _ _ _ _ H)|exact Hc];
   first [exact (pr_classes _ _ _ _ _ H)|exact (pr_column _ _ _ _ _ H)]
  |split; [first [intros _; eexists; reflexivity|intros Hb; exfalso; exact (proj1 (pr_images _ _ _ _ _ H) Hb)]|
    cbn [template_type template_weight]; let n := fresh in let k := fresh in let Hi := fresh in intros n k Hi; first [apply (proj1 (own _ _ _ _ _ _ H)) in Hi|apply (proj1 (proj2 (own _ _ _ _ _ _ H))) in Hi|apply (proj2 (proj2 (own _ _ _ _ _ _ H))) in Hi]; rewrite Hi;
    first [apply (proj2 (pr_images _ _ _ _ _ H))|apply (proj1 (pr_takes _ _ _ _ _ H)); cbn; tauto|apply (proj2 (pr_takes _ _ _ _ _ H)); cbn; tauto]]].
(** The networks of both models make sense: the theorems above are about them. *)
Theorem c126_altai m q classes column raster : proper m q classes column raster -> sensible (altai_calls m q classes column raster).
Proof.
  intros H. pose proof (proper_count _ _ _ _ _ H) as Hc. apply sensible_by_place.
  - exact (pr_pops _ _ _ _ _ H).
  - exact (pr_projs _ _ _ _ _ H).
  - unfold altai_calls. constructor; [exact I|]. apply Forall_app. split; [eapply example_populations; exact H|]. repeat constructor.
  - change (declared (altai_calls m q classes column raster)) with (three m q classes column).
    intros i u t c pre post tr wta Ec. unfold altai_calls, populations_calls in *. cbn [app] in *.
    do 13 (destruct i as [|i]; [cbn [nth_error] in Ec; try discriminate Ec; injection Ec as <- <- <- <- <- <- <-; one_call H Hc|cbn [nth_error] in Ec]).
    destruct i; discriminate Ec.
Qed.
Print Assumptions c126_altai.
Theorem c126_blifat m q classes column raster : proper m q classes column raster -> sensible (blifat_calls m q classes column raster).
Proof.
  intros H. pose proof (proper_count _ _ _ _ _ H) as Hc. apply sensible_by_place.
  - exact (pr_pops _ _ _ _ _ H).
  - eapply Permutation.Permutation_NoDup; [|exact (pr_projs _ _ _ _ _ H)]. cbn. set (l := nm_gate_input m).
    apply Permutation.perm_skip, Permutation.perm_skip.
    apply (Permutation.Permutation_trans (l' := [nm_target_gate m; nm_input_output m; nm_output_gate m; l; nm_target_input_excitatory m])).
    + apply (Permutation.Permutation_app_comm [nm_target_input_excitatory m] [nm_target_gate m; nm_input_output m; nm_output_gate m; l]).
    + change (Permutation.Permutation ([nm_target_gate m; nm_input_output m; nm_output_gate m] ++ [l; nm_target_input_excitatory m]) ([nm_input_output m; nm_output_gate m; nm_target_gate m] ++ [l; nm_target_input_excitatory m])).
      apply Permutation.Permutation_app_tail. apply (Permutation.Permutation_app_comm [nm_target_gate m] [nm_input_output m; nm_output_gate m]).
  - unfold blifat_calls. constructor; [exact I|]. apply Forall_app. split; [eapply example_populations; exact H|]. repeat constructor.
  - change (declared (blifat_calls m q classes column raster)) with (three m q classes column).
    intros i u t c pre post tr wta Ec. unfold blifat_calls, populations_calls in *. cbn [app] in *.
    do 13 (destruct i as [|i]; [cbn [nth_error] in Ec; try discriminate Ec; injection Ec as <- <- <- <- <- <- <-; one_call H Hc|cbn [nth_error] in Ec]).
    destruct i; discriminate Ec.
Qed.
Print Assumptions c126_blifat.

(** Their projections, with lock and number of synapses. *)
Definition links (c : creator) (pre post : nat) : nat := match c with AllToAll => pre * post | Aligned => Nat.max pre post end.
Lemma connect_length {P} c (x : P) pre post l : sized c pre post -> connect c x pre post = Ret l -> length l = links c pre post.
Proof.
  destruct c; cbn [sized connect links]; intros H E.
  - destruct (c52_all_to_all (fun _ _ : nat => x) pre post H) as (l' & E' & _ & L & _). rewrite E in E'. injection E' as <-. exact L.
  - destruct H as (H1 & H2 & H3). destruct (aligned_ends (fun _ _ : nat => x) pre post H1 H2) as (l' & E' & _ & B & C). rewrite E in E'. injection E' as <-.
    assert (L : length l = length (ends l)) by (unfold ends; now rewrite map_length). rewrite L.
    destruct (Nat.le_gt_cases post pre) as [D|D]; [rewrite B by exact D|rewrite C by exact D]; rewrite map_length, seq_length.
    + now rewrite Nat.max_l.
    + now rewrite Nat.max_r by lia.
Qed.
Lemma make_shape c t pre post : sized c pre post -> exists k, make_kind c t pre post = Ret k /\ forall u a b lk, shape (mkNP u a b lk k []) = (u, a, b, lk, N.of_nat (links c pre post)).
Proof.
  intros H. destruct t as [x|x|x]; cbn [make_kind]; destruct (connect_ok c x pre post H) as (l & E & _); pose proof (connect_length c x pre post l H E) as L; rewrite E; cbn [obind];
    eexists; (split; [reflexivity|]); intros u a b lk; unfold shape; cbn [np_uid np_pre np_post np_locked delta_synapses np_kind]; rewrite ?syn_made, ?map_length, L; reflexivity.
Qed.
Ltac one_projection H Hc := match goal with |- context [make_kind ?c ?t ?a ?b] => let k := fresh "k" in let E := fresh "E" in let F := fresh "F" in
  destruct (make_shape c t a b ltac:(first [apply aligned_sized_l|apply aligned_sized_r|apply aligned_sized_e|exact (pr_raster _ _ _ _ _ H)|exact Hc];
   first [exact (pr_classes _ _ _ _ _ H)|exact (pr_column _ _ _ _ _ H)])) as (k & E & F); rewrite E; cbn [obind]; clear E end.
(** The network of the AltAI model: its projections, what is kept, what is observed. *)
Theorem c126_altai_shapes m q classes column raster : proper m q classes column raster ->
  exists s, build (altai_calls m q classes column raster) nothing = Ret s /\ bt_outputs s = [nm_output m] /\
    bt_keep_pops s = [nm_input m; nm_output m] /\ bt_keep_projs s = [nm_raster_input m; nm_input_output m] /\
    let (n, k) := (N.of_nat classes, N.of_nat column) in
    map shape (bt_projs s) = [(nm_raster_input m, 0, nm_input m, false, N.of_nat raster * (n * k)); (nm_target_input_dopamine m, 0, nm_input m, true, n * k);
      (nm_target_input_excitatory m, 0, nm_input m, true, n * (n * k)); (nm_target_gate m, 0, nm_gate m, true, n); (nm_input_output m, 0, nm_output m, true, n * k);
      (nm_output_gate m, nm_output m, nm_gate m, true, n); (nm_gate_input m, nm_gate m, nm_input m, true, n * k)]%N.
Proof.
  intros H. pose proof (proper_count _ _ _ _ _ H) as Hc. pose proof (pr_classes _ _ _ _ _ H) as H1. pose proof (pr_column _ _ _ _ _ H) as H2. assert (H3 : classes <= classes * column) by nia.
  unfold altai_calls, populations_calls, nothing. cbn [app build build_call obind add_population add_channeled add_projection bt_infos bt_pops bt_projs bt_outputs bt_keep_pops bt_keep_projs nth_error pi_size pi_uid pi_keep andb].
  repeat (one_projection H Hc; cbn [build build_call obind add_projection bt_infos bt_pops bt_projs bt_outputs bt_keep_pops bt_keep_projs nth_error pi_size pi_uid pi_keep andb]).
  eexists. split; [reflexivity|]. cbn [bt_infos bt_pops bt_projs bt_outputs bt_keep_pops bt_keep_projs app map negb]. repeat (split; [reflexivity|]).
  repeat match goal with F : forall u a b lk, shape _ = _ |- _ => rewrite F; clear F end. cbn [links].
  rewrite Nat.max_id, (Nat.max_l (classes * column) classes), (Nat.max_r classes (classes * column)) by lia. rewrite !Nat2N.inj_mul. reflexivity.
Qed.
Print Assumptions c126_altai_shapes.
(** The network of the BLIFAT model. *)
Theorem c126_blifat_shapes m q classes column raster : proper m q classes column raster ->
  exists s, build (blifat_calls m q classes column raster) nothing = Ret s /\ bt_outputs s = [nm_output m] /\
    bt_keep_pops s = [nm_input m; nm_output m] /\ bt_keep_projs s = [nm_raster_input m; nm_input_output m] /\
    let (n, k) := (N.of_nat classes, N.of_nat column) in
    map shape (bt_projs s) = [(nm_raster_input m, 0, nm_input m, false, N.of_nat raster * (n * k)); (nm_target_input_dopamine m, 0, nm_input m, true, n * k);
      (nm_input_output m, 0, nm_output m, true, n * k); (nm_output_gate m, nm_output m, nm_gate m, true, n); (nm_target_gate m, 0, nm_gate m, true, n);
      (nm_gate_input m, nm_gate m, nm_input m, true, n * k); (nm_target_input_excitatory m, 0, nm_input m, true, n * k)]%N.
Proof.
  intros H. pose proof (proper_count _ _ _ _ _ H) as Hc. pose proof (pr_classes _ _ _ _ _ H) as H1. pose proof (pr_column _ _ _ _ _ H) as H2. assert (H3 : classes <= classes * column) by nia.
  unfold blifat_calls, populations_calls, nothing. cbn [app build build_call obind add_population add_channeled add_projection bt_infos bt_pops bt_projs bt_outputs bt_keep_pops bt_keep_projs nth_error pi_size pi_uid pi_keep andb].
  repeat (one_projection H Hc; cbn [build build_call obind add_projection bt_infos bt_pops bt_projs bt_outputs bt_keep_pops bt_keep_projs nth_error pi_size pi_uid pi_keep andb]).
  eexists. split; [reflexivity|]. cbn [bt_infos bt_pops bt_projs bt_outputs bt_keep_pops bt_keep_projs app map negb]. repeat (split; [reflexivity|]).
  repeat match goal with F : forall u a b lk, shape _ = _ |- _ => rewrite F; clear F end. cbn [links].
  rewrite Nat.max_id, (Nat.max_l (classes * column) classes), (Nat.max_r classes (classes * column)) by lia. rewrite !Nat2N.inj_mul. reflexivity.
Qed.
Print Assumptions c126_blifat_shapes.

Lemma filter_shape K l : map shape (filter (fun w => mem (np_uid w) K) l) = filter (fun e => mem (fst (fst (fst (fst e)))) K) (map shape l).
Proof. induction l as [|w t IH]; [reflexivity|]. cbn [filter map]. change (fst (fst (fst (fst (shape w))))) with (np_uid w). destruct (mem (np_uid w) K); cbn [map]; now rewrite IH. Qed.
Lemma mem_pick (A : Type) (f : A -> uid) (K : list uid) (l : list A) :
  filter (fun e => mem (f e) K) l = flat_map (fun e => if mem (f e) K then [e] else []) l.
Proof. induction l as [|x t IH]; [reflexivity|]. cbn. rewrite IH. now destruct (mem (f x) K). Qed.
(** What is left of them for inference: images to the input population and, from it, by a group of winners
    (BLIFAT) or by a projection with the same synapses (AltAI), to the output population. *)
Theorem c126_inference m q classes column raster fresh : proper m q classes column raster -> unused fresh [] ->
  (forall i, ~ In (fresh i) [nm_raster_input m; nm_input_output m]) ->
  let (n, k) := (N.of_nat classes, N.of_nat column) in
  (exists s l, build (blifat_calls m q classes column raster) nothing = Ret s /\ prepare_blifat (bt_keep_pops s) (bt_keep_projs s) (bt_projs s) (bt_pops s) = l /\
     map shape (fst l) = [(nm_raster_input m, 0, nm_input m, false, N.of_nat raster * (n * k)); (nm_input_output m, 0, nm_output m, true, n * k)]%N) /\
  (exists s l, build (altai_calls m q classes column raster) nothing = Ret s /\
     replace_pairs fresh 0 (wta_pairs (wta_groups m)) (marked_only np_uid (bt_keep_projs s) (bt_projs s)) = Ret l /\
     map shape l = [(nm_raster_input m, 0, nm_input m, false, N.of_nat raster * (n * k)); (fresh O, nm_input m, nm_output m, true, n * k)]%N).
Proof.
  intros H [Uf _] Hf. pose proof (pr_projs _ _ _ _ _ H) as Hp.
  assert (Q : forall x, In x [nm_target_input_dopamine m; nm_target_input_excitatory m; nm_target_gate m; nm_output_gate m; nm_gate_input m] -> mem x [nm_raster_input m; nm_input_output m] = false).
  { intros x Hx. destruct (mem x [nm_raster_input m; nm_input_output m]) eqn:E; [exfalso|reflexivity]. apply mem_In in E. cbn [In] in Hx, E.
    repeat match goal with H : NoDup _ |- _ => inversion H; clear H; subst end. cbn [In] in *. intuition congruence. }
  assert (R1 : mem (nm_raster_input m) [nm_raster_input m; nm_input_output m] = true) by (apply mem_In; cbn; tauto).
  assert (R2 : mem (nm_input_output m) [nm_raster_input m; nm_input_output m] = true) by (apply mem_In; cbn; tauto).
  assert (Rd : nm_raster_input m <> nm_input_output m) by (inversion Hp as [|? ? G _]; intros E; apply G; rewrite E; cbn; tauto).
  split.
  - destruct (c126_blifat_shapes m q classes column raster H) as (s & E & _ & Ek & Ep & Es). exists s. eexists. split; [exact E|]. split; [reflexivity|].
    unfold prepare_blifat, marked_only. cbn [fst]. rewrite filter_shape, Es, Ep, mem_pick. cbn [flat_map fst]. rewrite R1, R2, !Q by (cbn; tauto). reflexivity.
  - destruct (c126_altai_shapes m q classes column raster H) as (s & E & _ & Ek & Ep & Es). exists s.
    set (l0 := marked_only np_uid (bt_keep_projs s) (bt_projs s)).
    assert (E0 : map shape l0 = [(nm_raster_input m, 0, nm_input m, false, N.of_nat raster * (N.of_nat classes * N.of_nat column)); (nm_input_output m, 0, nm_output m, true, N.of_nat classes * N.of_nat column)]%N).
    { unfold l0, marked_only. rewrite filter_shape, Es, Ep, mem_pick. cbn [flat_map fst]. rewrite R1, R2, !Q by (cbn; tauto). reflexivity. }
    destruct l0 as [|w0 [|w1 [|]]]; cbn [map] in E0; try discriminate E0. injection E0 as U0 A0 B0 K0 N0 U1 A1 B1 K1 N1.
    destruct (c120_replaced fresh (wta_groups m) [w0; w1]) as (cs & Er & Lc & Cc).
    + cbn [map]. rewrite U0, U1. constructor; [intros [G|[]]; congruence|]. constructor; [intros []|constructor].
    + split; [exact Uf|]. intros i. cbn [map]. rewrite U0, U1. apply Hf.
    + cbn. constructor; [intros []|constructor].
    + cbn. rewrite U0, U1. intros x [<-|[]]. cbn. tauto.
    + eexists. split; [exact E|]. split; [exact Er|]. cbn in Lc. destruct cs as [|c [|]]; try discriminate Lc.
      destruct (Cc 0 (nm_input m) (nm_input_output m) eq_refl) as (w & w' & Hw & Uw & Ew & C1 & C2 & C3 & C4 & C5 & _). injection Ew as <-.
      assert (w = w1) by (destruct Hw as [<-|[<-|[]]]; [congruence|reflexivity]). subst w.
      unfold kept. cbn [filter pairs_of wta_groups flat_map list_prod fst snd map app]. rewrite U0, U1.
      unfold mem. cbn [existsb]. rewrite N.eqb_refl. replace (N.eqb (nm_raster_input m) (nm_input_output m)) with false by (symmetry; now apply N.eqb_neq). cbn [negb orb app map].
      f_equal; [unfold shape; rewrite U0, A0, B0, K0, N0; reflexivity|]. f_equal. unfold shape. rewrite C1, C2, C3, C5, B1. f_equal. rewrite <- N1. f_equal.
      unfold delta_synapses. destruct (np_kind w1), (np_kind c); cbn [same_synapses] in C4; try contradiction; [now rewrite C4|now rewrite (proj1 C4)|now rewrite (proj1 C4)].
Qed.
Print Assumptions c126_inference.

(** The client does not accept the model the learning example makes: it looks for a projection of 117600
    synapses, that is columns of 15 neurons, and the columns have 20. *)
Lemma kind_size_shape w : snd (shape w) = N.of_nat (kind_size (np_kind w)).
Proof. unfold shape, delta_synapses, kind_size. cbn [snd]. destruct (np_kind w); now rewrite ?map_length. Qed.
Lemma no_images l : forallb (fun e => negb (N.eqb (snd e) 117600)) (map shape l) = true -> image_projections l = [].
Proof.
  intros H. unfold image_projections. induction l as [|w t IH]; [reflexivity|]. cbn [map forallb] in H. apply andb_true_iff in H as [H1 H2]. cbn [filter].
  rewrite <- kind_size_shape. apply negb_true_iff in H1. rewrite H1. now apply IH.
Qed.
Theorem c126_client_refuted m q fresh : proper m q 10 20 784 -> unused fresh [] -> (forall i, ~ In (fresh i) [nm_raster_input m; nm_input_output m]) ->
  (exists s l, build (blifat_calls m q 10 20 784) nothing = Ret s /\ prepare_blifat (bt_keep_pops s) (bt_keep_projs s) (bt_projs s) (bt_pops s) = l /\ image_projections (fst l) = []) /\
  (exists s l, build (altai_calls m q 10 20 784) nothing = Ret s /\
    replace_pairs fresh 0 (wta_pairs (wta_groups m)) (marked_only np_uid (bt_keep_projs s) (bt_projs s)) = Ret l /\ image_projections l = []).
Proof.
  intros H U F. destruct (c126_inference m q 10 20 784 fresh H U F) as [(s & l & E1 & E2 & E3) (s' & l' & E1' & E2' & E3')].
  split; [exists s, l|exists s', l']; (split; [assumption|split; [assumption|]]); apply no_images; [rewrite E3|rewrite E3']; reflexivity.
Qed.
(** With columns of 15 it does. *)
Theorem c126_client_accepts m q fresh : proper m q 10 15 784 -> unused fresh [] -> (forall i, ~ In (fresh i) [nm_raster_input m; nm_input_output m]) ->
  exists s l, build (altai_calls m q 10 15 784) nothing = Ret s /\
    replace_pairs fresh 0 (wta_pairs (wta_groups m)) (marked_only np_uid (bt_keep_projs s) (bt_projs s)) = Ret l /\ image_projections l = [nm_raster_input m].
Proof.
  intros H U F. destruct (c126_inference m q 10 15 784 fresh H U F) as [_ (s & l & E1 & E2 & E3)]. exists s, l. split; [assumption|split; [assumption|]].
  destruct l as [|w0 [|w1 [|]]]; cbn [map] in E3; try discriminate E3. apply (f_equal (map (fun e => (fst (fst (fst (fst e))), snd e)))) in E3. cbn [map fst snd] in E3.
  rewrite !kind_size_shape in E3. injection E3 as U0 N0 U1 N1. unfold image_projections. cbn [filter].
  assert (V0 : N.eqb (N.of_nat (kind_size (np_kind w0))) 117600 = true) by (rewrite N0; reflexivity).
  assert (V1 : N.eqb (N.of_nat (kind_size (np_kind w1))) 117600 = false) by (rewrite N1; reflexivity).
  rewrite V0, V1. cbn [map]. rewrite <- U0. reflexivity.
Qed.
Print Assumptions c126_client_refuted.
Print Assumptions c126_client_accepts.

(** Values that meet the hypotheses: those of the example with the AltAI model (weights in double are rounded). *)
Definition case_names : names := mkNames 1 2 3 11 12 13 14 15 16 17.
Definition case_tn : tn := mkTn d_one 10 d_zero d_one 100 d_zero d_zero d_one 10 d_zero not_in_period 0 0 0 false.
Definition case_delta t (w : Z) d : dparams := mkDP (f_of_Z w) d t.
Definition case_parts : parts :=
  mkParts (GStdpAltai ((al_default_par, al_default), case_tn)) (GAltai (al_default_par, al_default))
    (mkRP (case_delta EXCITATORY 0 1) (mkRR (f_of_Z 0) (f_of_Z 0) (f_of_Z 1) (f_of_Z 1) 10 0 false false))
    (case_delta DOPAMINE 179 3) (case_delta EXCITATORY (-30000) 4) (case_delta EXCITATORY 10000 1) (case_delta EXCITATORY 10000 1)
    (case_delta BLOCKING (-10) 1) (case_delta EXCITATORY 10000 1).
Lemma Forall_repeat_all {A} (P : A -> Prop) x k : P x -> Forall P (repeat x k).
Proof. intros H. induction k; constructor; auto. Qed.
Example c126_case column : 0 < column <= 100 -> proper case_names case_parts 10 column 784.
Proof.
  intros Hc. constructor; cbn [case_names nm_input nm_output nm_gate nm_raster_input nm_target_input_dopamine nm_target_input_excitatory nm_target_gate nm_input_output nm_output_gate nm_gate_input].
  - repeat (constructor; [cbn; intuition discriminate|]). constructor.
  - cbn. intuition discriminate.
  - repeat (constructor; [cbn; intuition discriminate|]). constructor.
  - lia.
  - lia.
  - rewrite Nat2N.inj_mul. change two32 with 4294967296%N. change (N.of_nat 10) with 10%N. lia.
  - rewrite Nat2N.inj_mul. change two64 with 18446744073709551616%N. change (N.of_nat 10) with 10%N. change (N.of_nat 784) with 784%N. lia.
  - intros k. split; apply Forall_repeat_all; reflexivity.
  - split; [discriminate|]. intros k. split; discriminate.
  - split; intros x Hx k; cbn [In case_parts] in Hx; repeat (destruct Hx as [<-|Hx]; [split; [discriminate|intros E; try discriminate E]|]); try contradiction.
    exists (-10)%Z. split; [reflexivity|discriminate].
Qed.
(** With the constructor used for something smaller: what is kept is seen to differ. *)
Example c126_small : forall s, build (altai_calls case_names case_parts 2 3 4) nothing = Ret s ->
  map shape (bt_projs s) = [(11, 0, 1, false, 24); (12, 0, 1, true, 6); (13, 0, 1, true, 12); (14, 0, 3, true, 2); (15, 0, 2, true, 6); (16, 2, 3, true, 2); (17, 3, 1, true, 6)]%N /\
  bt_keep_projs s = [11; 15]%N.
Proof. intros s H. vm_compute in H. injection H as <-. split; vm_compute; reflexivity. Qed.
(** For the record: any number of steps of such a network returns, also with learning switched at will. *)
Theorem c126_alone pow2f expf calls s learns : sensible calls -> build calls nothing = Ret s ->
  exists k tr, net_run pow2f expf [] (bt_pops s) (bt_projs s) (map (mkTurn []) learns) k tr.
Proof. intros H E. destruct (c126_runs calls s [] H (fun _ _ => eq_refl) E). now apply c113_alone. Qed.
Print Assumptions c126_alone.
