(** Property theorems C52-C55, C63: projection creators and the connectivity
    validator. *)
From Verif Require Import Base ListLemmas Projection_Model Connect_Model Connect_Spec Connect_Proofs.

(** *** C52: every pair once, the diagonal, every pair off the diagonal once.  The
    product of the sizes must fit in [size_t]. *)
Theorem c52_all_to_all {P} (sg : nat -> nat -> P) pre post : (N.of_nat pre * N.of_nat post < two64)%N ->
  exists l, all_to_all sg pre post = Ret l /\ NoDup (ends l) /\ length l = pre * post /\ parametrised sg l /\
    forall a b, In (a, b) (ends l) <-> (a < N.of_nat pre)%N /\ (b < N.of_nat post)%N.
Proof.
  intros H. destruct (all_to_all_spec sg pre post H) as (l & E & H1 & H2 & H3). exists l.
  split; [exact E|]. split; [exact H1|]. split; [|split; [exact H3|exact H2]].
  revert E. unfold all_to_all. rewrite mul64_small by exact H. destruct pre as [|p]; [intros [= <-]; reflexivity|].
  rewrite (run_gen_map _ (fun i => edge sg (i mod S p) (i / S p))) by reflexivity.
  intros E. apply (f_equal (fun o => match o with Ret x => x | _ => [] end)) in E. rewrite <- E. now rewrite map_length, seq_length.
Qed.
Print Assumptions c52_all_to_all.
Theorem c52_exclusive {P} (sg : nat -> nat -> P) n : (N.of_nat n * N.of_nat (n - 1) < two64)%N ->
  exists l, exclusive sg n = Ret l /\ NoDup (ends l) /\ parametrised sg l /\
    forall a b, In (a, b) (ends l) <-> (a < N.of_nat n)%N /\ (b < N.of_nat n)%N /\ a <> b.
Proof. intros H. destruct (exclusive_spec sg n H) as (l & E & H1 & H2 & H3). exists l. auto. Qed.
Print Assumptions c52_exclusive.
Theorem c52_one_to_one {P} (sg1 : nat -> P) n :
  exists l, one_to_one sg1 n = Ret l /\ ends l = map (fun i => (N.of_nat i, N.of_nat i)) (seq 0 n) /\
    parametrised (fun a _ => sg1 a) l.
Proof.
  rewrite one_to_one_spec. eexists. split; [reflexivity|]. split; [now rewrite ends_map|].
  intros s Hs. apply in_map_iff in Hs as (i & <- & _). cbn [edge sy_params sy_from sy_to]. now rewrite Nat2N.id.
Qed.
Print Assumptions c52_one_to_one.
Example c52_case :
  (exists l, all_to_all (fun a b => 10 * a + b) 2 3 = Ret l /\ ends l = [(0, 0); (1, 0); (0, 1); (1, 1); (0, 2); (1, 2)]%N /\
             map sy_params l = [0; 10; 1; 11; 2; 12]) /\
  (exists l, exclusive (fun _ _ => tt) 3 = Ret l /\ ends l = [(0, 1); (0, 2); (1, 0); (1, 2); (2, 0); (2, 1)]%N) /\
  (N.of_nat 2 * N.of_nat 3 < two64)%N.
Proof. split; [eexists; split; [reflexivity|now split]|]. split; [eexists; now split|reflexivity]. Qed.

(** *** C53: aligned.  With a divisible larger population everything holds: ends in
    range, every neuron of the larger population once (in order), the same number for
    every neuron of the smaller one.  Missing: sizes that do not divide, and empty
    populations. *)
Theorem c53_aligned_partial {P} (sg : nat -> nat -> P) pre post : 0 < pre -> 0 < post ->
  Nat.max pre post mod Nat.min pre post = 0 ->
  exists l, aligned sg pre post = Ret l /\ parametrised sg l /\
    (forall a b, In (a, b) (ends l) -> (a < N.of_nat pre)%N /\ (b < N.of_nat post)%N) /\
    (post <= pre -> map sy_from l = map N.of_nat (seq 0 pre) /\ forall b, (b < N.of_nat post)%N -> fan_in l b = pre / post) /\
    (pre <= post -> map sy_to l = map N.of_nat (seq 0 post) /\ forall a, (a < N.of_nat pre)%N -> fan_out l a = post / pre).
Proof.
  intros Hp Hq Hm. destruct (aligned_ends sg pre post Hp Hq) as (l & E & H1 & H2 & H3). exists l.
  split; [exact E|]. split; [exact H1|].
  assert (Gi : forall f : N -> bool, length (filter (fun s => f (sy_to s)) l) = length (filter (fun e => f (snd e)) (ends l))).
  { intros f. unfold ends. rewrite filter_map_length. reflexivity. }
  assert (Go : forall f : N -> bool, length (filter (fun s => f (sy_from s)) l) = length (filter (fun e => f (fst e)) (ends l))).
  { intros f. unfold ends. rewrite filter_map_length. reflexivity. }
  assert (Ef : map sy_from l = map fst (ends l)) by (unfold ends; rewrite map_map; reflexivity).
  assert (Et : map sy_to l = map snd (ends l)) by (unfold ends; rewrite map_map; reflexivity).
  assert (Gcount : forall k m b, 0 < k -> b < m -> length (filter (fun i => N.eqb (N.of_nat (i / k)) (N.of_nat b)) (seq 0 (k * m))) = k).
  { intros k m b Hk Hb. rewrite (filter_ext _ (fun i => Nat.eqb (i / k) b)).
    - rewrite count_div by exact Hk. apply Nat.ltb_lt in Hb. now rewrite Hb.
    - intros i. destruct (N.eqb_spec (N.of_nat (i / k)) (N.of_nat b)); destruct (Nat.eqb_spec (i / k) b); try reflexivity; lia. }
  destruct (Nat.le_gt_cases post pre) as [C|C].
  - rewrite Nat.max_l, Nat.min_r in Hm by lia. specialize (H2 C).
    assert (Hk : 0 < pre / post) by (apply Nat.div_str_pos; lia).
    assert (Hd : pre = pre / post * post) by (pose proof (Nat.div_mod pre post ltac:(lia)); lia).
    split; [|split].
    + intros a b Hin. rewrite H2 in Hin. apply in_map_iff in Hin as (i & Ei & Hi). apply in_seq in Hi.
      apply pair_equal_spec in Ei as [<- <-]. pose proof (proj2 (pack_range pre post Hq C) Hm i ltac:(lia)). lia.
    + intros _. split; [rewrite Ef, H2, map_map; reflexivity|]. intros b Hb. unfold fan_in.
      rewrite (Gi (fun x => N.eqb x b)), H2, filter_map_length. cbn [snd]. rewrite <- (N2Nat.id b).
      pose proof (Gcount (pre / post) post (N.to_nat b) Hk ltac:(lia)) as G. rewrite <- Hd in G. exact G.
    + intros C'. assert (pre = post) by lia. subst post. rewrite Nat.div_same in * by lia. split.
      * rewrite Et, H2, map_map. apply map_ext. intros i. cbn [snd]. now rewrite Nat.div_1_r.
      * intros a Ha. unfold fan_out. rewrite (Go (fun x => N.eqb x a)), H2, filter_map_length. cbn [fst].
        rewrite <- (Gcount 1 pre (N.to_nat a) ltac:(lia) ltac:(lia)) at 1. rewrite Nat.mul_1_l. f_equal. apply filter_ext. intros i.
        now rewrite Nat.div_1_r, N2Nat.id.
  - rewrite Nat.max_r, Nat.min_l in Hm by lia. specialize (H3 C).
    assert (Hk : 0 < post / pre) by (apply Nat.div_str_pos; lia).
    assert (Hd : post = post / pre * pre) by (pose proof (Nat.div_mod post pre ltac:(lia)); lia).
    split; [|split; [lia|]].
    + intros a b Hin. rewrite H3 in Hin. apply in_map_iff in Hin as (i & Ei & Hi). apply in_seq in Hi.
      apply pair_equal_spec in Ei as [<- <-]. pose proof (proj2 (pack_range post pre Hp ltac:(lia)) Hm i ltac:(lia)). lia.
    + intros _. split; [rewrite Et, H3, map_map; reflexivity|]. intros b Hb. unfold fan_out.
      rewrite (Go (fun x => N.eqb x b)), H3, filter_map_length. cbn [fst]. rewrite <- (N2Nat.id b).
      pose proof (Gcount (post / pre) pre (N.to_nat b) Hk ltac:(lia)) as G. rewrite <- Hd in G. exact G.
Qed.
Print Assumptions c53_aligned_partial.
Example c53_case : exists l, aligned (fun _ _ => tt) 2 4 = Ret l /\ ends l = [(0, 0); (0, 1); (1, 2); (1, 3)]%N /\
  Nat.max 2 4 mod Nat.min 2 4 = 0.
Proof. eexists. split; [reflexivity|]. now split. Qed.
(** Exactly when the sizes divide are the ends in range: for other sizes the
    connector always makes synapses to neurons that do not exist. *)
Theorem c53_in_range_iff {P} (sg : nat -> nat -> P) pre post : 0 < pre -> 0 < post ->
  exists l, aligned sg pre post = Ret l /\
    ((forall a b, In (a, b) (ends l) -> (a < N.of_nat pre)%N /\ (b < N.of_nat post)%N) <->
     Nat.max pre post mod Nat.min pre post = 0).
Proof.
  intros Hp Hq. destruct (aligned_ends sg pre post Hp Hq) as (l & E & _ & H2 & H3). exists l. split; [exact E|]. split.
  - intros H. destruct (Nat.le_gt_cases post pre) as [C|C].
    + rewrite Nat.max_l, Nat.min_r by lia. apply pack_range; [lia|lia|]. intros i Hi. specialize (H2 C).
      destruct (H (N.of_nat i) (N.of_nat (i / (pre / post)))) as [_ G]; [|lia]. rewrite H2. apply in_map_iff. exists i. split; [reflexivity|apply in_seq; lia].
    + rewrite Nat.max_r, Nat.min_l by lia. apply pack_range; [lia|lia|]. intros i Hi. specialize (H3 C).
      destruct (H (N.of_nat (i / (post / pre))) (N.of_nat i)) as [G _]; [|lia]. rewrite H3. apply in_map_iff. exists i. split; [reflexivity|apply in_seq; lia].
  - intros Hm. destruct (c53_aligned_partial sg pre post Hp Hq Hm) as (l' & E' & _ & G & _). assert (l = l') by congruence. subst l'. exact G.
Qed.
Print Assumptions c53_in_range_iff.
(** The claim is false: with sizes 5 and 3 the connector names neuron 4 of the second
    population; with an empty population it divides by zero. *)
Theorem c53_refuted :
  (exists l, aligned (fun _ _ => tt) 5 3 = Ret l /\ In (4, 4)%N (ends l)) /\
  (forall n, 0 < n -> aligned (fun _ _ => tt) n 0 = UB /\ aligned (fun _ _ => tt) 0 n = UB).
Proof.
  split; [eexists; split; [reflexivity|cbn; auto 10]|].
  intros [|n] H; [lia|]. split; reflexivity.
Qed.
Print Assumptions c53_refuted.

(** *** C54: random connectors, for every sequence of draws in the range of the
    distribution. *)
Theorem c54_fixed_post {P} (sg : nat -> nat -> P) draw pre post count :
  (N.of_nat pre * N.of_nat count < two64)%N -> (forall i, draw i < post) ->
  exists l, fixed_number_post sg draw pre post count = Ret l /\ parametrised sg l /\ length l = pre * count /\
    (forall s, In s l -> (sy_from s < N.of_nat pre)%N /\ (sy_to s < N.of_nat post)%N) /\
    (forall a, (a < N.of_nat pre)%N -> fan_out l a = count).
Proof. intros H Hd. destruct (fixed_post_spec sg draw pre post count H Hd) as (l & E & H1 & H2 & H3 & H4). exists l. auto 10. Qed.
Print Assumptions c54_fixed_post.
Theorem c54_fixed_pre {P} (sg : nat -> nat -> P) draw pre post count :
  (N.of_nat post * N.of_nat count < two64)%N -> (forall i, draw i < pre) ->
  exists l, fixed_number_pre sg draw pre post count = Ret l /\ parametrised sg l /\ length l = post * count /\
    (forall s, In s l -> (sy_from s < N.of_nat pre)%N /\ (sy_to s < N.of_nat post)%N) /\
    (forall b, (b < N.of_nat post)%N -> fan_in l b = count).
Proof. intros H Hd. destruct (fixed_pre_spec sg draw pre post count H Hd) as (l & E & H1 & H2 & H3 & H4). exists l. auto 10. Qed.
Print Assumptions c54_fixed_pre.
(** A pair is generated at most once, and exactly if its draw is below the
    probability. *)
Theorem c54_fixed_probability {P} (sg : nat -> nat -> P) draw p pre post :
  (N.of_nat pre * N.of_nat post < two64)%N -> f_gt p f_one = false -> f_lt p f_zero = false ->
  exists l, fixed_probability sg draw p pre post = Ret l /\ NoDup (ends l) /\ parametrised sg l /\
    forall a b, In (a, b) (ends l) <->
      (a < N.of_nat pre)%N /\ (b < N.of_nat post)%N /\ f_lt (draw (N.to_nat b * pre + N.to_nat a)) p = true.
Proof. intros H H1 H2. apply fixed_probability_spec; [exact H|]. now rewrite H1, H2. Qed.
Print Assumptions c54_fixed_probability.
Theorem c54_probability_refused {P} (sg : nat -> nat -> P) draw p pre post :
  f_gt p f_one = true \/ f_lt p f_zero = true -> fixed_probability sg draw p pre post = Throw.
Proof. intros [H|H]; unfold fixed_probability; rewrite H; [reflexivity|now rewrite orb_true_r]. Qed.
Print Assumptions c54_probability_refused.
(** Probability one connects every pair and zero none, as draws lie in [0, 1). *)
Theorem c54_probability_ends {P} (sg : nat -> nat -> P) draw pre post :
  (N.of_nat pre * N.of_nat post < two64)%N -> (forall i, f_lt (draw i) f_one = true /\ f_lt (draw i) f_zero = false) ->
  fixed_probability sg draw f_zero pre post = Ret [] /\
  exists l, fixed_probability sg draw f_one pre post = Ret l /\ NoDup (ends l) /\
    forall a b, In (a, b) (ends l) <-> (a < N.of_nat pre)%N /\ (b < N.of_nat post)%N.
Proof.
  intros H Hd. split.
  - destruct (c54_fixed_probability sg draw f_zero pre post H eq_refl eq_refl) as (l & E & _ & _ & G). rewrite E. f_equal.
    destruct l as [|s l]; [reflexivity|exfalso]. destruct (proj1 (G (sy_from s) (sy_to s)) (or_introl eq_refl)) as (_ & _ & K).
    rewrite (proj2 (Hd _)) in K. discriminate.
  - destruct (c54_fixed_probability sg draw f_one pre post H eq_refl eq_refl) as (l & E & N & _ & G). exists l. split; [exact E|].
    split; [exact N|]. intros a b. rewrite G. rewrite (proj1 (Hd _)). intuition.
Qed.
Print Assumptions c54_probability_ends.
(** The advertised "fixed number of neurons" is not kept: neurons are drawn with
    replacement, so one neuron may be drawn every time.  With an empty other
    population the distribution is over all 64-bit numbers (0 - 1 wraps), and the
    connector names neurons that do not exist.  A NaN probability is accepted. *)
Theorem c54_limits :
  (exists draw l, (forall i, draw i < 5) /\ fixed_number_post (fun _ _ => tt) draw 1 5 3 = Ret l /\ ends l = [(0, 2); (0, 2); (0, 2)]%N) /\
  (exists draw l, fixed_number_post (fun _ _ => tt) draw 1 0 1 = Ret l /\ ends l = [(0, 7)]%N) /\
  (exists p, is_nan p = true /\ forall draw, fixed_probability (fun _ _ => tt) draw p 2 2 = Ret []).
Proof.
  split; [|split].
  - exists (fun _ => 2). eexists. split; [lia|]. split; reflexivity.
  - exists (fun _ => 7). eexists. split; reflexivity.
  - exists S754_nan. split; [reflexivity|]. intros draw. unfold fixed_probability. cbn [f_gt f_lt]. 
    assert (G : forall x, f_lt x S754_nan = false) by (intros [| | |]; reflexivity).
    cbn [orb]. unfold g_fixed_probability. unfold mul64. change (N.to_nat (w64 (N.of_nat 2 * N.of_nat 2))) with 4.
    cbn [run_gen obind]. rewrite !G. reflexivity.
Qed.
Print Assumptions c54_limits.
Example c54_case : exists l, fixed_number_post (fun _ _ => tt) (fun i => i * i mod 3) 2 3 2 = Ret l /\
  ends l = [(0, 0); (1, 1); (0, 1); (1, 0)]%N /\ forall i, i * i mod 3 < 3.
Proof. eexists. split; [reflexivity|]. split; [reflexivity|]. intros i. apply Nat.mod_upper_bound. discriminate. Qed.

(** *** C55: the report of the validator. *)
Theorem c55_projection pops projs u :
  In (ProjectionNotConnected u) (connectivity pops projs) <-> exists l, In l projs /\ l_uid l = u /\ l_pre l = 0%N /\ l_post l = 0%N.
Proof.
  unfold connectivity. destruct (fill_spec pops [] ltac:(constructor) ltac:(now left)) as [F1 _].
  pose proof (links_spec projs _ [] F1) as L. destruct (fold_left validate_link projs _) as [m r]. destruct L as (_ & _ & ->).
  rewrite in_app_iff, !in_flat_map. cbn [app]. split.
  - intros [H|(e & _ & H)].
    + apply in_flat_map in H as (l & Hl & H). exists l. unfold not_nil in H.
      destruct (N.eqb_spec (l_pre l) 0) as [E1|E1], (N.eqb_spec (l_post l) 0) as [E2|E2]; cbn [negb andb] in H; try contradiction.
      destruct H as [[= H]|[]]. auto.
    + destruct (negb (fst (snd e)) && negb (snd (snd e))); [destruct H as [H|[]]; discriminate|contradiction].
  - intros (l & Hl & Hu & H1 & H2). left. apply in_flat_map. exists l. split; [exact Hl|]. rewrite H1, H2. cbn. left. now rewrite Hu.
Qed.
Print Assumptions c55_projection.
(** An entry of a map with strictly growing keys. *)
Lemma has_In m u b : ordered m -> (has m u = Some b <-> In (u, b) m).
Proof.
  induction m as [|[v c] m IH]; intros Ho; [cbn; split; [discriminate|contradiction]|].
  inversion Ho as [|? ? Ho' HF]; subst. unfold has in *. cbn [find fst]. destruct (N.eqb_spec v u) as [->|E].
  - cbn [snd]. split; [intros [= ->]; now left|]. intros [[= ->]|H]; [reflexivity|].
    rewrite Forall_forall in HF. specialize (HF _ H). cbn in HF. lia.
  - rewrite (IH Ho'). split; [now right|]. intros [[= -> _]|H]; [congruence|exact H].
Qed.
Theorem c55_population pops projs u :
  In (PopulationNotConnected u) (connectivity pops projs) <-> In u pops /\ forall l, In l projs -> ~ touches u l.
Proof.
  unfold connectivity. destruct (fill_spec pops [] ltac:(constructor) ltac:(now left)) as [F1 F2]. cbn zeta in F1, F2.
  pose proof (links_spec projs _ [] F1) as L. destruct (fold_left validate_link projs _) as [m r]. destruct L as (L1 & L2 & ->).
  assert (G : In (PopulationNotConnected u) (flat_map (fun e : uid * (bool * bool) => if negb (fst (snd e)) && negb (snd (snd e)) then [PopulationNotConnected (fst e)] else []) m)
              <-> has m u = Some (false, false)).
  { rewrite in_flat_map, has_In by exact L1. split.
    - intros ([v [a b]] & He & H). cbn [fst snd] in H. destruct a, b; cbn [negb andb] in H; try contradiction. destruct H as [[= ->]|[]]. exact He.
    - intros H. exists (u, (false, false)). split; [exact H|]. now left. }
  rewrite in_app_iff, G, L2, F2. cbn [has find].
  assert (Pre : pre_of u projs = true <-> exists l, In l projs /\ u <> 0%N /\ l_pre l = u).
  { unfold pre_of, not_nil. rewrite existsb_exists. split.
    - intros (l & Hl & H). apply andb_true_iff in H as [H1 H2]. apply negb_true_iff, N.eqb_neq in H1. apply N.eqb_eq in H2. exists l. subst u. auto.
    - intros (l & Hl & H & <-). exists l. split; [exact Hl|]. rewrite N.eqb_refl. apply N.eqb_neq in H. now rewrite H. }
  assert (Post : post_of u projs = true <-> exists l, In l projs /\ u <> 0%N /\ l_post l = u).
  { unfold post_of, not_nil. rewrite existsb_exists. split.
    - intros (l & Hl & H). apply andb_true_iff in H as [H1 H2]. apply negb_true_iff, N.eqb_neq in H1. apply N.eqb_eq in H2. exists l. subst u. auto.
    - intros (l & Hl & H & <-). exists l. split; [exact Hl|]. rewrite N.eqb_refl. apply N.eqb_neq in H. now rewrite H. }
  assert (T : (forall l, In l projs -> ~ touches u l) <-> pre_of u projs = false /\ post_of u projs = false).
  { split.
    - intros H. split; apply not_true_iff_false; intros K; [apply Pre in K|apply Post in K]; destruct K as (l & Hl & Hu & E); apply (H l Hl); split; auto.
    - intros [H1 H2] l Hl (Hu & [E|E]).
      + assert (pre_of u projs = true) by (apply Pre; eauto). congruence.
      + assert (post_of u projs = true) by (apply Post; eauto). congruence. }
  rewrite T. rewrite <- (mem_In u pops).
  assert (R : ~ In (PopulationNotConnected u) ([] ++ flat_map (fun l : link => if negb (not_nil (l_pre l)) && negb (not_nil (l_post l)) then [ProjectionNotConnected (l_uid l)] else []) projs)).
  { cbn [app]. intros H. apply in_flat_map in H as (l & _ & H). destruct (negb (not_nil (l_pre l)) && negb (not_nil (l_post l))); [destruct H as [H|[]]; discriminate|contradiction]. }
  destruct (mem u pops).
  - destruct (pre_of u projs), (post_of u projs); cbn [orb]; split; try tauto; try (intros [H|H]; [tauto|congruence]); intros (_ & H & H'); congruence.
  - cbn [has find]. destruct (pre_of u projs), (post_of u projs); cbn [orb]; split; try tauto; try (intros [H|H]; [tauto|discriminate]); intros (H & _); congruence.
Qed.
Print Assumptions c55_population.
(** No population is reported twice. *)
Theorem c55_once pops projs u :
  length (filter (fun i => match i with PopulationNotConnected v => N.eqb v u | _ => false end) (connectivity pops projs)) <= 1.
Proof.
  unfold connectivity. destruct (fill_spec pops [] ltac:(constructor) ltac:(now left)) as [F1 _]. cbn zeta in F1.
  pose proof (links_spec projs _ [] F1) as L. destruct (fold_left validate_link projs _) as [m r]. destruct L as (L1 & _ & ->).
  rewrite filter_app, app_length. cbn [app].
  assert (E : filter (fun i => match i with PopulationNotConnected v => N.eqb v u | _ => false end)
    (flat_map (fun l : link => if negb (not_nil (l_pre l)) && negb (not_nil (l_post l)) then [ProjectionNotConnected (l_uid l)] else []) projs) = []).
  { induction projs as [|l projs IH]; [reflexivity|]. cbn [flat_map]. rewrite filter_app, IH.
    destruct (negb (not_nil (l_pre l)) && negb (not_nil (l_post l))); reflexivity. }
  rewrite E. cbn [length]. rewrite Nat.add_0_l. clear -L1.
  induction m as [|[v [a b]] m IH]; cbn [flat_map]; [cbn; lia|]. inversion L1 as [|? ? L1' HF]; subst. specialize (IH L1').
  rewrite filter_app, app_length. cbn [fst snd] in *.
  destruct (negb a && negb b); cbn [filter length]; [|exact IH]. destruct (N.eqb_spec v u) as [->|_]; cbn [length]; [|exact IH].
  assert (Z : filter (fun i => match i with PopulationNotConnected w => N.eqb w u | _ => false end)
     (flat_map (fun e : uid * (bool * bool) => if negb (fst (snd e)) && negb (snd (snd e)) then [PopulationNotConnected (fst e)] else []) m) = []).
  { clear -HF. induction HF as [|[w [a b]] m Hw _ IH]; [reflexivity|]. cbn [flat_map fst snd] in *. rewrite filter_app, IH.
    destruct (negb a && negb b); cbn [filter app]; [|reflexivity]. replace (N.eqb w u) with false by lia. reflexivity. }
  rewrite Z. cbn. lia.
Qed.
Print Assumptions c55_once.
Example c55_case :
  connectivity [7; 3; 5; 9]%N [mkLink 20 7 0; mkLink 21 0 0; mkLink 22 5 7]%N =
    [ProjectionNotConnected 21; PopulationNotConnected 3; PopulationNotConnected 9].
Proof. reflexivity. Qed.

(** *** C63: connectors from given synapses. *)
Theorem c63_from_container {P} (l : list (synapse P)) : from_container l = Ret l.
Proof. apply from_container_spec. Qed.
Print Assumptions c63_from_container.
Theorem c63_clone {P Q} (sg1 : nat -> P) (src : list (synapse Q)) :
  exists l, clone sg1 src = Ret l /\ length l = length src /\
    forall i s, nth_error src i = Some s -> nth_error l i = Some (mkSyn (sg1 i) (sy_from s) (sy_to s)).
Proof.
  destruct (clone_spec sg1 src) as (l & E & He & Hp). exists l. split; [exact E|].
  assert (Hl : length l = length src) by (rewrite <- (map_length (fun s => (sy_from s, sy_to s)) l), <- (map_length (fun s => (sy_from s, sy_to s)) src); unfold ends in He; now rewrite He).
  split; [exact Hl|]. intros i s Hs. assert (Hi : nth_error (ends src) i = Some (sy_from s, sy_to s)) by (unfold ends; now rewrite nth_error_map, Hs).
  rewrite <- He in Hi. unfold ends in Hi. rewrite nth_error_map in Hi. destruct (nth_error l i) as [t|] eqn:Et; cbn [option_map] in Hi; [|discriminate].
  injection Hi as H1 H2. apply Hp in Et. destruct t as [x a b]. cbn in *. now subst.
Qed.
Print Assumptions c63_clone.
Theorem c63_index_based {P} (og : nat -> nat -> option P) pre post : (N.of_nat pre * N.of_nat post < two64)%N ->
  exists l, index_based og pre post = Ret l /\ NoDup (ends l) /\
    forall x a b, In (mkSyn x a b) l <->
      (a < N.of_nat pre)%N /\ (b < N.of_nat post)%N /\ og (N.to_nat a) (N.to_nat b) = Some x.
Proof. apply index_based_spec. Qed.
Print Assumptions c63_index_based.
Example c63_case :
  (exists l, clone (fun i => i) [mkSyn tt 4 2; mkSyn tt 0 1]%N = Ret l /\ l = [mkSyn 0 4 2; mkSyn 1 0 1]) /\
  (exists l, index_based (fun a b => if Nat.eqb a b then None else Some (a + b)) 2 2 = Ret l /\ l = [mkSyn 1 1 0; mkSyn 1 0 1]).
Proof. split; eexists; split; reflexivity. Qed.
