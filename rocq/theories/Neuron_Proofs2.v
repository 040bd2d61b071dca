From Coq Require Import Sorted.
From Verif Require Import Base ListLemmas Messaging_Model Delta_Model Delta_Spec Delta_Proofs Delta_Proofs2
  Neuron_Model Neuron_Spec Neuron_Proofs.

Section Pop.
Context {A : Type}.
Variables (pre : A -> A) (imp : A -> impact -> outcome A) (post : A -> A * bool).

(** ** Parts: a phase on [start, start + count), seen at one position. *)
Lemma pre_part_length : forall ns start count, length (pre_part pre start count ns) = length ns.
Proof.
  induction ns as [|x ns IH]; intros start count; [destruct start; reflexivity|].
  destruct start as [|s]; cbn; [destruct count as [|c]; cbn; [reflexivity|]|]; now rewrite IH.
Qed.
Lemma pre_part_nth : forall ns start count i,
  nth_error (pre_part pre start count ns) i =
  if (start <=? i) && (i <? start + count) then option_map pre (nth_error ns i) else nth_error ns i.
Proof.
  induction ns as [|x ns IH]; intros start count i.
  - replace (pre_part pre start count []) with (@nil A) by (destruct start; reflexivity).
    destruct ((start <=? i) && (i <? start + count)); destruct i; reflexivity.
  - destruct start as [|s]; cbn [pre_part].
    + destruct count as [|c].
      * destruct (Nat.ltb_spec i (0 + 0)); [lia|]. now rewrite andb_false_r.
      * destruct i as [|i]; [reflexivity|]. cbn [nth_error]. rewrite IH. reflexivity.
    + destruct i as [|i]; [reflexivity|]. cbn [nth_error]. rewrite IH. reflexivity.
Qed.
Lemma post_part_length : forall ns k start count, length (fst (post_part post k start count ns)) = length ns.
Proof.
  induction ns as [|x ns IH]; intros k start count; [destruct start; reflexivity|].
  destruct start as [|s]; cbn [post_part].
  - destruct count as [|c]; [reflexivity|]. destruct (post x) as [x' b]. specialize (IH (S k) 0 c).
    destruct (post_part post (S k) 0 c ns). cbn in *. now rewrite IH.
  - specialize (IH (S k) s count). destruct (post_part post (S k) s count ns). cbn in *. now rewrite IH.
Qed.
Lemma post_part_nth : forall ns k start count i,
  nth_error (fst (post_part post k start count ns)) i =
  if (start <=? i) && (i <? start + count) then option_map (fun x => fst (post x)) (nth_error ns i) else nth_error ns i.
Proof.
  induction ns as [|x ns IH]; intros k start count i.
  - replace (fst (post_part post k start count [])) with (@nil A) by (destruct start; reflexivity).
    destruct ((start <=? i) && (i <? start + count)); destruct i; reflexivity.
  - destruct start as [|s]; cbn [post_part].
    + destruct count as [|c].
      * destruct (Nat.ltb_spec i (0 + 0)); [lia|]. now rewrite andb_false_r.
      * specialize (IH (S k) 0 c). destruct (post x) as [x' b] eqn:Ex. destruct (post_part post (S k) 0 c ns) as [t' l].
        cbn [fst] in *. destruct i as [|i]; cbn [nth_error]; [cbn; now rewrite Ex|]. rewrite IH. reflexivity.
    + specialize (IH (S k) s count). destruct (post_part post (S k) s count ns) as [t' l]. cbn [fst] in *.
      destruct i as [|i]; [reflexivity|]. cbn [nth_error]. rewrite IH. reflexivity.
Qed.
(** The indexes a part reports. *)
Definition spikes_at (ns : list A) (i : nat) : bool :=
  match nth_error ns i with Some x => snd (post x) | None => false end.
Lemma post_part_idx : forall ns k start count, start + count <= length ns ->
  snd (post_part post k start count ns) = filter (fun j => spikes_at ns (j - k)) (seq (k + start) count).
Proof.
  induction ns as [|x ns IH]; intros k start count Hle; cbn [length] in Hle.
  - assert (start = 0) by lia. assert (count = 0) by lia. subst. reflexivity.
  - destruct start as [|s]; cbn [post_part].
    + destruct count as [|c]; [reflexivity|].
      specialize (IH (S k) 0 c ltac:(lia)). destruct (post x) as [x' b] eqn:Ex. destruct (post_part post (S k) 0 c ns) as [t' l].
      cbn [snd] in *. rewrite Nat.add_0_r in *. cbn [seq filter]. rewrite Nat.sub_diag. unfold spikes_at at 1. cbn [nth_error].
      rewrite Ex. cbn [snd].
      assert (G : l = filter (fun j => spikes_at (x :: ns) (j - k)) (seq (S k) c)).
      { rewrite IH. apply filter_ext_in. intros j Hj. apply in_seq in Hj. unfold spikes_at.
        replace (j - k) with (S (j - S k)) by lia. reflexivity. }
      destruct b; now rewrite G.
    + specialize (IH (S k) s count ltac:(lia)). destruct (post_part post (S k) s count ns) as [t' l]. cbn [snd] in *.
      rewrite IH. replace (k + S s) with (S k + s) by lia. apply filter_ext_in. intros j Hj. apply in_seq in Hj.
      unfold spikes_at. replace (j - k) with (S (j - S k)) by lia. reflexivity.
Qed.

(** ** Impacts *)
Lemma update_at_spec : forall (ns : list A) i f ns', update_at i f ns = Ret ns' <->
  exists x x', nth_error ns i = Some x /\ f x = Ret x' /\ length ns' = length ns /\ nth_error ns' i = Some x' /\
    forall j, j <> i -> nth_error ns' j = nth_error ns j.
Proof.
  induction ns as [|x ns IH]; intros i f ns'; cbn [update_at].
  - split; [intros H; destruct i; discriminate|]. intros (y & y' & H & _). destruct i; discriminate.
  - destruct i as [|i]; cbn [update_at].
    + destruct (f x) as [x'| |] eqn:Ef; cbn [obind].
      * split.
        -- intros H. apply ret_inj in H. subst ns'. exists x, x'. repeat split; auto. intros [|j] Hj; [lia|reflexivity].
        -- intros (y & y' & [= <-] & Ey & Hl & Hn & Hj). rewrite Ef in Ey. injection Ey as <-.
           f_equal. destruct ns' as [|z ns']; [discriminate|]. cbn in Hn. injection Hn as ->. f_equal.
           apply nth_error_ext. intros n. symmetry. apply (Hj (S n)). lia.
      * split; [discriminate|]. intros (y & y' & [= <-] & Ey & _). congruence.
      * split; [discriminate|]. intros (y & y' & [= <-] & Ey & _). congruence.
    + split.
      * intros H. destruct (update_at i f ns) as [t'| |] eqn:E; cbn [obind] in H; try discriminate. injection H as <-.
        apply IH in E as (y & y' & E1 & E2 & E3 & E4 & E5). exists y, y'. cbn [nth_error length].
        repeat split; auto. intros [|j] Hj; [reflexivity|]. apply E5. lia.
      * intros (y & y' & E1 & E2 & E3 & E4 & E5). destruct ns' as [|z ns']; [discriminate|].
        pose proof (E5 0 ltac:(lia)) as E0. cbn in E0. injection E0 as ->.
        assert (E : update_at i f ns = Ret ns').
        { apply IH. exists y, y'. repeat split; auto. intros j Hj. apply (E5 (S j)). lia. }
        rewrite E. reflexivity.
Qed.
Lemma addressed_cons i x l : addressed i (x :: l) = if N.eqb (i_post x) (N.of_nat i) then x :: addressed i l else addressed i l.
Proof. reflexivity. Qed.
Lemma impact_population_spec : forall l ns ns', impact_population imp l ns = Ret ns' <->
  Forall (fun x => N.to_nat (i_post x) < length ns) l /\ length ns' = length ns /\
  forall i n, nth_error ns i = Some n -> exists n', nth_error ns' i = Some n' /\ impacts imp n (addressed i l) = Ret n'.
Proof.
  induction l as [|x l IH]; intros ns ns'; cbn [impact_population].
  - split.
    + intros [= <-]. repeat split; auto. intros i n H. exists n. auto.
    + intros (_ & Hl & H). f_equal. apply nth_error_ext. intros i.
      destruct (nth_error ns i) as [n|] eqn:E; [|symmetry; apply nth_error_None; apply nth_error_None in E; lia].
      destruct (H i n E) as (n' & E' & [= ->]). congruence.
  - set (k := N.to_nat (i_post x)). split.
    + intros H. destruct (update_at k (fun n => imp n x) ns) as [m| |] eqn:E; cbn [obind] in H; try discriminate.
      apply IH in H as (HF & Hl & H). apply update_at_spec in E as (y & y' & E1 & E2 & E3 & E4 & E5).
      rewrite E3 in HF, Hl. split; [|split; [exact Hl|]].
      * constructor; [|exact HF]. fold k. apply nth_error_Some. congruence.
      * intros i n Hi. rewrite addressed_cons. destruct (N.eqb_spec (i_post x) (N.of_nat i)) as [Ei|Ei].
        -- assert (i = k) by (unfold k; rewrite Ei; lia). subst i. rewrite Hi in E1. injection E1 as <-.
           destruct (H k y' E4) as (n' & F1 & F2). exists n'. split; [exact F1|]. cbn [impacts]. rewrite E2. exact F2.
        -- apply H. rewrite E5; [exact Hi|]. unfold k. lia.
    + intros (HF & Hl & H). inversion HF as [|? ? Hx HF']; subst. fold k in Hx.
      destruct (nth_error ns k) as [y|] eqn:Ek; [|apply nth_error_None in Ek; lia].
      destruct (H k y Ek) as (n' & F1 & F2). rewrite addressed_cons in F2.
      destruct (N.eqb_spec (i_post x) (N.of_nat k)) as [Ei|Ei]; [|unfold k in Ei; lia].
      cbn [impacts] in F2. destruct (imp y x) as [y'| |] eqn:Ey; cbn [obind] in F2; try discriminate.
      set (m := firstn k ns ++ y' :: skipn (S k) ns).
      assert (Lm : length m = length ns).
      { unfold m. rewrite app_length, firstn_length. cbn [length]. rewrite skipn_length. lia. }
      assert (Lk : length (firstn k ns) = k) by (rewrite firstn_length; lia).
      assert (M1 : nth_error m k = Some y').
      { unfold m. rewrite nth_error_app2 by lia. rewrite Lk, Nat.sub_diag. reflexivity. }
      assert (M2 : forall j, j <> k -> nth_error m j = nth_error ns j).
      { intros j Hj. unfold m. destruct (Nat.lt_ge_cases j k) as [Hlt|Hge].
        - rewrite nth_error_app1 by lia. apply nth_error_firstn_lt. exact Hlt.
        - rewrite nth_error_app2 by lia. rewrite Lk. destruct (j - k) as [|q] eqn:Eq; [lia|]. cbn [nth_error].
          rewrite nth_error_skipn_plus. f_equal. lia. }
      assert (E : update_at k (fun n => imp n x) ns = Ret m).
      { apply update_at_spec. exists y, y'. auto. }
      rewrite E. cbn [obind]. apply IH. rewrite Lm. split; [exact HF'|]. split; [exact Hl|].
      intros i n Hi. destruct (Nat.eq_dec i k) as [->|Hne].
      * rewrite M1 in Hi. injection Hi as <-. exists n'. auto.
      * rewrite M2 in Hi by exact Hne. destruct (H i n Hi) as (q & Q1 & Q2). exists q. split; [exact Q1|].
        rewrite addressed_cons in Q2. destruct (N.eqb_spec (i_post x) (N.of_nat i)) as [Ei'|_]; [|exact Q2].
        unfold k in Hne. rewrite Ei' in Hne. lia.
Qed.

(** ** The population step *)
Lemma pre_part_all ns : pre_part pre 0 (length ns) ns = map pre ns.
Proof.
  apply nth_error_ext. intros i. rewrite pre_part_nth, nth_error_map. cbn [Nat.leb andb plus].
  destruct (Nat.ltb_spec i (length ns)); [reflexivity|].
  assert (E : nth_error ns i = None) by (apply nth_error_None; lia). now rewrite E.
Qed.
Lemma post_part_all_states ns : fst (post_part post 0 0 (length ns) ns) = map (fun x => fst (post x)) ns.
Proof.
  apply nth_error_ext. intros i. rewrite post_part_nth, nth_error_map. cbn [Nat.leb andb plus].
  destruct (Nat.ltb_spec i (length ns)); [reflexivity|].
  assert (E : nth_error ns i = None) by (apply nth_error_None; lia). now rewrite E.
Qed.
Lemma spikes_at_nth ns i : spikes_at ns i = nth i (map snd (map post ns)) false.
Proof.
  unfold spikes_at. rewrite map_map. destruct (nth_error ns i) as [x|] eqn:E.
  - symmetry. apply nth_error_nth. rewrite nth_error_map, E. reflexivity.
  - symmetry. apply nth_overflow. rewrite map_length. now apply nth_error_None.
Qed.
Lemma filter_spikes ns : filter (spikes_at ns) (seq 0 (length ns)) = positions (map snd (map post ns)).
Proof.
  unfold positions. rewrite !map_length. apply filter_ext. intros i. apply spikes_at_nth.
Qed.
Lemma post_part_all_idx ns : snd (post_part post 0 0 (length ns) ns) = positions (map snd (map post ns)).
Proof.
  rewrite post_part_idx by lia. cbn [plus]. rewrite <- filter_spikes. apply filter_ext. intros i. now rewrite Nat.sub_0_r.
Qed.

Definition message_of (u : uid) (step : N) (idx : list nat) : message :=
  SpikeMsg u step (map (fun i => w32 (N.of_nat i)) idx).
Definition sent_of (m : message) (idx : list nat) : option message := if Nat.eqb (length idx) 0 then None else Some m.

(** the outcome of the middle phase decides *)
Lemma population_step_eq u step ms ns :
  population_step pre imp post u step ms ns =
  obind (impact_population imp (impacts_of ms) (map pre ns)) (fun n1 =>
    let idx := positions (map snd (map post n1)) in
    Ret (map (fun x => fst (post x)) n1, message_of u step idx, sent_of (message_of u step idx) idx)).
Proof.
  unfold population_step. rewrite pre_part_all.
  destruct (impact_population imp (impacts_of ms) (map pre ns)) as [n1| |]; cbn [obind]; try reflexivity.
  pose proof (post_part_all_states n1) as E1. pose proof (post_part_all_idx n1) as E2.
  destruct (post_part post 0 0 (length n1) n1) as [n2 idx]. cbn [fst snd] in *. subst. reflexivity.
Qed.
Lemma population_step_spec u step ms ns ns' m sent :
  population_step pre imp post u step ms ns = Ret (ns', m, sent) <->
  Forall (fun x => N.to_nat (i_post x) < length ns) (impacts_of ms) /\
  exists rs, length rs = length ns /\
    (forall i n, nth_error ns i = Some n ->
       exists r, nth_error rs i = Some r /\ neuron_step pre imp post n (addressed i (impacts_of ms)) = Ret r) /\
    ns' = map fst rs /\ m = message_of u step (positions (map snd rs)) /\ sent = sent_of m (positions (map snd rs)).
Proof.
  rewrite population_step_eq. split.
  - intros H. destruct (impact_population imp (impacts_of ms) (map pre ns)) as [n1| |] eqn:E; cbn [obind] in H; try discriminate.
    injection H as <- <- <-. apply impact_population_spec in E as (HF & Hl & H). rewrite map_length in HF, Hl.
    split; [exact HF|]. exists (map post n1). split; [now rewrite map_length|]. split.
    + intros i n Hi. destruct (H i (pre n)) as (n' & E1 & E2); [rewrite nth_error_map, Hi; reflexivity|].
      exists (post n'). split; [rewrite nth_error_map, E1; reflexivity|]. unfold neuron_step. now rewrite E2.
    + rewrite map_map. auto.
  - intros (HF & rs & Hl & H & -> & -> & ->).
    assert (G : exists n1, length n1 = length ns /\ (forall i n, nth_error ns i = Some n -> exists n', nth_error n1 i = Some n' /\
                impacts imp (pre n) (addressed i (impacts_of ms)) = Ret n') /\ rs = map post n1).
    { revert H Hl. generalize (impacts_of ms) as l. clear HF. intros l H Hl.
      assert (G : forall k, k <= length ns -> exists n1, length n1 = k /\ (forall i n, i < k -> nth_error ns i = Some n ->
          exists n', nth_error n1 i = Some n' /\ impacts imp (pre n) (addressed i l) = Ret n') /\ firstn k rs = map post n1).
      { induction k as [|k IH]; intros Hk.
        - exists []. repeat split; [intros; lia].
        - destruct IH as (n1 & L & HI & E); [lia|].
          destruct (nth_error ns k) as [n|] eqn:Ek; [|apply nth_error_None in Ek; lia].
          destruct (H k n Ek) as (r & Er & Es). unfold neuron_step in Es.
          destruct (impacts imp (pre n) (addressed k l)) as [q| |] eqn:Eq; cbn [obind] in Es; try discriminate.
          apply ret_inj in Es. exists (n1 ++ [q]). split; [rewrite app_length; cbn; lia|]. split.
          + intros i n0 Hi Hn. destruct (Nat.eq_dec i k) as [->|Hne].
            * rewrite Ek in Hn. injection Hn as <-. exists q. split; [|exact Eq]. rewrite nth_error_app2 by lia.
              rewrite L, Nat.sub_diag. reflexivity.
            * destruct (HI i n0 ltac:(lia) Hn) as (n' & F1 & F2). exists n'. split; [|exact F2]. rewrite nth_error_app1 by lia. exact F1.
          + rewrite map_app, <- E. cbn [map]. rewrite Es. apply nth_error_split in Er as (r1 & r2 & -> & L1).
            rewrite <- L1. replace (S (length r1)) with (length r1 + 1) by lia. rewrite firstn_app_2. cbn [firstn].
            f_equal. rewrite firstn_app, Nat.sub_diag, firstn_all. cbn. now rewrite app_nil_r. }
      destruct (G (length ns) (le_n _)) as (n1 & L & HI & E). exists n1. split; [exact L|]. split.
      - intros i n Hi. apply HI; [|exact Hi]. apply nth_error_Some. congruence.
      - rewrite <- Hl in E. now rewrite firstn_all in E. }
    destruct G as (n1 & L & HI & ->).
    assert (E : impact_population imp (impacts_of ms) (map pre ns) = Ret n1).
    { apply impact_population_spec. rewrite map_length. split; [exact HF|]. split; [exact L|]. intros i n Hi.
      rewrite nth_error_map in Hi. destruct (nth_error ns i) as [n0|] eqn:E0; cbn in Hi; [|discriminate]. injection Hi as <-.
      now apply HI. }
    rewrite E. cbn [obind]. rewrite !map_map. reflexivity.
Qed.

(** ** Parts in any order *)
Definition inside (i : nat) (p : nat * nat) : bool := (fst p <=? i) && (i <? snd p).
Definition cnt (i : nat) (order : list (nat * nat)) : nat := length (filter (inside i) order).
Lemma cnt_perm i o o' : Permutation o o' -> cnt i o = cnt i o'.
Proof. intros H. unfold cnt. apply Permutation_length. now apply perm_filter. Qed.
Lemma tiles_cnt : forall ps from size, tiles from size ps -> forall i,
  cnt i (map to_nat_part ps) = if (N.to_nat from <=? i) && (i <? N.to_nat size) then 1 else 0.
Proof.
  induction ps as [|[a b] ps IH]; cbn [tiles map]; intros from size H i.
  - subst. unfold cnt. cbn [filter length]. destruct (Nat.leb_spec (N.to_nat size) i), (Nat.ltb_spec i (N.to_nat size)); cbn [andb]; try reflexivity; lia.
  - destruct H as (-> & Hab & H). unfold cnt in *. cbn [filter]. unfold inside at 1. cbn [to_nat_part fst snd].
    specialize (IH b size H i).
    destruct (Nat.leb_spec (N.to_nat from) i), (Nat.ltb_spec i (N.to_nat b)), (Nat.leb_spec (N.to_nat b) i),
      (Nat.ltb_spec i (N.to_nat size)); cbn [andb length] in *; rewrite ?IH; try reflexivity; lia.
Qed.
Lemma inside_count i p : (fst p <= snd p) -> (fst p <=? i) && (i <? fst p + (snd p - fst p)) = inside i p.
Proof. intros H. unfold inside. now replace (fst p + (snd p - fst p)) with (snd p) by lia. Qed.
Lemma cnt_cons i p o : cnt i (p :: o) = (if inside i p then 1 else 0) + cnt i o.
Proof. unfold cnt. cbn [filter]. destruct (inside i p); reflexivity. Qed.

Lemma mt_pre_nth : forall order ns i, Forall (fun p : nat * nat => fst p <= snd p) order -> cnt i order <= 1 ->
  nth_error (fold_left (fun ns part => pre_part pre (fst part) (snd part - fst part) ns) order ns) i =
  if cnt i order =? 1 then option_map pre (nth_error ns i) else nth_error ns i.
Proof.
  induction order as [|p o IH]; intros ns i Ho Hc; cbn [fold_left]; [reflexivity|].
  inversion Ho as [|? ? H1 H2]; subst. rewrite cnt_cons in *. rewrite IH; [|exact H2|destruct (inside i p); lia].
  rewrite pre_part_nth, inside_count by exact H1. destruct (inside i p).
  - assert (E : cnt i o = 0) by lia. rewrite E. reflexivity.
  - reflexivity.
Qed.
Lemma mt_pre_all order ns : Forall (fun p : nat * nat => fst p <= snd p) order ->
  (forall i, cnt i order = if i <? length ns then 1 else 0) ->
  fold_left (fun ns part => pre_part pre (fst part) (snd part - fst part) ns) order ns = map pre ns.
Proof.
  intros Ho Hc. apply nth_error_ext. intros i. rewrite mt_pre_nth; [|exact Ho|rewrite Hc; destruct (i <? length ns); lia].
  rewrite Hc, nth_error_map. destruct (Nat.ltb_spec i (length ns)); [reflexivity|]. cbn.
  assert (E : nth_error ns i = None) by (apply nth_error_None; lia). now rewrite E.
Qed.

Definition part_idx (ns : list A) (p : nat * nat) : list nat := filter (spikes_at ns) (seq (fst p) (snd p - fst p)).
Lemma mt_post_gen : forall order ns acc,
  Forall (fun p : nat * nat => fst p <= snd p <= length ns) order -> (forall i, cnt i order <= 1) ->
  let r := fold_left (fun (s : list A * list nat) (part : nat * nat) =>
    let (ns, idx) := s in
    let (ns', l) := post_part post 0 (fst part) (snd part - fst part) ns in
    (ns', idx ++ l)) order (ns, acc) in
  (forall i, nth_error (fst r) i = if cnt i order =? 1 then option_map (fun x => fst (post x)) (nth_error ns i) else nth_error ns i) /\
  snd r = acc ++ flat_map (part_idx ns) order.
Proof.
  induction order as [|p o IH]; intros ns acc Ho Hc; cbn zeta; cbn [fold_left flat_map].
  - split; [reflexivity|]. cbn. now rewrite app_nil_r.
  - inversion Ho as [|? ? H1 H2]; subst.
    pose proof (post_part_nth ns 0 (fst p) (snd p - fst p)) as En.
    pose proof (post_part_idx ns 0 (fst p) (snd p - fst p) ltac:(lia)) as Ei.
    pose proof (post_part_length ns 0 (fst p) (snd p - fst p)) as El.
    destruct (post_part post 0 (fst p) (snd p - fst p) ns) as [ns1 l]. cbn [fst snd] in *.
    assert (Ho' : Forall (fun p : nat * nat => fst p <= snd p <= length ns1) o) by (rewrite El; exact H2).
    assert (Hc' : forall i, cnt i o <= 1) by (intros i; specialize (Hc i); rewrite cnt_cons in Hc; lia).
    specialize (IH ns1 (acc ++ l) Ho' Hc'). cbn zeta in IH. destruct IH as [IH1 IH2]. split.
    + intros i. rewrite IH1, En, inside_count by lia. rewrite cnt_cons. specialize (Hc i). rewrite cnt_cons in Hc.
      destruct (inside i p); [|reflexivity]. assert (E : cnt i o = 0) by lia. rewrite E. reflexivity.
    + rewrite IH2, <- app_assoc. f_equal. f_equal.
      * rewrite Ei. cbn [plus]. apply filter_ext. intros i. now rewrite Nat.sub_0_r.
      * apply flat_map_ext_in. intros q Hq. unfold part_idx. apply filter_ext_in. intros j Hj. unfold spikes_at. rewrite En.
        rewrite inside_count by lia. apply in_seq in Hj.
        assert (Iq : inside j q = true).
        { unfold inside. rewrite andb_true_iff, Nat.leb_le, Nat.ltb_lt. lia. }
        assert (Cq : 1 <= cnt j o).
        { unfold cnt. assert (X : In q (filter (inside j) o)) by (apply filter_In; auto). destruct (filter (inside j) o); [contradiction|cbn; lia]. }
        specialize (Hc j). rewrite cnt_cons in Hc. destruct (inside j p); [lia|reflexivity].
Qed.
Lemma filter_flat_map_seq (f : nat -> bool) : forall ps from size, tiles from size ps ->
  flat_map (fun p => filter f (seq (fst p) (snd p - fst p))) (map to_nat_part ps)
  = filter f (seq (N.to_nat from) (N.to_nat size - N.to_nat from)).
Proof.
  induction ps as [|[a b] ps IH]; cbn [tiles map flat_map]; intros from size H.
  - subst. now rewrite Nat.sub_diag.
  - destruct H as (-> & Hab & H). rewrite (IH b size H). cbn [to_nat_part fst snd].
    destruct (tiles_bounds _ _ _ H) as [Hb _].
    replace (N.to_nat size - N.to_nat from) with ((N.to_nat b - N.to_nat from) + (N.to_nat size - N.to_nat b)) by lia.
    rewrite seq_app, filter_app. replace (N.to_nat from + (N.to_nat b - N.to_nat from)) with (N.to_nat b) by lia. reflexivity.
Qed.
Lemma tiles_le ps size : tiles 0 size ps -> Forall (fun p : nat * nat => fst p <= snd p <= N.to_nat size) (map to_nat_part ps).
Proof.
  intros H. apply Forall_forall. intros p Hp. apply in_map_iff in Hp as ([a b] & <- & Hp).
  destruct (tiles_bounds _ _ _ H) as [_ F]. rewrite Forall_forall in F. specialize (F _ Hp). cbn in *. lia.
Qed.

Lemma mt_population_step_spec u step ms ns ps o1 o2 :
  tiles 0 (N.of_nat (length ns)) ps -> Permutation o1 (map to_nat_part ps) -> Permutation o2 (map to_nat_part ps) ->
  match population_step pre imp post u step ms ns, mt_population_step pre imp post u step ms o1 o2 ns with
  | Ret (ns1, m1, s1), Ret (ns2, m2, s2) =>
      ns1 = ns2 /\ exists i1 i2, m1 = message_of u step i1 /\ m2 = message_of u step i2 /\ Permutation i1 i2 /\
        s1 = sent_of m1 i1 /\ s2 = sent_of m2 i2
  | Throw, Throw => True
  | UB, UB => True
  | _, _ => False
  end.
Proof.
  intros Ht P1 P2. rewrite population_step_eq. unfold mt_population_step.
  assert (C : forall o, Permutation o (map to_nat_part ps) -> forall i, cnt i o = if i <? length ns then 1 else 0).
  { intros o Po i. rewrite (cnt_perm i _ _ Po), (tiles_cnt ps 0 _ Ht). cbn [N.to_nat Nat.leb andb]. now rewrite Nat2N.id. }
  assert (B : forall o, Permutation o (map to_nat_part ps) -> Forall (fun p : nat * nat => fst p <= snd p <= length ns) o).
  { intros o Po. eapply Permutation_Forall; [symmetry; exact Po|]. pose proof (tiles_le ps _ Ht) as X. now rewrite Nat2N.id in X. }
  rewrite mt_pre_all; [|eapply Forall_impl; [|exact (B o1 P1)]; intros p Hp; cbn beta in Hp; lia|exact (C o1 P1)].
  destruct (impact_population imp (impacts_of ms) (map pre ns)) as [n1| |] eqn:E; cbn [obind]; auto.
  apply impact_population_spec in E as (_ & Hl & _). rewrite map_length in Hl. rewrite <- Hl in Ht.
  pose proof (mt_post_gen o2 n1 []) as G. cbn zeta in G.
  destruct G as [G1 G2]; [rewrite Hl; apply (B o2 P2)|intros i; rewrite (C o2 P2); destruct (i <? length ns); lia|].
  unfold mt_post. destruct (fold_left _ o2 (n1, [])) as [n2 idx]. cbn [fst snd] in *. cbn zeta.
  split.
  - apply nth_error_ext. intros i. rewrite G1, (C o2 P2), nth_error_map, <- Hl.
    destruct (Nat.ltb_spec i (length n1)); [reflexivity|].
    assert (X : nth_error n1 i = None) by (apply nth_error_None; lia). now rewrite X.
  - exists (positions (map snd (map post n1))), idx. repeat split. rewrite G2. cbn [app].
    transitivity (flat_map (part_idx n1) (map to_nat_part ps)).
    + unfold part_idx at 1. rewrite (filter_flat_map_seq (spikes_at n1) ps 0 _ Ht). cbn [N.to_nat]. rewrite Nat2N.id, Nat.sub_0_r.
      now rewrite filter_spikes.
    + apply Permutation_flat_map. now symmetry.
Qed.
End Pop.
