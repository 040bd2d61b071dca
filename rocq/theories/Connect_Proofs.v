(** Proofs about projection creators and the connectivity validator. *)
From Verif Require Import Base ListLemmas Projection_Model Connect_Model Connect_Spec.

Section Gen.
Context {P : Type}.
Implicit Types (sg : nat -> nat -> P).

Lemma run_gen_ret (g : nat -> outcome (option (synapse P))) (f : nat -> option (synapse P)) : forall n i l,
  (forall k, i <= k < i + n -> g k = Ret (f k)) ->
  run_gen g i n l = Ret (l ++ flat_map (fun k => match f k with Some s => [s] | None => [] end) (seq i n)).
Proof.
  induction n as [|n IH]; intros i l H; cbn [run_gen seq flat_map]; [now rewrite app_nil_r|].
  rewrite (H i) by lia. cbn [obind]. rewrite IH by (intros k Hk; apply H; lia). f_equal.
  destruct (f i); cbn [app]; [|reflexivity]. now rewrite <- app_assoc.
Qed.
(** With defined generators this is the loop of the projection model. *)
Lemma run_gen_generate (f : nat -> option (synapse P)) : forall n i l, run_gen (fun k => Ret (f k)) i n l = Ret (generate f i n l).
Proof. induction n as [|n IH]; intros i l; cbn [run_gen generate obind]; [reflexivity|]. apply IH. Qed.
Lemma run_gen_map (g : nat -> outcome (option (synapse P))) (f : nat -> synapse P) n :
  (forall k, k < n -> g k = Ret (Some (f k))) -> run_gen g 0 n [] = Ret (map f (seq 0 n)).
Proof.
  intros H. rewrite (run_gen_ret g (fun k => Some (f k))) by (intros k Hk; apply H; lia). cbn [app]. reflexivity.
Qed.
Lemma mul64_small a b : (N.of_nat a * N.of_nat b < two64)%N -> mul64 a b = a * b.
Proof. intros H. unfold mul64, w64. rewrite N.mod_small by exact H. lia. Qed.

Lemma ends_map (f : nat -> synapse P) l : ends (map f l) = map (fun k => (sy_from (f k), sy_to (f k))) l.
Proof. unfold ends. apply map_map. Qed.
Lemma NoDup_map_seq {B} (f : nat -> B) n : (forall i j, i < n -> j < n -> f i = f j -> i = j) -> NoDup (map f (seq 0 n)).
Proof.
  intros H. induction n as [|n IH]; [constructor|]. rewrite seq_S, map_app. cbn [map]. rewrite Nat.add_0_l.
  apply NoDup_app_intro.
  - apply IH. intros i j Hi Hj. apply H; lia.
  - repeat constructor. intros [].
  - intros a Ha [<-|[]]. apply in_map_iff in Ha as (k & E & Hk). apply in_seq in Hk. apply H in E; lia.
Qed.

Lemma divmod_inj d i j : d <> 0 -> i mod d = j mod d -> i / d = j / d -> i = j.
Proof. intros Hd H1 H2. rewrite (Nat.div_mod i d Hd), (Nat.div_mod j d Hd), H1, H2. reflexivity. Qed.
Lemma div_bound i d n : d <> 0 -> i < d * n -> i / d < n.
Proof. intros Hd H. apply Nat.div_lt_upper_bound; [exact Hd|exact H]. Qed.
Lemma rebuild a b d : a < d -> (b * d + a) mod d = a /\ (b * d + a) / d = b.
Proof.
  intros H. split.
  - rewrite Nat.add_comm, Nat.mod_add by lia. now apply Nat.mod_small.
  - rewrite Nat.add_comm, Nat.div_add by lia. rewrite Nat.div_small by exact H. reflexivity.
Qed.

Lemma grid_spec (f : nat -> synapse P) sg pre post :
  (forall i, f i = edge sg (i mod pre) (i / pre)) -> pre <> 0 ->
  let l := map f (seq 0 (pre * post)) in
  NoDup (ends l) /\ (forall a b, In (a, b) (ends l) <-> (a < N.of_nat pre)%N /\ (b < N.of_nat post)%N) /\ parametrised sg l.
Proof.
  intros Hf Hp l. unfold l. split; [|split].
  - rewrite ends_map. apply NoDup_map_seq. intros i j _ _ E. rewrite !Hf in E. cbn [edge sy_from sy_to] in E.
    injection E as E1 E2. apply (divmod_inj pre); lia.
  - intros a b. rewrite ends_map, in_map_iff. split.
    + intros (i & E & Hi). apply in_seq in Hi. rewrite Hf in E. cbn [edge sy_from sy_to] in E. injection E as <- <-.
      pose proof (Nat.mod_upper_bound i pre Hp). pose proof (div_bound i pre post Hp ltac:(lia)). lia.
    + intros [Ha Hb]. exists (N.to_nat b * pre + N.to_nat a).
      destruct (rebuild (N.to_nat a) (N.to_nat b) pre ltac:(lia)) as [E1 E2].
      split; [rewrite Hf, E1, E2; cbn [edge sy_from sy_to]; f_equal; lia|]. apply in_seq. split; [lia|].
      assert (N.to_nat b * pre + pre <= post * pre) by (assert (N.to_nat b < post) as H by lia; nia). lia.
  - intros s Hs. apply in_map_iff in Hs as (i & <- & _). rewrite Hf. cbn [edge sy_params sy_from sy_to]. now rewrite !Nat2N.id.
Qed.
Lemma all_to_all_spec sg pre post : (N.of_nat pre * N.of_nat post < two64)%N ->
  exists l, all_to_all sg pre post = Ret l /\ NoDup (ends l) /\
    (forall a b, In (a, b) (ends l) <-> (a < N.of_nat pre)%N /\ (b < N.of_nat post)%N) /\ parametrised sg l.
Proof.
  intros H. unfold all_to_all. rewrite mul64_small by exact H. destruct pre as [|p].
  - exists []. split; [reflexivity|]. split; [constructor|]. split; [|intros s []]. intros a b. cbn. split; [contradiction|lia].
  - rewrite (run_gen_map _ (fun i => edge sg (i mod S p) (i / S p))) by reflexivity. eexists. split; [reflexivity|].
    apply grid_spec; auto.
Qed.
Lemma skip_diag n a b : a < n -> b < n -> a <> b ->
  exists i, i < n * (n - 1) /\ i / (n - 1) = a /\ (let to := i mod (n - 1) in if Nat.leb a to then S to else to) = b.
Proof.
  intros Ha Hb Hab. set (d := n - 1). assert (Hd : d <> 0) by (unfold d; lia).
  destruct (Nat.ltb_spec b a) as [E|E].
  - exists (a * d + b). destruct (rebuild b a d ltac:(unfold d; lia)) as [E1 E2].
    split; [assert (a * d + d <= n * d) by nia; unfold d in *; lia|]. split; [exact E2|]. cbn zeta. rewrite E1.
    replace (Nat.leb a b) with false by (symmetry; apply Nat.leb_gt; lia). cbn zeta. reflexivity.
  - exists (a * d + (b - 1)). destruct (rebuild (b - 1) a d ltac:(unfold d; lia)) as [E1 E2].
    split; [assert (a * d + d <= n * d) by nia; unfold d in *; lia|]. split; [exact E2|]. cbn zeta. rewrite E1.
    replace (Nat.leb a (b - 1)) with true by (symmetry; apply Nat.leb_le; lia). lia.
Qed.
Lemma exclusive_spec sg n : (N.of_nat n * N.of_nat (n - 1) < two64)%N ->
  exists l, exclusive sg n = Ret l /\ NoDup (ends l) /\
    (forall a b, In (a, b) (ends l) <-> (a < N.of_nat n)%N /\ (b < N.of_nat n)%N /\ a <> b) /\ parametrised sg l.
Proof.
  intros H. unfold exclusive. rewrite mul64_small by exact H. destruct (Nat.le_gt_cases n 1) as [Hn|Hn].
  - replace (n * (n - 1)) with 0 by nia. exists []. split; [reflexivity|]. split; [constructor|]. split; [|intros s []].
    intros a b. cbn. split; [contradiction|]. intros. lia.
  - set (f := fun i => let from := i / (n - 1) in let to := i mod (n - 1) in edge sg from (if Nat.leb from to then S to else to)).
    rewrite (run_gen_map _ f).
    2: { intros k Hk. unfold g_exclusive, f. destruct (n - 1) eqn:E; [lia|reflexivity]. }
    eexists. split; [reflexivity|]. split; [|split].
    + rewrite ends_map. apply NoDup_map_seq. intros i j _ _ E. unfold f in E. cbn [edge sy_from sy_to] in E.
      injection E as E1 E2. apply (divmod_inj (n - 1)); [lia| |lia].
      assert (Ed : i / (n - 1) = j / (n - 1)) by lia. rewrite Ed in E2.
      destruct (Nat.leb_spec (j / (n - 1)) (i mod (n - 1))); destruct (Nat.leb_spec (j / (n - 1)) (j mod (n - 1))); lia.
    + intros a b. rewrite ends_map, in_map_iff. split.
      * intros (i & E & Hi). apply in_seq in Hi. unfold f in E. cbn [edge sy_from sy_to] in E. injection E as <- <-.
        pose proof (Nat.mod_upper_bound i (n - 1) ltac:(lia)). pose proof (div_bound i (n - 1) n ltac:(lia) ltac:(lia)).
        destruct (Nat.leb_spec (i / (n - 1)) (i mod (n - 1))); lia.
      * intros (Ha & Hb & Hab). destruct (skip_diag n (N.to_nat a) (N.to_nat b)) as (i & Hi & E1 & E2); try lia.
        exists i. split; [|apply in_seq; lia]. unfold f. cbn [edge sy_from sy_to]. rewrite E1. cbn zeta in E2. rewrite E2. f_equal; lia.
    + intros s Hs. apply in_map_iff in Hs as (i & <- & _). unfold f. cbn [edge sy_params sy_from sy_to]. now rewrite !Nat2N.id.
Qed.
Lemma one_to_one_spec (sg1 : nat -> P) n :
  one_to_one sg1 n = Ret (map (fun i => edge (fun a _ => sg1 a) i i) (seq 0 n)).
Proof. unfold one_to_one. now rewrite (run_gen_map _ (fun i => edge (fun a _ => sg1 a) i i)). Qed.
Lemma from_container_spec (l : list (synapse P)) : from_container l = Ret l.
Proof.
  unfold from_container. rewrite (run_gen_ret _ (fun k => nth_error l k)).
  - cbn [app]. f_equal. assert (G : forall l' pre, l = pre ++ l' ->
      flat_map (fun k => match nth_error l k with Some s => [s] | None => [] end) (seq (length pre) (length l')) = l').
    { induction l' as [|s l' IH]; intros pre E; cbn [length seq flat_map]; [reflexivity|].
      rewrite E at 1. rewrite nth_error_app2, Nat.sub_diag by lia. cbn [nth_error app]. f_equal.
      specialize (IH (pre ++ [s])). rewrite app_length in IH. cbn [length] in IH. replace (length pre + 1) with (S (length pre)) in IH by lia.
      apply IH. rewrite <- app_assoc. exact E. }
    exact (G l [] eq_refl).
  - intros k Hk. unfold g_from_container. destruct (nth_error l k) eqn:E; [reflexivity|]. apply nth_error_None in E. lia.
Qed.
Lemma clone_spec {Q} (sg1 : nat -> P) (src : list (synapse Q)) :
  exists l, clone sg1 src = Ret l /\ ends l = ends src /\
            forall i s, nth_error l i = Some s -> sy_params s = sg1 i.
Proof.
  unfold clone.
  set (f := fun k => match nth_error src k with Some s => Some (mkSyn (sg1 k) (sy_from s) (sy_to s)) | None => None end).
  rewrite (run_gen_ret _ f).
  - cbn [app]. eexists. split; [reflexivity|].
    assert (G : forall l' pre, src = pre ++ l' ->
      let r := flat_map (fun k => match f k with Some s => [s] | None => [] end) (seq (length pre) (length l')) in
      ends r = ends l' /\ forall i s, nth_error r i = Some s -> sy_params s = sg1 (length pre + i)).
    { induction l' as [|s l' IH]; intros pre E; cbn [length seq flat_map]; [split; [reflexivity|]; intros [|i] s H; discriminate|].
      specialize (IH (pre ++ [s])). rewrite app_length in IH. cbn [length] in IH. replace (length pre + 1) with (S (length pre)) in IH by lia.
      destruct IH as [I1 I2]; [rewrite <- app_assoc; exact E|].
      assert (Ef : f (length pre) = Some (mkSyn (sg1 (length pre)) (sy_from s) (sy_to s))).
      { unfold f. rewrite E at 1. rewrite nth_error_app2, Nat.sub_diag by lia. reflexivity. }
      cbn zeta. rewrite Ef. cbn [app]. split.
      - unfold ends in *. cbn [map sy_from sy_to]. now f_equal.
      - intros [|i] s' H; cbn [nth_error] in H.
        + injection H as <-. cbn [sy_params]. now rewrite Nat.add_0_r.
        + apply I2 in H. rewrite H. f_equal. lia. }
    exact (G src [] eq_refl).
  - intros k Hk. unfold g_clone, f. destruct (nth_error src k) eqn:E; [reflexivity|]. apply nth_error_None in E. lia.
Qed.

(** Selections from the grid. *)
Lemma In_flat_option (f : nat -> option (synapse P)) l s :
  In s (flat_map (fun k => match f k with Some x => [x] | None => [] end) l) <-> exists k, In k l /\ f k = Some s.
Proof.
  rewrite in_flat_map. split.
  - intros (k & Hk & H). exists k. split; [exact Hk|]. destruct (f k); [destruct H as [->|[]]; reflexivity|contradiction].
  - intros (k & Hk & H). exists k. split; [exact Hk|]. rewrite H. now left.
Qed.
Lemma NoDup_flat_option (f : nat -> option (synapse P)) : forall l, NoDup l ->
  (forall i j s t, In i l -> In j l -> f i = Some s -> f j = Some t -> (sy_from s, sy_to s) = (sy_from t, sy_to t) -> i = j) ->
  NoDup (ends (flat_map (fun k => match f k with Some x => [x] | None => [] end) l)).
Proof.
  induction l as [|k l IH]; intros Hn H; [constructor|]. inversion Hn as [|? ? Hni Hn']; subst. cbn [flat_map].
  assert (IH' : NoDup (ends (flat_map (fun k => match f k with Some x => [x] | None => [] end) l))).
  { apply IH; [exact Hn'|]. intros i j s t Hi Hj. apply H; now right. }
  destruct (f k) as [s|] eqn:E; [|exact IH']. cbn [app]. unfold ends in *. cbn [map]. constructor; [|exact IH'].
  intros Hin. apply in_map_iff in Hin as (t & Et & Ht). apply In_flat_option in Ht as (j & Hj & Ej).
  assert (k = j) by (apply (H k j s t); auto; [now left|now right]). subst j. contradiction.
Qed.
Lemma index_based_spec (og : nat -> nat -> option P) pre post : (N.of_nat pre * N.of_nat post < two64)%N ->
  exists l, index_based og pre post = Ret l /\ NoDup (ends l) /\
    forall x a b, In (mkSyn x a b) l <->
      (a < N.of_nat pre)%N /\ (b < N.of_nat post)%N /\ og (N.to_nat a) (N.to_nat b) = Some x.
Proof.
  intros H. unfold index_based. rewrite mul64_small by exact H. destruct pre as [|p].
  - exists []. split; [reflexivity|]. split; [constructor|]. intros x a b. cbn. split; [contradiction|lia].
  - set (f := fun i => match og (i mod S p) (i / S p) with
                       | Some x => Some (mkSyn x (N.of_nat (i mod S p)) (N.of_nat (i / S p))) | None => None end).
    rewrite (run_gen_ret _ f) by reflexivity. eexists. split; [reflexivity|]. cbn [app]. split.
    + apply NoDup_flat_option; [apply seq_NoDup|]. intros i j s t _ _ Hs Ht E. unfold f in Hs, Ht.
      destruct (og (i mod S p) (i / S p)); [|discriminate]. destruct (og (j mod S p) (j / S p)); [|discriminate].
      injection Hs as <-. injection Ht as <-. cbn [sy_from sy_to] in E. apply pair_equal_spec in E as [E1 E2]. apply Nat2N.inj in E1, E2. apply (divmod_inj (S p)); [discriminate|exact E1|exact E2].
    + intros x a b. rewrite In_flat_option. split.
      * intros (i & Hi & E). apply in_seq in Hi. unfold f in E. destruct (og (i mod S p) (i / S p)) as [y|] eqn:Eo; [|discriminate].
        pose proof (Nat.mod_upper_bound i (S p) ltac:(lia)). pose proof (div_bound i (S p) post ltac:(lia) ltac:(lia)).
        set (u := i mod S p) in *. set (v := i / S p) in *. clearbody u v. injection E as -> <- <-.
        rewrite !Nat2N.id. split; [lia|]. split; [lia|exact Eo].
      * intros (Ha & Hb & Eo). exists (N.to_nat b * S p + N.to_nat a).
        destruct (rebuild (N.to_nat a) (N.to_nat b) (S p) ltac:(lia)) as [E1 E2]. split.
        -- apply in_seq. split; [lia|]. assert (N.to_nat b < post) by lia. nia.
        -- unfold f. rewrite E1, E2, Eo, !N2Nat.id. reflexivity.
Qed.
Lemma fixed_probability_spec sg draw p pre post : (N.of_nat pre * N.of_nat post < two64)%N ->
  f_gt p f_one || f_lt p f_zero = false ->
  exists l, fixed_probability sg draw p pre post = Ret l /\ NoDup (ends l) /\ parametrised sg l /\
    forall a b, In (a, b) (ends l) <->
      (a < N.of_nat pre)%N /\ (b < N.of_nat post)%N /\ f_lt (draw (N.to_nat b * pre + N.to_nat a)) p = true.
Proof.
  intros H Hp. unfold fixed_probability. rewrite Hp. rewrite mul64_small by exact H. destruct pre as [|q].
  - exists []. split; [reflexivity|]. split; [constructor|]. split; [intros s []|]. intros a b. cbn. split; [contradiction|lia].
  - set (f := fun i => if f_lt (draw i) p then Some (edge sg (i mod S q) (i / S q)) else None).
    rewrite (run_gen_ret _ f) by reflexivity. eexists. split; [reflexivity|]. cbn [app]. split; [|split].
    + apply NoDup_flat_option; [apply seq_NoDup|]. intros i j s t _ _ Hs Ht E. unfold f in Hs, Ht.
      destruct (f_lt (draw i) p); [|discriminate]. destruct (f_lt (draw j) p); [|discriminate].
      injection Hs as <-. injection Ht as <-. cbn [edge sy_from sy_to] in E. apply pair_equal_spec in E as [E1 E2]. apply Nat2N.inj in E1, E2. apply (divmod_inj (S q)); [discriminate|exact E1|exact E2].
    + intros s Hs. apply In_flat_option in Hs as (i & _ & E). unfold f in E. destruct (f_lt (draw i) p); [|discriminate].
      injection E as <-. cbn [edge sy_params sy_from sy_to]. now rewrite !Nat2N.id.
    + intros a b. unfold ends. rewrite in_map_iff. split.
      * intros (s & E & Hs). apply In_flat_option in Hs as (i & Hi & E'). apply in_seq in Hi. unfold f in E'.
        destruct (f_lt (draw i) p) eqn:El; [|discriminate]. assert (Es : s = edge sg (i mod S q) (i / S q)) by congruence. rewrite Es in E. cbn [edge sy_from sy_to] in E. apply pair_equal_spec in E as [<- <-].
        pose proof (Nat.mod_upper_bound i (S q) ltac:(lia)). pose proof (div_bound i (S q) post ltac:(lia) ltac:(lia)).
        rewrite !Nat2N.id. split; [lia|]. split; [lia|]. rewrite Nat.mul_comm, <- Nat.div_mod by lia. exact El.
      * intros (Ha & Hb & El). destruct (rebuild (N.to_nat a) (N.to_nat b) (S q) ltac:(lia)) as [E1 E2].
        exists (edge sg (N.to_nat a) (N.to_nat b)). split; [cbn [edge sy_from sy_to]; now rewrite !N2Nat.id|].
        apply In_flat_option. exists (N.to_nat b * S q + N.to_nat a). split.
        -- apply in_seq. split; [lia|]. assert (N.to_nat b < post) by lia. nia.
        -- unfold f. rewrite El, E1, E2. reflexivity.
Qed.

(** Round robin. *)
Lemma count_mod n a : a < n -> forall c, length (filter (fun i => Nat.eqb (i mod n) a) (seq 0 (n * c))) = c.
Proof.
  intros Ha. induction c as [|c IH]; [now rewrite Nat.mul_0_r|].
  replace (n * S c) with (n * c + n) by lia. rewrite seq_app, filter_app, app_length, IH, Nat.add_0_l.
  assert (G : forall m k, k <= m -> m <= n ->
     length (filter (fun i => Nat.eqb (i mod n) a) (seq (n * c + k) (m - k))) = if Nat.leb k a && Nat.ltb a m then 1 else 0).
  { intros m k Hk Hm. revert k Hk. assert (G' : forall d k, k + d = m -> length (filter (fun i => Nat.eqb (i mod n) a) (seq (n * c + k) d)) = if Nat.leb k a && Nat.ltb a m then 1 else 0).
    { induction d as [|d IHd]; intros k Hk; cbn [seq filter length].
      - destruct (Nat.leb_spec k a); destruct (Nat.ltb_spec a m); cbn [andb]; try reflexivity; lia.
      - replace (S (n * c + k)) with (n * c + S k) by lia.
        assert (Em : (n * c + k) mod n = k).
        { rewrite Nat.add_comm, (Nat.mul_comm n c), Nat.mod_add by lia. apply Nat.mod_small. lia. }
        rewrite Em. specialize (IHd (S k) ltac:(lia)). destruct (Nat.eqb_spec k a) as [E|E]; cbn [length]; rewrite IHd.
        + rewrite E. replace (Nat.leb (S a) a) with false by (symmetry; apply Nat.leb_gt; lia). rewrite Nat.leb_refl.
          replace (Nat.ltb a m) with true by (symmetry; apply Nat.ltb_lt; lia). reflexivity.
        + replace (Nat.leb (S k) a) with (Nat.leb k a); [reflexivity|].
          destruct (Nat.leb_spec k a); destruct (Nat.leb_spec (S k) a); try reflexivity; lia. }
    intros k Hk. apply G'. lia. }
  specialize (G n 0 ltac:(lia) (le_n n)). rewrite Nat.add_0_r, Nat.sub_0_r in G. rewrite G.
  cbn [Nat.leb andb]. replace (Nat.ltb a n) with true by (symmetry; apply Nat.ltb_lt; exact Ha). lia.
Qed.
Lemma filter_map_length {A B} (f : A -> B) (p : B -> bool) l : length (filter p (map f l)) = length (filter (fun x => p (f x)) l).
Proof. induction l as [|x l IH]; [reflexivity|]. cbn [map filter]. destruct (p (f x)); cbn [length]; now rewrite IH. Qed.
Lemma fixed_post_spec sg draw pre post count : (N.of_nat pre * N.of_nat count < two64)%N ->
  (forall i, draw i < post) ->
  exists l, fixed_number_post sg draw pre post count = Ret l /\ parametrised sg l /\
    (forall s, In s l -> (sy_from s < N.of_nat pre)%N /\ (sy_to s < N.of_nat post)%N) /\
    (forall a, (a < N.of_nat pre)%N -> fan_out l a = count) /\ length l = pre * count.
Proof.
  intros H Hd. unfold fixed_number_post. rewrite mul64_small by exact H. destruct pre as [|p].
  - exists []. split; [reflexivity|]. split; [intros s []|]. split; [intros s []|]. split; [lia|reflexivity].
  - rewrite (run_gen_map _ (fun i => edge sg (i mod S p) (draw i))) by reflexivity. eexists. split; [reflexivity|]. split; [|split; [|split]].
    + intros s Hs. apply in_map_iff in Hs as (i & <- & _). cbn [edge sy_params sy_from sy_to]. now rewrite !Nat2N.id.
    + intros s Hs. apply in_map_iff in Hs as (i & <- & _). cbn [edge sy_from sy_to]. pose proof (Hd i).
      pose proof (Nat.mod_upper_bound i (S p) ltac:(lia)). lia.
    + intros a Ha. unfold fan_out. rewrite filter_map_length. cbn [edge sy_from].
      rewrite <- (count_mod (S p) (N.to_nat a) ltac:(lia) count) at 2. f_equal. apply filter_ext. intros i.
      destruct (N.eqb_spec (N.of_nat (i mod S p)) a); destruct (Nat.eqb_spec (i mod S p) (N.to_nat a)); try reflexivity; lia.
    + now rewrite map_length, seq_length.
Qed.
Lemma fixed_pre_spec sg draw pre post count : (N.of_nat post * N.of_nat count < two64)%N ->
  (forall i, draw i < pre) ->
  exists l, fixed_number_pre sg draw pre post count = Ret l /\ parametrised sg l /\
    (forall s, In s l -> (sy_from s < N.of_nat pre)%N /\ (sy_to s < N.of_nat post)%N) /\
    (forall b, (b < N.of_nat post)%N -> fan_in l b = count) /\ length l = post * count.
Proof.
  intros H Hd. unfold fixed_number_pre. rewrite mul64_small by exact H. destruct post as [|p].
  - exists []. split; [reflexivity|]. split; [intros s []|]. split; [intros s []|]. split; [lia|reflexivity].
  - rewrite (run_gen_map _ (fun i => edge sg (draw i) (i mod S p))) by reflexivity. eexists. split; [reflexivity|]. split; [|split; [|split]].
    + intros s Hs. apply in_map_iff in Hs as (i & <- & _). cbn [edge sy_params sy_from sy_to]. now rewrite !Nat2N.id.
    + intros s Hs. apply in_map_iff in Hs as (i & <- & _). cbn [edge sy_from sy_to]. pose proof (Hd i).
      pose proof (Nat.mod_upper_bound i (S p) ltac:(lia)). lia.
    + intros a Ha. unfold fan_in. rewrite filter_map_length. cbn [edge sy_to].
      rewrite <- (count_mod (S p) (N.to_nat a) ltac:(lia) count) at 2. f_equal. apply filter_ext. intros i.
      destruct (N.eqb_spec (N.of_nat (i mod S p)) a); destruct (Nat.eqb_spec (i mod S p) (N.to_nat a)); try reflexivity; lia.
    + now rewrite map_length, seq_length.
Qed.

(** Packs: [i / k] for [i] below [k * m]. *)
Lemma count_div k b : 0 < k -> forall m, length (filter (fun i => Nat.eqb (i / k) b) (seq 0 (k * m))) = if Nat.ltb b m then k else 0.
Proof.
  intros Hk. induction m as [|m IH]; [now rewrite Nat.mul_0_r|].
  replace (k * S m) with (k * m + k) by lia. rewrite seq_app, filter_app, app_length, IH, Nat.add_0_l.
  assert (G : forall d j, j + d = k -> length (filter (fun i => Nat.eqb (i / k) b) (seq (k * m + j) d)) = if Nat.eqb m b then d else 0).
  { induction d as [|d IHd]; intros j Hj; cbn [seq filter length]; [now destruct (Nat.eqb m b)|].
    replace (S (k * m + j)) with (k * m + S j) by lia.
    assert (Ed : (k * m + j) / k = m).
    { rewrite Nat.add_comm, (Nat.mul_comm k m), Nat.div_add by lia. rewrite Nat.div_small by lia. reflexivity. }
    rewrite Ed. specialize (IHd (S j) ltac:(lia)). destruct (Nat.eqb_spec m b); cbn [length]; now rewrite IHd. }
  specialize (G k 0 eq_refl). rewrite Nat.add_0_r in G. rewrite G.
  destruct (Nat.eqb_spec m b) as [E|E]; destruct (Nat.ltb_spec b m); destruct (Nat.ltb_spec b (S m)); lia.
Qed.
Lemma aligned_ends sg pre post : 0 < pre -> 0 < post ->
  exists l, aligned sg pre post = Ret l /\ parametrised sg l /\
    (post <= pre -> ends l = map (fun i => (N.of_nat i, N.of_nat (i / (pre / post)))) (seq 0 pre)) /\
    (pre < post -> ends l = map (fun i => (N.of_nat (i / (post / pre)), N.of_nat i)) (seq 0 post)).
Proof.
  intros Hp Hq. unfold aligned. destruct (Nat.leb_spec post pre) as [E|E].
  - rewrite (run_gen_map _ (fun i => edge sg i (i / (pre / post)))).
    2: { intros k Hk. unfold g_aligned. replace (Nat.leb post pre) with true by (symmetry; now apply Nat.leb_le). destruct post; [lia|reflexivity]. }
    rewrite Nat.max_l by lia. eexists. split; [reflexivity|]. split; [|split; [|lia]].
    + intros s Hs. apply in_map_iff in Hs as (i & <- & _). cbn [edge sy_params sy_from sy_to]. now rewrite !Nat2N.id.
    + intros _. rewrite ends_map. reflexivity.
  - rewrite (run_gen_map _ (fun i => edge sg (i / (post / pre)) i)).
    2: { intros k Hk. unfold g_aligned. replace (Nat.leb post pre) with false by (symmetry; now apply Nat.leb_gt). destruct pre; [lia|reflexivity]. }
    rewrite Nat.max_r by lia. eexists. split; [reflexivity|]. split; [|split; [lia|]].
    + intros s Hs. apply in_map_iff in Hs as (i & <- & _). cbn [edge sy_params sy_from sy_to]. now rewrite !Nat2N.id.
    + intros _. rewrite ends_map. reflexivity.
Qed.
Lemma pack_range big small : 0 < small -> small <= big ->
  ((forall i, i < big -> i / (big / small) < small) <-> big mod small = 0).
Proof.
  intros Hs Hb. assert (Hk : 0 < big / small) by (apply Nat.div_str_pos; lia). split.
  - intros H. destruct (Nat.eq_dec (big mod small) 0) as [E|E]; [exact E|exfalso].
    pose proof (Nat.div_mod big small ltac:(lia)) as Hd. specialize (H (big / small * small)).
    rewrite Nat.mul_comm, Nat.div_mul in H by lia. lia.
  - intros E i Hi. apply Nat.div_lt_upper_bound; [lia|]. pose proof (Nat.div_mod big small ltac:(lia)) as Hd. lia.
Qed.
End Gen.

(** ** Validator *)
Definition has (m : info) (u : uid) : option (bool * bool) :=
  match find (fun e => N.eqb (fst e) u) m with Some e => Some (snd e) | None => None end.
Definition ordered (m : info) : Prop := StronglySorted (fun a b => (fst a < fst b)%N) m.
Definition flag (m : info) (u : uid) : bool * bool := match has m u with Some b => b | None => (false, false) end.
Lemma has_later (m : info) u : Forall (fun e => (u < fst e)%N) m -> has m u = None.
Proof.
  intros H. unfold has. replace (find (fun e => N.eqb (fst e) u) m) with (@None (uid * (bool * bool))); [reflexivity|].
  symmetry. induction H as [|e m He _ IH]; [reflexivity|]. cbn [find]. replace (N.eqb (fst e) u) with false by lia. exact IH.
Qed.
Lemma info_set_spec u f : forall m, ordered m ->
  ordered (info_set u f m) /\ (forall v, (forall e, In e m -> (v < fst e)%N) -> (v < u)%N -> forall e, In e (info_set u f m) -> (v < fst e)%N) /\
  forall v, has (info_set u f m) v = if N.eqb v u then Some (f (flag m u)) else has m v.
Proof.
  induction m as [|[w b] m IH]; intros Ho; cbn [info_set].
  - split; [repeat constructor|]. split.
    + intros v _ Hv e [<-|[]]. exact Hv.
    + intros v. unfold has, flag. cbn [find fst]. destruct (N.eqb_spec u v) as [->|E]; [now rewrite N.eqb_refl|].
      replace (N.eqb v u) with false by (symmetry; apply N.eqb_neq; congruence). reflexivity.
  - inversion Ho as [|? ? Ho' HF]; subst. cbn [fst] in *.
    destruct (N.ltb_spec u w) as [El|El]; [|destruct (N.eqb_spec u w) as [Ee|Ee]].
    + assert (HFu : Forall (fun e => (u < fst e)%N) ((w, b) :: m)).
      { constructor; [exact El|]. eapply Forall_impl; [|exact HF]. intros e He. cbn beta in *. lia. }
      split; [constructor; [exact Ho|exact HFu]|]. split.
      * intros v H1 H2 e [<-|He]; [exact H2|now apply H1].
      * intros v. unfold flag. rewrite (has_later _ u HFu). unfold has at 1. cbn [find fst snd].
        destruct (N.eqb_spec u v) as [->|E]; [now rewrite N.eqb_refl|].
        replace (N.eqb v u) with false by (symmetry; apply N.eqb_neq; congruence). reflexivity.
    + subst w. split; [constructor; [exact Ho'|exact HF]|]. split.
      * intros v H1 H2 e [<-|He]; [exact H2|apply H1; now right].
      * intros v. unfold flag, has. cbn [find fst snd]. rewrite N.eqb_refl. cbn [snd].
        destruct (N.eqb_spec u v) as [->|E]; [now rewrite N.eqb_refl|].
        replace (N.eqb v u) with false by (symmetry; apply N.eqb_neq; congruence). reflexivity.
    + destruct (IH Ho') as (I1 & I2 & I3). split; [|split].
      * constructor; [exact I1|]. apply Forall_forall. intros e He. cbn [fst]. apply (I2 w); [|lia|exact He].
        intros e' He'. rewrite Forall_forall in HF. exact (HF e' He').
      * intros v H1 H2 e [<-|He]; [apply (H1 (w, b)); now left|]. apply (I2 v); [|exact H2|exact He]. intros e' He'. apply H1. now right.
      * intros v. specialize (I3 v). unfold flag, has in *. cbn [find fst snd].
        replace (N.eqb w u) with false by (symmetry; apply N.eqb_neq; congruence).
        destruct (N.eqb_spec w v) as [Ev|Ev]; [|exact I3]. subst v.
        replace (N.eqb w u) with false by (symmetry; apply N.eqb_neq; congruence). reflexivity.
Qed.
Lemma fill_spec : forall pops m, ordered m -> (forall u, has m u = None \/ has m u = Some (false, false)) ->
  let m' := fold_left (fun m u => info_set u (fun _ => (false, false)) m) pops m in
  ordered m' /\ forall u, has m' u = if mem u pops then Some (false, false) else has m u.
Proof.
  induction pops as [|p pops IH]; intros m Ho Hm; cbn [fold_left]; [split; [exact Ho|reflexivity]|].
  destruct (info_set_spec p (fun _ => (false, false)) m Ho) as (I1 & _ & I3).
  destruct (IH (info_set p (fun _ => (false, false)) m) I1) as (J1 & J2).
  - intros u. rewrite I3. destruct (N.eqb u p); [now right|apply Hm].
  - split; [exact J1|]. intros u. rewrite J2, I3. unfold mem. cbn [existsb].
    destruct (existsb (N.eqb u) pops); [now rewrite orb_true_r|]. rewrite orb_false_r. reflexivity.
Qed.
Definition pre_of (u : uid) (ls : list link) : bool := existsb (fun l => not_nil (l_pre l) && N.eqb (l_pre l) u) ls.
Definition post_of (u : uid) (ls : list link) : bool := existsb (fun l => not_nil (l_post l) && N.eqb (l_post l) u) ls.
Lemma opt_set_spec (c : bool) u f m : ordered m ->
  let m' := if c then info_set u f m else m in
  ordered m' /\ forall v, has m' v = if c && N.eqb v u then Some (f (flag m u)) else has m v.
Proof.
  intros Ho. destruct c; cbn [andb]; [|auto]. destruct (info_set_spec u f m Ho) as (I1 & _ & I3). auto.
Qed.
Lemma links_spec : forall ls m r, ordered m ->
  let '(m', r') := fold_left validate_link ls (m, r) in
  ordered m' /\
  (forall u, has m' u = match has m u, pre_of u ls || post_of u ls with
                        | Some (a, b), _ => Some (a || post_of u ls, b || pre_of u ls)
                        | None, true => Some (post_of u ls, pre_of u ls)
                        | None, false => None end) /\
  r' = r ++ flat_map (fun l => if negb (not_nil (l_pre l)) && negb (not_nil (l_post l)) then [ProjectionNotConnected (l_uid l)] else []) ls.
Proof.
  induction ls as [|l ls IH]; intros m r Ho; cbn [fold_left flat_map].
  - split; [exact Ho|]. split; [|now rewrite app_nil_r]. intros u. cbn [pre_of post_of existsb orb].
    destruct (has m u) as [[a b]|]; [now rewrite !orb_false_r|reflexivity].
  - unfold validate_link at 2. cbn zeta.
    destruct (opt_set_spec (not_nil (l_pre l)) (l_pre l) (fun b => (fst b, true)) m Ho) as (A1 & A2). cbn zeta in A1, A2.
    set (m1 := if not_nil (l_pre l) then info_set (l_pre l) (fun b => (fst b, true)) m else m) in *.
    destruct (opt_set_spec (not_nil (l_post l)) (l_post l) (fun b => (true, snd b)) m1 A1) as (B1 & B2). cbn zeta in B1, B2.
    set (m2 := if not_nil (l_post l) then info_set (l_post l) (fun b => (true, snd b)) m1 else m1) in *.
    specialize (IH m2 (if negb (not_nil (l_pre l)) && negb (not_nil (l_post l)) then r ++ [ProjectionNotConnected (l_uid l)] else r) B1).
    destruct (fold_left validate_link ls (m2, _)) as [m' r']. destruct IH as (C1 & C2 & ->). split; [exact C1|]. split.
    + intros u. rewrite C2, B2. cbn [pre_of post_of existsb]. fold (pre_of u ls) (post_of u ls).
      unfold flag. rewrite !A2. rewrite (N.eqb_sym u (l_post l)), (N.eqb_sym u (l_pre l)). unfold flag.
      destruct (N.eqb_spec (l_post l) u) as [Eq|Eq]; destruct (N.eqb_spec (l_pre l) u) as [Ep|Ep];
        try rewrite Eq; try rewrite Ep; rewrite ?N.eqb_refl.
      all: rewrite ?andb_false_r, ?andb_true_r.
      2: replace (N.eqb u (l_pre l)) with false by (symmetry; apply N.eqb_neq; congruence); rewrite andb_false_r.
      all: repeat match goal with |- context [not_nil ?x] => destruct (not_nil x) end.
      all: destruct (has m u) as [[a b]|]; destruct (pre_of u ls), (post_of u ls); cbn [orb fst snd]; rewrite ?orb_true_r, ?orb_false_r; reflexivity.
    + destruct (negb (not_nil (l_pre l)) && negb (not_nil (l_post l))); cbn [app]; [now rewrite <- app_assoc|reflexivity].
Qed.
