(** Adjacency lists. *)
From Verif Require Import Base Graph_Model Graph_Spec.
From Coq Require Import Relations.Relation_Operators Sorting.Sorted.

Lemma node_index_spec u pops : NoDup (map vp_uid pops) -> forall i acc,
  node_index u pops i acc = match find (fun j => is_at pops j u) (seq 0 (length pops)) with Some j => Some (i + j) | None => acc end.
Proof.
  induction pops as [|p t IH]; intros Nd i acc; [reflexivity|]. cbn [map] in Nd. apply NoDup_cons_iff in Nd as [N1 N2].
  cbn [node_index length seq find]. unfold is_at at 1. cbn [nth_error]. rewrite IH by exact N2.
  assert (E : find (fun j => is_at (p :: t) j u) (seq 1 (length t)) = match find (fun j => is_at t j u) (seq 0 (length t)) with Some j => Some (S j) | None => None end).
  { rewrite <- seq_shift. generalize (seq 0 (length t)). intros l. induction l as [|x l IHl]; [reflexivity|]. cbn [map find].
    replace (is_at (p :: t) (S x) u) with (is_at t x u) by reflexivity. destruct (is_at t x u); [reflexivity|apply IHl]. }
  destruct (N.eqb_spec u (vp_uid p)) as [->|Hu].
  - replace (find _ (seq 0 (length t))) with (@None nat); [now rewrite Nat.add_0_r|]. symmetry. destruct (find _ _) as [j|] eqn:F; [|reflexivity]. exfalso.
    apply find_some in F as [_ F]. unfold is_at in F. destruct (nth_error t j) as [q|] eqn:Q; [|discriminate]. apply N.eqb_eq in F. apply N1. rewrite F. apply in_map. eapply nth_error_In, Q.
  - rewrite E. destruct (find _ (seq 0 (length t))) as [j|]; [f_equal; lia|reflexivity].
Qed.
Lemma is_at_iff pops i u : is_at pops i u = true <-> at_index pops u i.
Proof.
  unfold is_at, at_index. destruct (nth_error pops i) as [p|]; [rewrite N.eqb_eq; split; [intros ->; eauto|intros (q & E & F); injection E as <-; auto]|].
  split; [discriminate|intros (q & E & _); discriminate].
Qed.
Lemma at_range pops u i : at_index pops u i -> i < length pops.
Proof. intros (p & E & _). apply nth_error_Some. congruence. Qed.
Lemma at_unique pops u i j : NoDup (map vp_uid pops) -> at_index pops u i -> at_index pops u j -> i = j.
Proof.
  intros Nd (p & Ep & Up) (q & Eq & Uq). assert (I : i < length (map vp_uid pops)) by (rewrite map_length; apply nth_error_Some; congruence).
  apply (proj1 (NoDup_nth_error _) Nd i j I). rewrite !nth_error_map, Ep, Eq. cbn. congruence.
Qed.
(** The index of an identifier. *)
Lemma index_some u pops i : NoDup (map vp_uid pops) -> node_index u pops 0 None = Some i <-> at_index pops u i.
Proof.
  intros Nd. rewrite node_index_spec by exact Nd. destruct (find _ _) as [j|] eqn:F.
  - apply find_some in F as [_ F]. apply is_at_iff in F. cbn. split; [intros E; injection E as <-; exact F|intros H]. f_equal. now apply (at_unique pops u).
  - split; [discriminate|]. intros H. exfalso. assert (I : In i (seq 0 (length pops))) by (apply in_seq; apply at_range in H; lia).
    apply (find_none _ _ F i) in I. apply is_at_iff in H. congruence.
Qed.
Lemma index_none u pops : NoDup (map vp_uid pops) -> node_index u pops 0 None = None <-> outside_uid pops u = true.
Proof.
  intros Nd. unfold outside_uid. rewrite negb_true_iff. split.
  - intros H. apply not_true_iff_false. intros E. apply existsb_exists in E as (p & I & E). apply N.eqb_eq in E. apply In_nth_error in I as [i I].
    assert (A : at_index pops u i) by (exists p; auto). apply (index_some u pops i Nd) in A. congruence.
  - intros H. destruct (node_index u pops 0 None) as [i|] eqn:E; [|reflexivity]. apply (index_some _ _ _ Nd) in E as (p & Ep & Up). exfalso.
    apply not_true_iff_false in H. apply H. apply existsb_exists. exists p. split; [eapply nth_error_In, Ep|]. subst u. apply N.eqb_refl.
Qed.

(** Rows. *)
Definition from_of (n : nat) (e : gedge) : nat := match ge_from e with Some i => i | None => n end.
Lemma push_at_ok {A} (x : A) : forall l i, i < length l ->
  exists l', push_at i x l = Ret l' /\ length l' = length l /\ forall j, nth j l' [] = if Nat.eqb j i then nth j l [] ++ [x] else nth j l [].
Proof.
  induction l as [|a t IH]; intros [|i] H; cbn in H; try lia; cbn [push_at].
  - eexists. split; [reflexivity|]. split; [reflexivity|]. intros [|j]; reflexivity.
  - destruct (IH i ltac:(lia)) as (l' & -> & L & E). cbn [obind]. eexists. split; [reflexivity|]. split; [cbn; lia|]. intros [|j]; [reflexivity|]. cbn. apply E.
Qed.
Lemma push_at_out {A} (x : A) : forall l i, length l <= i -> push_at i x l = UB.
Proof. induction l as [|a t IH]; intros [|i] H; cbn in *; try lia; try reflexivity. now rewrite IH by lia. Qed.
Lemma add_edges_ok n : forall edges adj, Forall (fun e => from_of n e < length adj) edges ->
  exists adj', add_edges n edges adj = Ret adj' /\ length adj' = length adj /\
    forall i, nth i adj' [] = nth i adj [] ++ map ge_to (filter (fun e => Nat.eqb i (from_of n e)) edges).
Proof.
  induction edges as [|e t IH]; intros adj H; cbn [add_edges].
  - exists adj. split; [reflexivity|]. split; [reflexivity|]. intros i. cbn. now rewrite app_nil_r.
  - apply Forall_cons_iff in H as [H1 H2]. destruct (push_at_ok (ge_to e) adj _ H1) as (a & E & L & Ea). unfold from_of in E. rewrite E. cbn [obind].
    destruct (IH a) as (adj' & E' & L' & Ea'); [rewrite L; exact H2|]. exists adj'. split; [exact E'|]. split; [lia|]. intros i. rewrite Ea', Ea. cbn [filter].
    change (match ge_from e with Some i => i | None => n end) with (from_of n e). destruct (Nat.eqb i (from_of n e)); cbn [map]; [now rewrite <- app_assoc|reflexivity].
Qed.
Lemma nth_repeat_nil {A} k i : nth i (repeat (@nil A) k) [] = [].
Proof. revert i. induction k as [|k IH]; intros [|i]; cbn; auto. Qed.

(** Every row of the lists of a network graph. *)
Lemma adjacency pops projs : NoDup (map vp_uid pops) ->
  exists adj, build_adjacency_list (network_graph pops projs) = Ret adj /\ length adj = S (length pops) /\
    forall i, nth i adj [] = map (fun w => node_index (vj_post w) pops 0 None)
      (filter (fun w => Nat.eqb i (match node_index (vj_pre w) pops 0 None with Some k => k | None => length pops end)) projs).
Proof.
  intros Nd. unfold build_adjacency_list, network_graph. cbn [g_nodes g_edges]. destruct (add_edges_ok (length pops)
    (map (fun p => mkGE (vj_uid p) (vj_size p) (node_index (vj_pre p) pops 0 None) (node_index (vj_post p) pops 0 None) (vj_name p)) projs)
    (repeat [] (S (length pops)))) as (adj & E & L & R).
  - apply Forall_forall. intros e He. apply in_map_iff in He as (w & <- & _). rewrite repeat_length. unfold from_of. cbn [ge_from].
    destruct (node_index (vj_pre w) pops 0 None) as [k|] eqn:K; [|lia]. apply (index_some _ _ _ Nd), at_range in K. lia.
  - exists adj. split; [exact E|]. rewrite repeat_length in L. split; [exact L|]. intros i. rewrite R, nth_repeat_nil. cbn [app].
    clear - projs. induction projs as [|w t IH]; [reflexivity|]. cbn [map filter]. unfold from_of at 1. cbn [ge_from].
    match goal with |- context [Nat.eqb i ?k] => destruct (Nat.eqb i k) end; cbn [map ge_to]; [now rewrite IH|exact IH].
Qed.
