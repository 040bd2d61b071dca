(** The graph of a network: rows, neighbours, connectedness. *)
From Verif Require Import Base Graph_Model Graph_Spec Graph_Proofs Graph_Proofs2.
From Coq Require Import Relations.Relation_Operators Sorting.Sorted.

Section Net.
Variable pops : list vpop.
Hypothesis Nd : NoDup (map vp_uid pops).
Notation n := (length pops).
Definition src (w : vproj) : nat := match node_index (vj_pre w) pops 0 None with Some k => k | None => n end.
Definition trg (w : vproj) : option nat := node_index (vj_post w) pops 0 None.
Lemma src_at w i : i < n -> src w = i <-> at_index pops (vj_pre w) i.
Proof.
  intros Hi. unfold src. destruct (node_index (vj_pre w) pops 0 None) as [k|] eqn:E.
  - apply (index_some _ _ _ Nd) in E. split; [intros <-; exact E|]. intros H. now apply (at_unique pops (vj_pre w)).
  - split; [lia|]. intros H. apply (index_some _ _ _ Nd) in H. congruence.
Qed.
Lemma src_out w : src w = n <-> outside_uid pops (vj_pre w) = true.
Proof.
  rewrite <- (index_none _ _ Nd). unfold src. destruct (node_index (vj_pre w) pops 0 None) as [k|] eqn:E; [|tauto]. apply (index_some _ _ _ Nd), at_range in E. split; [lia|discriminate].
Qed.
Lemma src_le w : src w <= n.
Proof. unfold src. destruct (node_index (vj_pre w) pops 0 None) as [k|] eqn:E; [|lia]. apply (index_some _ _ _ Nd), at_range in E. lia. Qed.
Lemma trg_at w j : trg w = Some j <-> at_index pops (vj_post w) j.
Proof. apply (index_some _ _ _ Nd). Qed.

Variable projs : list vproj.
(** Every projection leads to a population. *)
Hypothesis Known : forall w, In w projs -> exists j, at_index pops (vj_post w) j.
Variables (adj : list (list (option nat))) (rev : list (list nat)).
Hypothesis Ladj : length adj = S n.
Hypothesis Radj : forall i, nth i adj [] = map trg (filter (fun w => Nat.eqb i (src w)) projs).
Lemma row_in i v : In v (nth i adj []) <-> exists w, In w projs /\ src w = i /\ trg w = v.
Proof.
  rewrite Radj, in_map_iff. split; intros (w & H).
  - destruct H as [A B]. apply filter_In in B as [B C]. apply Nat.eqb_eq in C. eauto.
  - exists w. split; [tauto|]. apply filter_In. split; [tauto|]. apply Nat.eqb_eq. symmetry. tauto.
Qed.
Lemma rows_inside : Forall (Forall (inside n)) adj.
Proof.
  apply Forall_forall. intros row Hr. apply Forall_forall. intros v Hv. apply (In_nth _ _ []) in Hr as (i & _ & Ei). rewrite <- Ei in Hv. apply row_in in Hv as (w & W1 & _ & <-).
  destruct (Known w W1) as (j & J). exists j. split; [now apply trg_at|]. now apply at_range in J.
Qed.
Lemma known_in v row : In v (known row) <-> In (Some v) row.
Proof.
  unfold known. rewrite in_flat_map. split.
  - intros ([x|] & A & B); [|destruct B]. destruct B as [<-|[]]. exact A.
  - intros H. exists (Some v). split; [exact H|now left].
Qed.
Lemma known_nth i : nth i (map known adj) [] = known (nth i adj []).
Proof. change (@nil nat) with (known []) at 1. apply map_nth. Qed.
Lemma adj_in i j : In j (nth i (map known adj) []) <-> exists w, In w projs /\ src w = i /\ at_index pops (vj_post w) j.
Proof. rewrite known_nth, known_in, row_in. split; intros (w & A & B & C); exists w; (split; [exact A|split; [exact B|]]); now apply trg_at. Qed.
Hypothesis Lrev : length rev = S n.
Hypothesis Rrev : forall j, nth j rev [] = flat_map (fun k => map (fun _ => k) (hits j (nth k adj []))) (seq 0 (S n)).
Lemma hits_in j row x : In x (hits j row) <-> x = Some j /\ In (Some j) row.
Proof.
  unfold hits. rewrite filter_In. destruct x as [i|]; [|intuition discriminate]. rewrite Nat.eqb_eq. split; [intros [A ->]; auto|intros [E A]; injection E as ->; auto].
Qed.
Lemma rev_in j k : In k (nth j rev []) <-> exists w, In w projs /\ src w = k /\ at_index pops (vj_post w) j.
Proof.
  rewrite Rrev, in_flat_map. split.
  - intros (x & _ & H). apply in_map_iff in H as (y & <- & H). apply hits_in in H as [_ H]. apply row_in in H as (w & A & B & C). exists w. split; [exact A|]. split; [exact B|]. now apply trg_at.
  - intros (w & A & B & C). exists k. split; [apply in_seq; pose proof (src_le w); lia|]. apply in_map_iff. exists (Some j). split; [reflexivity|]. apply hits_in. split; [reflexivity|].
    apply row_in. exists w. split; [exact A|]. split; [exact B|]. now apply trg_at.
Qed.
Notation nbr := (nb (map known adj) rev [n]).
Lemma nbr_iff x y : x < n -> y < n -> nbr x y <-> leads pops projs x y \/ leads pops projs y x.
Proof.
  intros Hx Hy. unfold nb. rewrite adj_in, rev_in. unfold leads. split.
  - intros [[(w & A & B & C)|(w & A & B & C)] _]; [left|right]; exists w; (split; [exact A|]); (split; [|exact C]); now apply src_at.
  - intros H. split; [|cbn; lia]. destruct H as [(w & A & B & C)|(w & A & B & C)]; [left|right]; exists w; (split; [exact A|]); (split; [|exact C]); now apply src_at.
Qed.
Lemma adj_range x y : In y (nth x (map known adj) []) -> y < S n.
Proof. intros H. apply adj_in in H as (w & _ & _ & H). apply at_range in H. lia. Qed.
Lemma rev_range x y : In y (nth x rev []) -> y < S n.
Proof. intros H. apply rev_in in H as (w & _ & <- & _). pose proof (src_le w). lia. Qed.
Lemma nbr_range x y : nbr x y -> y < n.
Proof. intros [[H|H] K]; [apply adj_range in H|apply rev_range in H]; cbn in K; lia. Qed.
Lemma nbr_sym x y : x < S n -> ~ In x [n] -> nbr x y -> nbr y x.
Proof. intros Hx Hi H. cbn in Hi. pose proof (nbr_range _ _ H). assert (x < n) by lia. apply nbr_iff in H; [|lia|lia]. apply nbr_iff; [lia|lia|tauto]. Qed.
Lemma reach_connected x y : reach (map known adj) rev [n] x y -> x < n -> connected pops projs x y.
Proof.
  intros H. induction H as [x|x y z H1 H2 IH]; intros Hx; [apply rst_refl|]. pose proof (nbr_range _ _ H1) as Hy. apply nbr_iff in H1; [|exact Hx|exact Hy].
  apply rst_trans with y; [|now apply IH]. destruct H1 as [H1|H1]; [now apply rst_step|]. apply rst_sym. now apply rst_step.
Qed.
Lemma leads_range i j : leads pops projs i j -> i < n /\ j < n.
Proof. intros (w & _ & A & B). apply at_range in A, B. auto. Qed.
Lemma connected_reach x y : connected pops projs x y -> x = y \/ (x < n /\ y < n /\ reach (map known adj) rev [n] x y).
Proof.
  intros H. induction H as [x y H|x|x y H IH|x y z H1 IH1 H2 IH2].
  - destruct (leads_range _ _ H) as [A B]. right. split; [exact A|]. split; [exact B|]. eapply rt1n_trans; [|apply rt1n_refl]. apply nbr_iff; auto.
  - now left.
  - destruct IH as [->|(A & B & C)]; [now left|]. right. split; [exact B|]. split; [exact A|]. eapply (reach_sym (map known adj) rev [n] (S n)); try exact C.
    + apply adj_range.
    + apply rev_range.
    + apply nbr_sym.
    + lia.
    + cbn. lia.
  - destruct IH1 as [->|(A & B & C)], IH2 as [->|(D & E & F)]; auto. right. split; [exact A|]. split; [exact E|]. now apply (reach_trans _ _ _ x y).
Qed.
Lemma divided pick fuel : picks pick -> S n < fuel ->
  exists parts, divide_loop fuel fuel pick (map known adj) rev (set_erase n (seq 0 (S n))) [n] [] = Ret (Some parts) /\ parts_of pops projs parts.
Proof.
  intros Hp Hf. assert (Ndr : NoDup (set_erase n (seq 0 (S n)))) by apply erase_nodup, seq_NoDup.
  assert (Iall : forall y, In y (set_erase n (seq 0 (S n))) <-> y < S n /\ ~ In y [n]) by (intros y; rewrite erase_in, in_seq; cbn; intuition lia).
  destruct (divide_ok pick (map known adj) rev [n] (S n) Hp ltac:(rewrite map_length; exact Ladj) Lrev adj_range rev_range nbr_sym fuel (set_erase n (seq 0 (S n))) Hf Ndr Iall
    fuel (set_erase n (seq 0 (S n))) [] Ndr (fun y H => H)) as (parts & E & P & O & Sm).
  - reflexivity.
  - constructor.
  - intros ? ? ? [].
  - apply Nat.le_lt_trans with (length (seq 0 (S n))); [apply NoDup_incl_length; [exact Ndr|]; intros y Hy; now apply erase_in in Hy|]. rewrite seq_length. exact Hf.
  - exists parts. split; [exact E|].
    assert (P' : Permutation (concat parts) (seq 0 n)).
    { rewrite P. apply NoDup_Permutation; [exact Ndr|apply seq_NoDup|]. intros y. rewrite Iall, in_seq. cbn. intuition lia. }
    constructor; [exact P'|exact O|]. intros i j Hi Hj. split.
    + intros (p & A & B & C). apply (Sm p i j A B) in C. now apply reach_connected.
    + intros H. assert (Ii : In i (concat parts)) by (apply (Permutation_in _ (Permutation_sym P')), in_seq; lia). apply in_concat in Ii as (p & A & B). exists p. split; [exact A|]. split; [exact B|].
      apply (Sm p i j A B). apply connected_reach in H as [->|(_ & _ & H)]; [constructor|exact H].
Qed.
End Net.

(** Both lists of a network. *)
Lemma network_lists pops projs : NoDup (map vp_uid pops) -> (forall w, In w projs -> exists j, at_index pops (vj_post w) j) ->
  exists adj rev, build_adjacency_list (network_graph pops projs) = Ret adj /\ make_reverse_list adj = Ret rev /\ length adj = S (length pops) /\ length rev = S (length pops) /\
    (forall i, nth i adj [] = map (trg pops) (filter (fun w => Nat.eqb i (src pops w)) projs)) /\
    (forall j, nth j rev [] = flat_map (fun k => map (fun _ => k) (hits j (nth k adj []))) (seq 0 (S (length pops)))).
Proof.
  intros Nd Known. destruct (adjacency pops projs Nd) as (adj & E & L & R). exists adj.
  assert (R' : forall i, nth i adj [] = map (trg pops) (filter (fun w => Nat.eqb i (src pops w)) projs)) by exact R.
  pose proof (rows_inside pops Nd projs Known adj R') as Ins. unfold make_reverse_list.
  destruct (reverse_rows_ok adj 0 (repeat [] (length adj))) as (rev & E2 & L2 & R2).
  { rewrite repeat_length. eapply Forall_impl; [|exact Ins]. intros row Hr. eapply Forall_impl; [|exact Hr]. intros v (i & -> & Hi). exists i. split; [reflexivity|lia]. }
  exists rev. rewrite repeat_length in L2. split; [exact E|]. split; [exact E2|]. split; [exact L|]. split; [lia|]. split; [exact R'|].
  intros j. rewrite R2, nth_repeat_nil, L. cbn [app]. reflexivity.
Qed.
