(** C121: the parts of a network, their description and their drawing. *)
From Verif Require Import Base Graph_Model Graph_Spec Graph_Proofs Graph_Proofs2 Graph_Proofs3.
From Coq Require Import Relations.Relation_Operators Sorting.Sorted.
From Coq Require String.

(** A network: identifiers are different, every projection leads to one of the populations. *)
Definition proper (pops : list vpop) (projs : list vproj) : Prop :=
  NoDup (map vp_uid pops) /\ forall w, In w projs -> exists j, at_index pops (vj_post w) j.

Theorem c121_parts pops projs pick fuel : proper pops projs -> picks pick -> S (length pops) < fuel ->
  exists parts, divide_graph fuel pick (network_graph pops projs) = Ret (Some parts) /\ parts_of pops projs parts.
Proof.
  intros [Nd K] P F. destruct (network_lists pops projs Nd K) as (adj & rev & E1 & E2 & L1 & L2 & R1 & R2). unfold divide_graph. rewrite E1. cbn [obind]. rewrite E2. cbn [obind].
  replace (length adj - 1) with (length pops) by lia. rewrite L1. now apply divided.
Qed.

(** The parts do not depend on the order in which a hash table keeps its elements. *)
Lemma sorted_equal : forall p q, StronglySorted lt p -> StronglySorted lt q -> (forall y, In y p <-> In y q) -> p = q.
Proof.
  induction p as [|x p IH]; intros [|y q] Sp Sq H; [reflexivity|exfalso; apply (H y); now left|exfalso; apply (H x); now left|].
  apply StronglySorted_inv in Sp as [S1 F1], Sq as [S2 F2]. rewrite Forall_forall in F1, F2.
  assert (x = y). { destruct (proj1 (H x) (or_introl eq_refl)) as [->|A]; [reflexivity|]. destruct (proj2 (H y) (or_introl eq_refl)) as [->|B]; [reflexivity|]. specialize (F1 y B). specialize (F2 x A). lia. }
  subst y. f_equal. apply IH; [exact S1|exact S2|]. intros z. split; intros Hz.
  - destruct (proj1 (H z) (or_intror Hz)) as [<-|A]; [specialize (F1 x Hz); lia|exact A].
  - destruct (proj2 (H z) (or_intror Hz)) as [<-|A]; [specialize (F2 x Hz); lia|exact A].
Qed.
Lemma parts_incl pops projs a b : parts_of pops projs a -> parts_of pops projs b -> forall p, In p a -> In p b.
Proof.
  intros [P1 O1 S1] [P2 O2 S2] p Hp. rewrite Forall_forall in O1, O2. destruct (O1 p Hp) as [Ne So]. destruct p as [|i t] eqn:Ep; [congruence|]. rewrite <- Ep in *.
  assert (Ii : In i p) by (rewrite Ep; now left). clear Ep Ne.
  assert (Ra : forall q y, In q a -> In y q -> y < length pops). { intros q y A B. assert (C : In y (concat a)) by (apply in_concat; eauto). apply (Permutation_in _ P1), in_seq in C. lia. }
  assert (Rb : forall q y, In q b -> In y q -> y < length pops). { intros q y A B. assert (C : In y (concat b)) by (apply in_concat; eauto). apply (Permutation_in _ P2), in_seq in C. lia. }
  pose proof (Ra p i Hp Ii) as Hi. assert (Ib : In i (concat b)) by (apply (Permutation_in _ (Permutation_sym P2)), in_seq; lia). apply in_concat in Ib as (q & Hq & Iq).
  assert (Un : forall l, Permutation (concat l) (seq 0 (length pops)) -> forall p1 p2 y, In p1 l -> In p2 l -> In y p1 -> In y p2 -> p1 = p2).
  { intros l Pl. assert (Nd : NoDup (concat l)) by (eapply Permutation_NoDup; [apply Permutation_sym, Pl|apply seq_NoDup]). clear - Nd.
    induction l as [|r l IH]; intros p1 p2 y A B C D; [destruct A|]. cbn [concat] in Nd.
    assert (Sp : NoDup (concat l) /\ forall z, In z r -> In z (concat l) -> False).
    { clear - Nd. induction r as [|z r IHr]; [split; [exact Nd|intros ? []]|]. cbn in Nd. apply NoDup_cons_iff in Nd as [N1 N2]. destruct (IHr N2) as [A B]. split; [exact A|].
      intros u [<-|Hu] K; [apply N1; apply in_or_app; auto|eauto]. }
    destruct Sp as [Nl Dj]. destruct A as [<-|A], B as [<-|B]; [reflexivity| | |now apply (IH Nl p1 p2 y)].
    - exfalso. apply (Dj y C). apply in_concat. eauto.
    - exfalso. apply (Dj y D). apply in_concat. eauto. }
  replace p with q; [exact Hq|]. apply sorted_equal; [now apply O2|exact So|]. intros y. split; intros Hy.
  - assert (C : connected pops projs i y) by (apply S2; [exact Hi|now apply (Rb q)|eauto]). apply S1 in C as (p' & A & B & D); [|exact Hi|now apply (Rb q)].
    now rewrite (Un a P1 p p' i Hp A Ii B).
  - assert (C : connected pops projs i y) by (apply S1; [exact Hi|now apply (Ra p)|eauto]). apply S2 in C as (q' & A & B & D); [|exact Hi|now apply (Ra p)].
    now rewrite (Un b P2 q q' i Hq A Iq B).
Qed.
Lemma parts_nodup pops projs a : parts_of pops projs a -> NoDup a.
Proof.
  intros [P O _]. assert (Nd : NoDup (concat a)) by (eapply Permutation_NoDup; [apply Permutation_sym, P|apply seq_NoDup]). clear P. induction a as [|p a IH]; [constructor|].
  apply Forall_cons_iff in O as [[Ne _] O]. cbn in Nd. constructor.
  - intros I. destruct p as [|x p]; [congruence|]. cbn in Nd. apply NoDup_cons_iff in Nd as [N1 _]. apply N1. apply in_or_app. right. apply in_concat. exists (x :: p). split; [exact I|now left].
  - apply IH; [exact O|]. clear - Nd. induction p as [|x p IHp]; [exact Nd|]. cbn in Nd. apply NoDup_cons_iff in Nd as [_ Nd]. auto.
Qed.
Theorem c121_order_free pops projs a b : parts_of pops projs a -> parts_of pops projs b -> Permutation a b.
Proof.
  intros A B. apply NoDup_Permutation; [eapply parts_nodup, A|eapply parts_nodup, B|]. intros p. split; now apply (parts_incl pops projs).
Qed.

(** The description names, for every population, all projections that lead from and to it. *)
Definition from_is (pops : list vpop) (w : vproj) (s : option nat) : Prop :=
  match s with Some k => at_index pops (vj_pre w) k | None => outside_uid pops (vj_pre w) = true end.
Record describes (pops : list vpop) (projs : list vproj) (l : line) : Prop := mkDescribes {
  ds_size : exists p, nth_error pops (l_node l) = Some p /\ l_size l = vp_size p;
  ds_to : Forall2 (fun w j => at_index pops (vj_post w) j) (filter (fun w => is_at pops (l_node l) (vj_pre w)) projs) (l_to l);
  ds_from : exists ws, Permutation ws (filter (fun w => is_at pops (l_node l) (vj_post w)) projs) /\ Forall2 (from_is pops) ws (l_from l) }.

Lemma by_key {A} (key : A -> nat) (l : list A) : forall ks, NoDup ks ->
  Permutation (flat_map (fun k => filter (fun w => Nat.eqb k (key w)) l) ks) (filter (fun w => existsb (fun k => Nat.eqb k (key w)) ks) l).
Proof.
  induction ks as [|k ks IH]; intros Nd; cbn [flat_map existsb]; [induction l; cbn; auto|]. apply NoDup_cons_iff in Nd as [N1 N2]. rewrite (IH N2). clear IH.
  induction l as [|w l IH]; [reflexivity|]. cbn [filter]. destruct (Nat.eqb_spec k (key w)) as [E|E]; cbn [orb].
  - replace (existsb (fun k0 => Nat.eqb k0 (key w)) ks) with false; [cbn [app]; constructor; exact IH|]. symmetry. apply not_true_iff_false. intros X. apply existsb_exists in X as (y & A1 & A2).
    apply Nat.eqb_eq in A2. congruence.
  - destruct (existsb (fun k0 => Nat.eqb k0 (key w)) ks); [|exact IH]. rewrite <- IH. symmetry. apply Permutation_middle.
Qed.
Lemma filter_filter {A} (f g : A -> bool) l : filter f (filter g l) = filter (fun x => andb (g x) (f x)) l.
Proof. induction l as [|x t IH]; cbn; [reflexivity|]. destruct (g x); cbn; [destruct (f x); now rewrite IH|exact IH]. Qed.
Lemma flat_map_filter {A B} (f : B -> bool) (g : A -> list B) l : flat_map (fun x => filter f (g x)) l = filter f (flat_map g l).
Proof. induction l as [|x t IH]; cbn; [reflexivity|]. now rewrite IH, filter_app. Qed.
Lemma describe_line pops projs adj rev i : proper pops projs -> length adj = S (length pops) -> length rev = S (length pops) ->
  (forall i, nth i adj [] = map (trg pops) (filter (fun w => Nat.eqb i (src pops w)) projs)) ->
  (forall j, nth j rev [] = flat_map (fun k => map (fun _ => k) (hits j (nth k adj []))) (seq 0 (S (length pops)))) -> i < length pops ->
  exists l, print_line (network_graph pops projs) (map known adj) rev i = Ret l /\ l_node l = i /\ describes pops projs l.
Proof.
  intros [Nd K] L1 L2 R1 R2 Hi. unfold print_line. cbn [network_graph g_nodes]. rewrite map_length, L1.
  destruct (nth_error pops i) as [p|] eqn:Ep; [|apply nth_error_None in Ep; lia]. destruct (nth_error rev i) as [inc|] eqn:Ei; [|apply nth_error_None in Ei; lia].
  destruct (nth_error (map known adj) i) as [out|] eqn:Eo; [|apply nth_error_None in Eo; rewrite map_length in Eo; lia].
  apply (nth_error_nth _ _ []) in Ei, Eo. eexists. split; [reflexivity|]. split; [reflexivity|]. rewrite <- Ei, <- Eo. clear inc out Ei Eo. constructor; cbn [l_node l_size l_from l_to].
  - exists p. auto.
  - rewrite known_nth by assumption. rewrite R1. clear - Nd K Hi. induction projs as [|w t IH]; [constructor|]. cbn [filter].
    assert (E : Nat.eqb i (src pops w) = is_at pops i (vj_pre w)).
    { apply eq_true_iff_eq. rewrite Nat.eqb_eq, is_at_iff. rewrite <- (src_at pops Nd w i Hi). split; congruence. }
    rewrite E. assert (IH' := IH (fun v Hv => K v (or_intror Hv))). destruct (is_at pops i (vj_pre w)); [|exact IH'].
    cbn [map known flat_map]. destruct (K w (or_introl eq_refl)) as (j & J). apply (trg_at pops Nd) in J as J'. rewrite J'. cbn. constructor; [exact J|exact IH'].
  - rewrite R2. set (hit := fun w => is_at pops i (vj_post w)).
    exists (flat_map (fun k => filter (fun w => Nat.eqb k (src pops w)) (filter hit projs)) (seq 0 (S (length pops)))). split.
    + rewrite by_key by apply seq_NoDup. rewrite filter_filter. erewrite filter_ext; [reflexivity|]. intros w. cbn beta. rewrite (proj2 (existsb_exists _ _)); [now rewrite andb_true_r|].
      exists (src pops w). split; [apply in_seq; pose proof (src_le pops Nd w); lia|apply Nat.eqb_refl].
    + assert (G : forall ks, (forall k, In k ks -> k <= length pops) -> Forall2 (from_is pops) (flat_map (fun k => filter (fun w => Nat.eqb k (src pops w)) (filter hit projs)) ks)
        (map (fun k => if Nat.eqb k (S (length pops) - 1) then None else Some k) (flat_map (fun k => map (fun _ => k) (hits i (nth k adj []))) ks))); [|apply G; intros k Hk; apply in_seq in Hk; lia].
      induction ks as [|k ks IH]; intros Hk; cbn [flat_map]; [constructor|]. rewrite map_app. apply Forall2_app; [|apply IH; intros; apply Hk; now right]. clear IH.
      rewrite R1. specialize (Hk k (or_introl eq_refl)). clear - Nd K Hk hit Hi. induction projs as [|w t IH]; [constructor|]. cbn [filter].
      assert (IH' := IH (fun v Hv => K v (or_intror Hv))). clear IH.
      assert (E : hit w = match trg pops w with Some j => Nat.eqb j i | None => false end).
      { apply eq_true_iff_eq. unfold hit. rewrite is_at_iff. rewrite <- (trg_at pops Nd). destruct (trg pops w) as [j|]; [rewrite Nat.eqb_eq; split; congruence|split; discriminate]. }
      destruct (hit w) eqn:Hh.
      * cbn [filter]. destruct (Nat.eqb_spec k (src pops w)) as [Ek|Ek]; [|exact IH']. cbn [map]. unfold hits. cbn [filter]. rewrite <- E. cbn [map]. constructor; [|exact IH'].
        replace (S (length pops) - 1) with (length pops) by lia. destruct (Nat.eqb_spec k (length pops)) as [El|El]; cbn [from_is].
        -- apply (src_out pops Nd). congruence.
        -- apply (src_at pops Nd); [lia|congruence].
      * destruct (Nat.eqb_spec k (src pops w)) as [Ek|Ek]; [|exact IH']. cbn [map]. unfold hits. cbn [filter]. rewrite <- E. exact IH'.
Qed.
Theorem c121_description pops projs pick fuel : proper pops projs -> picks pick -> S (length pops) < fuel ->
  exists parts texts, parts_of pops projs parts /\ print_network fuel pick (network_graph pops projs) = Ret (Some texts) /\
    map (map l_node) texts = parts /\ Forall (Forall (describes pops projs)) texts.
Proof.
  intros Pr P F. destruct (c121_parts pops projs pick fuel Pr P F) as (parts & D & Pt). exists parts. pose proof Pr as [Nd K].
  destruct (network_lists pops projs Nd K) as (adj & rev & E1 & E2 & L1 & L2 & R1 & R2). unfold print_network. rewrite E1. cbn [obind]. rewrite E2. cbn [obind]. rewrite D. cbn [obind].
  assert (Hr : Forall (Forall (fun i => i < length pops)) parts).
  { apply Forall_forall. intros p Hp. apply Forall_forall. intros i Hi. assert (C : In i (concat parts)) by (apply in_concat; eauto). apply (Permutation_in _ (pt_once _ _ _ Pt)), in_seq in C. lia. }
  assert (Lines : forall ns, Forall (fun i => i < length pops) ns -> exists ls, print_lines (network_graph pops projs) (map known adj) rev ns = Ret ls /\ map l_node ls = ns /\ Forall (describes pops projs) ls).
  { induction ns as [|i ns IH]; intros H; [exists []; repeat split; constructor|]. apply Forall_cons_iff in H as [H1 H2]. destruct (IH H2) as (ls & E & M & Ds). cbn [print_lines].
    destruct (describe_line pops projs adj rev i Pr L1 L2 R1 R2 H1) as (l & -> & El & Dl). cbn [obind]. rewrite E. cbn [obind]. exists (l :: ls). split; [reflexivity|]. split; [cbn; congruence|]. now constructor. }
  assert (Parts : exists texts, print_parts (network_graph pops projs) (map known adj) rev parts = Ret texts /\ map (map l_node) texts = parts /\ Forall (Forall (describes pops projs)) texts).
  { clear - Hr Lines. induction parts as [|p ps IH]; [exists []; repeat split; constructor|]. apply Forall_cons_iff in Hr as [H1 H2]. destruct (IH H2) as (ts & E & M & Ds). cbn [print_parts].
    destruct (Lines p H1) as (ls & -> & Ml & Dl). cbn [obind]. rewrite E. cbn [obind]. exists (ls :: ts). split; [reflexivity|]. split; [cbn; congruence|]. now constructor. }
  destruct Parts as (texts & -> & M & Ds). cbn [obind]. eauto 10.
Qed.
(** A projection that leads to no population of the network: undefined behaviour. *)
Theorem c121_unknown_refuted pops projs w pick fuel : NoDup (map vp_uid pops) -> In w projs -> (forall j, ~ at_index pops (vj_post w) j) ->
  divide_graph fuel pick (network_graph pops projs) = UB /\ print_network fuel pick (network_graph pops projs) = UB.
Proof.
  intros Nd Hw Hn. destruct (adjacency pops projs Nd) as (adj & E & L & R).
  assert (U : make_reverse_list adj = UB).
  { unfold make_reverse_list. apply reverse_rows_none.
    - exists (nth (src pops w) adj []). split; [apply nth_In; pose proof (src_le pops Nd w); lia|]. rewrite R. apply in_map_iff. exists w. split.
      + destruct (node_index (vj_post w) pops 0 None) as [j|] eqn:Ej; [|reflexivity]. exfalso. apply (Hn j). now apply index_some.
      + apply filter_In. split; [exact Hw|]. apply Nat.eqb_refl.
    - rewrite repeat_length. apply Forall_forall. intros row Hr. apply Forall_forall. intros v Hv. apply (In_nth _ _ []) in Hr as (i & _ & Ei). rewrite <- Ei, R in Hv.
      apply in_map_iff in Hv as (u & <- & _). destruct (node_index (vj_post u) pops 0 None) as [j|] eqn:Ej; [|now left]. right. exists j. split; [reflexivity|]. apply (index_some _ _ _ Nd), at_range in Ej. lia. }
  unfold print_network, divide_graph. rewrite E. cbn [obind]. rewrite U. auto.
Qed.

(** Drawing a part: one shape for every projection that leads to it. *)
Definition drawn (pops : list vpop) (p : list nat) (w : vproj) (s : shape) : Prop :=
  match s with
  | Arrow a b => a <> b /\ exists i j, nth_error p a = Some i /\ nth_error p b = Some j /\ at_index pops (vj_pre w) i /\ at_index pops (vj_post w) j
  | Ring a => exists i, nth_error p a = Some i /\ at_index pops (vj_pre w) i /\ at_index pops (vj_post w) i
  | Entry b => outside_uid pops (vj_pre w) = true /\ exists j, nth_error p b = Some j /\ at_index pops (vj_post w) j
  | Dot _ _ => False
  end.
Definition leads_into (pops : list vpop) (p : list nat) (w : vproj) : bool := existsb (fun j => is_at pops j (vj_post w)) p.
Lemma position_spec v p : match position v p with Some j => nth_error p j = Some v | None => ~ In v p end.
Proof.
  induction p as [|y t IH]; cbn [position]; [auto|]. destruct (Nat.eqb_spec y v) as [->|E]; [reflexivity|]. destruct (position v t) as [j|]; [exact IH|]. intros [K|K]; tauto.
Qed.
Lemma into_position pops w p j : NoDup (map vp_uid pops) -> trg pops w = Some j -> leads_into pops p w = match position j p with Some _ => true | None => false end.
Proof.
  intros Nd J. apply (trg_at pops Nd) in J. pose proof (position_spec j p) as S1. unfold leads_into. destruct (position j p) as [b|].
  - apply existsb_exists. exists j. split; [eapply nth_error_In, S1|]. now apply is_at_iff.
  - apply not_true_iff_false. intros X. apply existsb_exists in X as (i & A & B). apply is_at_iff in B. apply S1. now rewrite (at_unique pops _ j i Nd J B).
Qed.
Lemma draw_targets_ok pops projs p a i : NoDup (map vp_uid pops) -> (forall w, In w projs -> exists j, at_index pops (vj_post w) j) -> i < length pops -> NoDup p -> nth_error p a = Some i ->
  Forall2 (drawn pops p) (filter (leads_into pops p) (filter (fun w => Nat.eqb i (src pops w)) projs)) (draw_targets p a (map (trg pops) (filter (fun w => Nat.eqb i (src pops w)) projs))).
Proof.
  intros Nd K Hi Np Ha. induction projs as [|w t IH]; [constructor|]. cbn [filter]. assert (IH' := IH (fun v Hv => K v (or_intror Hv))). clear IH.
  destruct (Nat.eqb_spec i (src pops w)) as [Es|Es]; [|exact IH']. cbn [map filter]. unfold draw_targets. cbn [flat_map].
  destruct (K w (or_introl eq_refl)) as (j & J). apply (trg_at pops Nd) in J as J'. rewrite J'. rewrite (into_position pops w p j Nd J'). pose proof (position_spec j p) as Sp.
  destruct (position j p) as [b|]; [|exact IH']. assert (A : at_index pops (vj_pre w) i) by (apply (src_at pops Nd); auto).
  destruct (Nat.eqb_spec b a) as [->|Hb]; cbn [app]; constructor; try exact IH'; cbn [drawn].
  - exists i. rewrite Sp in Ha. injection Ha as ->. rewrite Sp. auto.
  - split; [auto|]. exists i, j. auto.
Qed.
Lemma draw_edges_ok pops projs adj p : NoDup (map vp_uid pops) -> (forall w, In w projs -> exists j, at_index pops (vj_post w) j) -> length adj = S (length pops) ->
  (forall i, nth i adj [] = map (trg pops) (filter (fun w => Nat.eqb i (src pops w)) projs)) -> NoDup p ->
  forall rest a, (forall k i, nth_error rest k = Some i -> nth_error p (a + k) = Some i) -> Forall (fun i => i < length pops) rest ->
  exists es, draw_edges adj p rest a = Ret es /\ Forall2 (drawn pops p) (filter (leads_into pops p) (flat_map (fun i => filter (fun w => Nat.eqb i (src pops w)) projs) rest)) es.
Proof.
  intros Nd K L R Np. induction rest as [|i rest IH]; intros a Hn Hr; [exists []; split; [reflexivity|constructor]|]. apply Forall_cons_iff in Hr as [H1 H2]. cbn [draw_edges].
  destruct (nth_error adj i) as [out|] eqn:E; [|apply nth_error_None in E; lia]. apply (nth_error_nth _ _ []) in E. rewrite R in E. subst out.
  destruct (IH (S a)) as (es & -> & F); [intros k x Hk; replace (S a + k) with (a + S k) by lia; now apply Hn|exact H2|]. cbn [obind]. eexists. split; [reflexivity|].
  cbn [flat_map]. rewrite filter_app. apply Forall2_app; [|exact F]. apply draw_targets_ok; try assumption. specialize (Hn 0 i eq_refl). now rewrite Nat.add_0_r in Hn.
Qed.
Lemma draw_inputs_ok pops projs p : NoDup (map vp_uid pops) -> (forall w, In w projs -> exists j, at_index pops (vj_post w) j) ->
  Forall2 (drawn pops p) (filter (leads_into pops p) (filter (fun w => Nat.eqb (length pops) (src pops w)) projs)) (draw_inputs p (map (trg pops) (filter (fun w => Nat.eqb (length pops) (src pops w)) projs))).
Proof.
  intros Nd K. induction projs as [|w t IH]; [constructor|]. cbn [filter]. assert (IH' := IH (fun v Hv => K v (or_intror Hv))). clear IH.
  destruct (Nat.eqb_spec (length pops) (src pops w)) as [Es|Es]; [|exact IH']. cbn [map filter]. unfold draw_inputs. cbn [flat_map].
  destruct (K w (or_introl eq_refl)) as (j & J). apply (trg_at pops Nd) in J as J'. rewrite J'. rewrite (into_position pops w p j Nd J'). pose proof (position_spec j p) as Sp.
  destruct (position j p) as [b|]; [|exact IH']. cbn [app]. constructor; [|exact IH']. cbn [drawn]. split; [apply (src_out pops Nd); congruence|]. exists j. auto.
Qed.
Lemma draw_nodes_ok g : forall p a, a + length p <= length (g_nodes g) ->
  exists ds, draw_nodes g p a = Ret ds /\ length ds = length p /\ forall k s, nth_error ds k = Some s -> exists q, nth_error (g_nodes g) (a + k) = Some q /\ s = Dot (a + k) (vp_name q).
Proof.
  induction p as [|i p IH]; intros a H; cbn [length] in H; cbn [draw_nodes]; [exists []; split; [reflexivity|]; split; [reflexivity|]; intros [|k] s X; discriminate|].
  destruct (nth_error (g_nodes g) a) as [q|] eqn:E; [|apply nth_error_None in E; lia]. destruct (IH (S a)) as (ds & -> & L & D); [lia|]. cbn [obind]. eexists. split; [reflexivity|].
  split; [cbn; lia|]. intros [|k] s X.
  - cbn in X. injection X as <-. rewrite Nat.add_0_r. eauto.
  - cbn in X. destruct (D k s X) as (q' & A & B). replace (a + S k) with (S a + k) by lia. eauto.
Qed.
(** [p] is a part of the network. *)
Theorem c121_drawing pops projs parts p adj : proper pops projs -> build_adjacency_list (network_graph pops projs) = Ret adj -> parts_of pops projs parts -> In p parts ->
  exists arrows dots ws, draw_subgraph (network_graph pops projs) adj p = Ret (arrows ++ dots) /\
    Permutation ws (filter (leads_into pops p) projs) /\ Forall2 (drawn pops p) ws arrows /\
    length dots = length p /\ (forall k s, nth_error dots k = Some s -> exists name, s = Dot k name) /\
    (p = seq 0 (length p) -> forall k s i q, nth_error dots k = Some s -> nth_error p k = Some i -> nth_error pops i = Some q -> s = Dot k (vp_name q)).
Proof.
  intros [Nd K] E Pt Hp. destruct (network_lists pops projs Nd K) as (adj' & _ & E' & _ & L & _ & R & _). rewrite E in E'. injection E' as <-.
  assert (Ndc : NoDup (concat parts)) by (eapply Permutation_NoDup; [apply Permutation_sym, (pt_once _ _ _ Pt)|apply seq_NoDup]).
  pose proof (pt_order _ _ _ Pt) as O. rewrite Forall_forall in O. destruct (O p Hp) as [_ So].
  assert (Np : NoDup p). { clear - So. induction So as [|x t S1 IH F]; constructor; [|exact IH]. rewrite Forall_forall in F. intros I. specialize (F x I). lia. }
  assert (Rp : Forall (fun i => i < length pops) p).
  { apply Forall_forall. intros i Hi. assert (C : In i (concat parts)) by (apply in_concat; eauto). apply (Permutation_in _ (pt_once _ _ _ Pt)), in_seq in C. lia. }
  assert (Lp : length p <= length pops). { rewrite <- (seq_length (length pops) 0). apply NoDup_incl_length; [exact Np|]. intros i Hi. rewrite Forall_forall in Rp. apply in_seq. specialize (Rp i Hi). lia. }
  destruct (draw_edges_ok pops projs adj p Nd K L R Np p 0 (fun k i H => H) Rp) as (es & Ee & Fe).
  destruct (draw_nodes_ok (network_graph pops projs) p 0) as (ds & Ed & Ld & Fd); [exact Lp|].
  unfold draw_subgraph. rewrite Ee. cbn [obind]. rewrite Ed. cbn [obind].
  assert (La : last adj [] = nth (length pops) adj []).
  { clear - L. revert L. generalize (length pops). induction adj as [|r t IH]; intros m Hm; [discriminate|]. cbn in Hm. destruct t as [|r' t']; [destruct m; [reflexivity|discriminate]|]. destruct m as [|m]; [discriminate|].
    change (last (r' :: t') [] = nth m (r' :: t') []). apply IH. lia. }
  exists (draw_inputs p (last adj []) ++ es), ds,
    (filter (leads_into pops p) (filter (fun w => Nat.eqb (length pops) (src pops w)) projs) ++ filter (leads_into pops p) (flat_map (fun i => filter (fun w => Nat.eqb i (src pops w)) projs) p)).
  split; [now rewrite <- app_assoc|]. split; [|split; [|split; [exact Ld|split]]].
  - rewrite <- filter_app.
    change (filter (fun w => Nat.eqb (length pops) (src pops w)) projs ++ flat_map (fun i => filter (fun w => Nat.eqb i (src pops w)) projs) p)
      with (flat_map (fun i => filter (fun w => Nat.eqb i (src pops w)) projs) (length pops :: p)).
    rewrite <- flat_map_filter.
    assert (Ef : flat_map (fun x => filter (leads_into pops p) (filter (fun w => Nat.eqb x (src pops w)) projs)) (length pops :: p)
      = flat_map (fun x => filter (fun w => Nat.eqb x (src pops w)) (filter (leads_into pops p) projs)) (length pops :: p)).
    { rewrite !flat_map_concat_map. f_equal. apply map_ext. intros x. rewrite !filter_filter. apply filter_ext. intros w. apply andb_comm. }
    rewrite Ef, by_key.
    + rewrite filter_filter. erewrite filter_ext_in; [reflexivity|]. intros w Hw. cbn beta. destruct (leads_into pops p w) eqn:Li; [|reflexivity]. cbn [andb].
      apply existsb_exists. exists (src pops w). split; [|apply Nat.eqb_refl]. pose proof (src_le pops Nd w) as Sl. destruct (Nat.eq_dec (src pops w) (length pops)) as [->|Hne]; [now left|right].
      unfold leads_into in Li. apply existsb_exists in Li as (j & Hj & Aj). apply is_at_iff in Aj. assert (Hs : src pops w < length pops) by lia.
      assert (As : at_index pops (vj_pre w) (src pops w)) by (apply (src_at pops Nd w _ Hs); reflexivity).
      assert (C : connected pops projs (src pops w) j) by (apply rst_step; exists w; auto).
      rewrite Forall_forall in Rp. apply (pt_same _ _ _ Pt) in C as (q & Q1 & Q2 & Q3); [|exact Hs|now apply Rp].
      replace p with q; [exact Q2|]. clear - Ndc Q1 Q3 Hp Hj. induction parts as [|r l IH]; [destruct Hp|]. cbn [concat] in Ndc.
      assert (Sp : NoDup (concat l) /\ forall z, In z r -> In z (concat l) -> False).
      { clear - Ndc. induction r as [|z r IHr]; [split; [exact Ndc|intros ? []]|]. cbn in Ndc. apply NoDup_cons_iff in Ndc as [N1 N2]. destruct (IHr N2) as [A B]. split; [exact A|].
        intros u [<-|Hu] X; [apply N1; apply in_or_app; auto|eauto]. }
      destruct Sp as [Nl Dj]. destruct Q1 as [<-|Q1], Hp as [<-|Hp]; [reflexivity| | |now apply IH].
      * exfalso. apply (Dj j Q3). apply in_concat. eauto.
      * exfalso. apply (Dj j Hj). apply in_concat. eauto.
    + constructor; [|exact Np]. intros I. rewrite Forall_forall in Rp. specialize (Rp _ I). lia.
  - apply Forall2_app; [|exact Fe]. rewrite La, R. now apply draw_inputs_ok.
  - intros k s Hk. destruct (Fd k s Hk) as (q & _ & ->). cbn [Nat.add]. eauto.
  - intros Eq k s i q Hk Hi Hq. destruct (Fd k s Hk) as (q' & A & ->). cbn [Nat.add network_graph g_nodes] in *. rewrite Eq in Hi.
    assert (Ei : i = k). { assert (Hlt : k < length p) by (rewrite <- Ld; apply nth_error_Some; congruence). rewrite nth_error_nth' with (d := 0) in Hi by (rewrite seq_length; exact Hlt). rewrite seq_nth in Hi by exact Hlt. cbn in Hi. congruence. }
    subst i. congruence.
Qed.

(** An example: populations a, b, c, d; projections from outside to a, from a to c and back, from b to b, from c to d. *)
Import String.StringSyntax. Local Open Scope string_scope.
Definition gx_pops : list vpop := [mkVP 11 5 "a"; mkVP 12 6 "b"; mkVP 13 7 "c"; mkVP 14 8 "d"].
Definition gx_projs : list vproj := [mkVJ 21 0 11 1 "in"; mkVJ 22 11 13 1 "ac"; mkVJ 23 13 11 1 "ca"; mkVJ 24 12 12 1 "bb"; mkVJ 25 13 14 1 "cd"].
Definition last_one (done s : list nat) : nat := List.last s 0.
Definition first_one (done s : list nat) : nat := List.hd 0 s.
Lemma last_picks : picks last_one.
Proof. intros done s H. unfold last_one. destruct (exists_last H) as (l & x & ->). rewrite last_last. apply in_or_app. right. now left. Qed.
Example c121_case : proper gx_pops gx_projs /\ picks last_one /\
  divide_graph 6 last_one (network_graph gx_pops gx_projs) = Ret (Some [[0; 2; 3]; [1]]) /\
  divide_graph 6 first_one (network_graph gx_pops gx_projs) = Ret (Some [[0; 2; 3]; [1]]) /\
  print_network 6 last_one (network_graph gx_pops gx_projs) =
    Ret (Some [[mkLine 0 5 [Some 2; None] [2]; mkLine 2 7 [Some 0] [0; 3]; mkLine 3 8 [Some 2] []]; [mkLine 1 6 [Some 1] [1]]]).
Proof.
  split; [|split; [exact last_picks|split; [vm_compute; reflexivity|split; vm_compute; reflexivity]]]. split; [repeat constructor; cbn; intuition discriminate|].
  intros w Hw. assert (E : exists j, j < 4 /\ is_at gx_pops j (vj_post w) = true); [|destruct E as (j & _ & E); exists j; now apply is_at_iff].
  repeat (destruct Hw as [<-|Hw]; [first [exists 0; split; [lia|reflexivity]|exists 1; split; [lia|reflexivity]|exists 2; split; [lia|reflexivity]|exists 3; split; [lia|reflexivity]]|]). destruct Hw.
Qed.
(** The names: the points of a part that is not the beginning of the list of populations get the names of other populations. *)
Theorem c121_names_refuted : exists pops projs parts p adj, proper pops projs /\ parts_of pops projs parts /\ In p parts /\ build_adjacency_list (network_graph pops projs) = Ret adj /\
  nth_error p 0 = Some 1 /\ nth_error pops 1 = Some (mkVP 12 6 "b") /\ draw_subgraph (network_graph pops projs) adj p = Ret [Ring 0; Dot 0 "a"].
Proof.
  destruct c121_case as (A & B & C & _). destruct (c121_parts gx_pops gx_projs last_one 6 A B) as (parts & E & Pt); [cbn; lia|]. rewrite C in E.
  assert (Ep : parts = [[0; 2; 3]; [1]]) by exact (f_equal (fun o => match o with Ret (Some y) => y | _ => parts end) (eq_sym E)).
  exists gx_pops, gx_projs, parts, [1]. eexists. split; [exact A|]. split; [exact Pt|]. split; [rewrite Ep; right; now left|]. split; [vm_compute; reflexivity|]. repeat split; vm_compute; reflexivity.
Qed.

Print Assumptions c121_parts.
Print Assumptions c121_order_free.
Print Assumptions c121_description.
Print Assumptions c121_unknown_refuted.
Print Assumptions c121_drawing.
Print Assumptions c121_names_refuted.
