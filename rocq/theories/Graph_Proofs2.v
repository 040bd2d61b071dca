(** The reverse list and the search. *)
From Verif Require Import Base Graph_Model Graph_Spec Graph_Proofs.
From Coq Require Import Relations.Relation_Operators Sorting.Sorted.

(** How often [j] is in a row. *)
Definition hits (j : nat) (row : list (option nat)) : list (option nat) := filter (fun v => match v with Some i => Nat.eqb i j | None => false end) row.
Definition inside (n : nat) (v : option nat) : Prop := exists i, v = Some i /\ i < n.
Lemma reverse_row_ok count : forall row rev, Forall (inside (length rev)) row ->
  exists rev', reverse_row count row rev = Ret rev' /\ length rev' = length rev /\ forall j, nth j rev' [] = nth j rev [] ++ map (fun _ => count) (hits j row).
Proof.
  induction row as [|v t IH]; intros rev H; cbn [reverse_row].
  - exists rev. split; [reflexivity|]. split; [reflexivity|]. intros j. cbn. now rewrite app_nil_r.
  - apply Forall_cons_iff in H as [(i & -> & Hi) H2]. destruct (push_at_ok count rev i Hi) as (r1 & -> & L1 & E1). cbn [obind].
    destruct (IH r1) as (r2 & -> & L2 & E2); [rewrite L1; exact H2|]. exists r2. split; [reflexivity|]. split; [lia|]. intros j. rewrite E2, E1. unfold hits. cbn [filter].
    rewrite (Nat.eqb_sym i j). destruct (Nat.eqb j i); cbn [map]; [now rewrite <- app_assoc|reflexivity].
Qed.
Lemma reverse_rows_ok : forall adj count rev, Forall (Forall (inside (length rev))) adj ->
  exists rev', reverse_rows count adj rev = Ret rev' /\ length rev' = length rev /\
    forall j, nth j rev' [] = nth j rev [] ++ flat_map (fun k => map (fun _ => count + k) (hits j (nth k adj []))) (seq 0 (length adj)).
Proof.
  induction adj as [|row t IH]; intros count rev H; cbn [reverse_rows].
  - exists rev. split; [reflexivity|]. split; [reflexivity|]. intros j. cbn. now rewrite app_nil_r.
  - apply Forall_cons_iff in H as [H1 H2]. destruct (reverse_row_ok count row rev H1) as (r1 & -> & L1 & E1). cbn [obind].
    destruct (IH (S count) r1) as (r2 & -> & L2 & E2); [rewrite L1; exact H2|]. exists r2. split; [reflexivity|]. split; [lia|]. intros j. rewrite E2, E1, <- app_assoc. f_equal.
    cbn [length seq flat_map nth]. rewrite Nat.add_0_r. f_equal. rewrite <- seq_shift, flat_map_concat_map, flat_map_concat_map, map_map. f_equal. apply map_ext. intros k. cbn [nth].
    apply map_ext. intros _. lia.
Qed.
Lemma reverse_row_none count : forall row rev, In None row -> Forall (fun v => v = None \/ inside (length rev) v) row -> reverse_row count row rev = UB.
Proof.
  induction row as [|v t IH]; intros rev I H; [destruct I|]. apply Forall_cons_iff in H as [[->|(i & -> & Hi)] H2]; cbn [reverse_row]; [reflexivity|].
  destruct I as [I|I]; [discriminate|]. destruct (push_at_ok count rev i Hi) as (r1 & -> & L1 & _). cbn [obind]. apply IH; [exact I|]. rewrite L1. exact H2.
Qed.
Lemma reverse_rows_none : forall adj count rev, (exists row, In row adj /\ In None row) -> Forall (Forall (fun v => v = None \/ inside (length rev) v)) adj -> reverse_rows count adj rev = UB.
Proof.
  induction adj as [|row t IH]; intros count rev (r & I & N) H; [destruct I|]. apply Forall_cons_iff in H as [H1 H2]. cbn [reverse_rows].
  destruct (in_dec (fun a b : option nat => ltac:(decide equality; apply Nat.eq_dec) : {a = b} + {a <> b}) None row) as [Y|Y].
  - now rewrite reverse_row_none.
  - destruct I as [->|I]; [tauto|]. destruct (reverse_row_ok count row rev) as (r1 & -> & L1 & _).
    { rewrite Forall_forall in *. intros v Hv. destruct (H1 v Hv) as [->|K]; [tauto|exact K]. }
    cbn [obind]. apply IH; [eauto|]. rewrite L1. exact H2.
Qed.

(** Sets. *)
Lemma mem_nat_in x l : mem_nat x l = true <-> In x l.
Proof. unfold mem_nat. rewrite existsb_exists. split; [intros (y & A & B); apply Nat.eqb_eq in B; now subst|intros H; exists x; split; [exact H|apply Nat.eqb_refl]]. Qed.
Lemma mem_nat_out x l : mem_nat x l = false <-> ~ In x l.
Proof. rewrite <- mem_nat_in. destruct (mem_nat x l); split; intros; try congruence; tauto. Qed.
Lemma erase_in x y s : In y (set_erase x s) <-> In y s /\ y <> x.
Proof. unfold set_erase. rewrite filter_In, negb_true_iff, Nat.eqb_neq. intuition congruence. Qed.
Lemma erase_nodup x s : NoDup s -> NoDup (set_erase x s).
Proof.
  unfold set_erase. induction s as [|y t IH]; cbn; [auto|]. intros H. apply NoDup_cons_iff in H as [A B]. destruct (negb (Nat.eqb x y)); [|auto].
  constructor; [rewrite filter_In; tauto|auto].
Qed.
Lemma erase_all_in l : forall s y, In y (fold_left (fun s n => set_erase n s) l s) <-> In y s /\ ~ In y l.
Proof.
  induction l as [|x t IH]; intros s y; cbn [fold_left]; [cbn; tauto|]. rewrite IH, erase_in. cbn. intuition congruence.
Qed.
Lemma erase_all_nodup l : forall s, NoDup s -> NoDup (fold_left (fun s n => set_erase n s) l s).
Proof. induction l as [|x t IH]; intros s H; cbn [fold_left]; [exact H|]. apply IH. now apply erase_nodup. Qed.
Lemma insert_in x y s : In y (set_insert x s) <-> In y s \/ y = x.
Proof.
  unfold set_insert. destruct (mem_nat x s) eqn:E; [apply mem_nat_in in E; intuition congruence|]. rewrite in_app_iff. cbn. intuition congruence.
Qed.
Lemma snoc_nodup {A} (l : list A) x : NoDup l -> ~ In x l -> NoDup (l ++ [x]).
Proof.
  intros H Hx. induction l as [|y t IH]; cbn; [repeat constructor; auto|]. apply NoDup_cons_iff in H as [A1 A2]. constructor.
  - intros I. apply in_app_or in I as [I|[I|[]]]; [tauto|]. apply Hx. now left.
  - apply IH; [exact A2|]. intros I. apply Hx. now right.
Qed.
Lemma insert_nodup x s : NoDup s -> NoDup (set_insert x s).
Proof. intros H. unfold set_insert. destruct (mem_nat x s) eqn:E; [exact H|]. apply mem_nat_out in E. now apply snoc_nodup. Qed.
Lemma visit_in cur pr ig : forall out s y, In y (visit cur pr ig out s) <-> In y s \/ (In y out /\ y <> cur /\ ~ In y pr /\ ~ In y ig).
Proof.
  unfold visit. induction out as [|n t IH]; intros s y; cbn [fold_left]; [cbn; tauto|]. rewrite IH. clear IH.
  destruct (Nat.eqb_spec n cur) as [E|E]; [cbn; intuition congruence|]. destruct (mem_nat n pr) eqn:P; [apply mem_nat_in in P; cbn; intuition congruence|]. apply mem_nat_out in P.
  destruct (mem_nat n ig) eqn:G; [apply mem_nat_in in G; cbn; intuition congruence|]. apply mem_nat_out in G. rewrite insert_in. cbn. intuition (subst; auto).
Qed.
Lemma visit_nodup cur pr ig : forall out s, NoDup s -> NoDup (visit cur pr ig out s).
Proof.
  unfold visit. induction out as [|n t IH]; intros s H; cbn [fold_left]; [exact H|]. apply IH. destruct (Nat.eqb n cur); [exact H|]. destruct (mem_nat n pr); [exact H|].
  destruct (mem_nat n ig); [exact H|]. now apply insert_nodup.
Qed.
Lemma sort_in_perm x l : Permutation (sort_in x l) (x :: l).
Proof. induction l as [|y t IH]; cbn; [reflexivity|]. destruct (Nat.leb x y); [reflexivity|]. rewrite IH. apply perm_swap. Qed.
Lemma sorted_perm l : Permutation (sorted l) l.
Proof. unfold sorted. induction l as [|x t IH]; cbn; [reflexivity|]. rewrite sort_in_perm. now constructor. Qed.
Lemma sort_in_sorted x l : StronglySorted le l -> StronglySorted le (sort_in x l).
Proof.
  induction l as [|y t IH]; intros H; cbn; [repeat constructor|]. apply StronglySorted_inv in H as [H1 H2]. destruct (Nat.leb_spec x y) as [L|L].
  - constructor; [constructor; assumption|]. constructor; [exact L|]. eapply Forall_impl; [|exact H2]. cbn. lia.
  - constructor; [now apply IH|]. rewrite Forall_forall in *. intros z Hz. apply (Permutation_in _ (sort_in_perm x t)) in Hz as [<-|Hz]; [lia|auto].
Qed.
Lemma sorted_strict l : NoDup l -> StronglySorted lt (sorted l).
Proof.
  intros Nd. assert (S1 : StronglySorted le (sorted l)) by (unfold sorted; clear Nd; induction l; cbn; [constructor|now apply sort_in_sorted]).
  apply (Permutation_NoDup (Permutation_sym (sorted_perm l))) in Nd. revert S1 Nd. generalize (sorted l). clear l. intros l S1. induction S1 as [|x t S1 IH F]; intros Nd; constructor.
  - apply IH. now apply NoDup_cons_iff in Nd.
  - apply NoDup_cons_iff in Nd as [Nd _]. rewrite Forall_forall in *. intros y Hy. specialize (F y Hy). assert (x <> y) by (intros ->; tauto). lia.
Qed.

Section Search.
Variables (pick : list nat -> list nat -> nat) (adj rev : list (list nat)) (ignored : list nat) (n : nat).
Hypothesis Pick : picks pick.
Hypothesis La : length adj = n.
Hypothesis Lr : length rev = n.
Hypothesis Ra : forall x y, In y (nth x adj []) -> y < n.
Hypothesis Rr : forall x y, In y (nth x rev []) -> y < n.
Definition nb (x y : nat) : Prop := (In y (nth x adj []) \/ In y (nth x rev [])) /\ ~ In y ignored.
Definition reach : nat -> nat -> Prop := clos_refl_trans_1n nat nb.
Lemma reach_snoc x y z : reach x y -> nb y z -> reach x z.
Proof. intros H K. induction H as [x|x y' y H1 H2 IH]; [econstructor; [exact K|constructor]|]. econstructor; [exact H1|now apply IH]. Qed.
Lemma spread_ok s : s < n -> forall fuel np pr, NoDup np -> NoDup pr -> (forall y, In y np -> ~ In y pr) ->
  (forall y, In y np \/ In y pr -> y < n /\ reach s y) -> In s np \/ In s pr -> (forall x y, In x pr -> nb x y -> In y np \/ In y pr) ->
  n < fuel + length pr ->
  exists r, spread fuel pick adj rev ignored np pr = Ret (Some r) /\ NoDup r /\ (forall y, In y r <-> reach s y) /\ (forall y, In y r -> y < n).
Proof.
  intros Hs. induction fuel as [|fuel IH]; intros np pr N1 N2 D R S0 C F.
  - exfalso. assert (length pr <= n); [|lia]. rewrite <- (seq_length n 0). apply NoDup_incl_length; [exact N2|]. intros y Hy. apply in_seq. destruct (R y); [auto|]. lia.
  - cbn [spread]. destruct np as [|z np'] eqn:Enp.
    + exists pr. split; [reflexivity|]. split; [exact N2|]. split; [|intros y Hy; apply R; auto]. intros y. split; [intros H; apply R; auto|].
      intros H. destruct S0 as [[]|S0]. clear - H S0 C. unfold reach in H. induction H as [x|x y z H1 H2 IH]; [exact S0|]. apply IH. destruct (C x y S0 H1) as [[]|K]. exact K.
    + rewrite <- Enp in *. assert (Ne : np <> []) by (rewrite Enp; discriminate). clear Enp z np'. pose proof (Pick pr np Ne) as Hc. set (cur := pick pr np) in *. cbn zeta.
      destruct (R cur (or_introl Hc)) as [Rc Rs].
      destruct (nth_error adj cur) as [out|] eqn:Eo; [|apply nth_error_None in Eo; lia]. destruct (nth_error rev cur) as [inc|] eqn:Ei; [|apply nth_error_None in Ei; lia].
      apply (nth_error_nth _ _ []) in Eo, Ei.
      apply IH.
      * now apply erase_nodup, visit_nodup, visit_nodup.
      * apply snoc_nodup; [exact N2|]. now apply D.
      * intros y Hy K. apply erase_in in Hy as [Hy Hne]. rewrite !visit_in in Hy. apply in_app_or in K as [K|[K|[]]]; [|congruence]. destruct Hy as [[Hy|Hy]|Hy]; [now apply (D y)|tauto|tauto].
      * intros y [Hy|Hy].
        -- apply erase_in in Hy as [Hy _]. rewrite !visit_in in Hy. destruct Hy as [[Hy|(A & _ & _ & B)]|(A & _ & _ & B)]; [apply R; auto| |].
           ++ rewrite <- Eo in A. split; [now apply (Ra cur)|]. apply (reach_snoc s cur); [exact Rs|]. split; auto.
           ++ rewrite <- Ei in A. split; [now apply (Rr cur)|]. apply (reach_snoc s cur); [exact Rs|]. split; auto.
        -- apply in_app_or in Hy as [Hy|[<-|[]]]; [apply R; auto|auto].
      * destruct (Nat.eq_dec s cur) as [->|Hne]; [right; apply in_or_app; right; now left|]. destruct S0 as [S0|S0]; [left|right; apply in_or_app; auto].
        apply erase_in. split; [|exact Hne]. rewrite !visit_in. auto.
      * intros x y Hx Hn. destruct (Nat.eq_dec y cur) as [->|Hne]; [right; apply in_or_app; right; now left|].
        apply in_app_or in Hx as [Hx|[<-|[]]].
        -- destruct (C x y Hx Hn) as [K|K]; [left; apply erase_in; split; [|exact Hne]; rewrite !visit_in; auto|right; apply in_or_app; auto].
        -- destruct (in_dec Nat.eq_dec y pr) as [K|K]; [right; apply in_or_app; auto|]. left. apply erase_in. split; [|exact Hne]. rewrite !visit_in.
           destruct Hn as [[Hn|Hn] Hi]; [rewrite Eo in Hn|rewrite Ei in Hn]; [left; right|right]; auto.
      * rewrite app_length. cbn. lia.
Qed.
(** One part. *)
Lemma find_ok remaining fuel : NoDup remaining -> (forall y, In y remaining -> y < n /\ ~ In y ignored) -> remaining <> [] -> n < fuel ->
  exists s part rest, In s remaining /\ find_connected_set fuel pick adj rev remaining ignored = Ret (Some (part, rest)) /\
    StronglySorted lt part /\ NoDup part /\ (forall y, In y part <-> reach s y) /\ (forall y, In y part -> y < n) /\ NoDup rest /\ (forall y, In y rest <-> In y remaining /\ ~ In y part).
Proof.
  intros Nd H Ne F. unfold find_connected_set. set (cleaned := fold_left _ ignored remaining).
  assert (Ec : forall y, In y cleaned <-> In y remaining) by (intros y; unfold cleaned; rewrite erase_all_in; split; [tauto|intros K; split; [exact K|now apply H]]).
  assert (Nc : cleaned <> []). { destruct remaining as [|x t]; [congruence|]. intros E. assert (K : In x cleaned) by (apply Ec; now left). rewrite E in K. destruct K. }
  pose proof (Pick [] cleaned Nc) as Hp. apply Ec in Hp. set (s := pick [] cleaned) in *. destruct (H s Hp) as [Hs Hi].
  assert (K : exists r, spread fuel pick adj rev ignored [s] [] = Ret (Some r) /\ NoDup r /\ (forall y, In y r <-> reach s y) /\ (forall y, In y r -> y < n)).
  { apply spread_ok; try assumption; [repeat constructor; intros []|constructor|intros ? _ []| |left; now left|intros ? ? []|cbn; lia].
    intros y [[<-|[]]|[]]. split; [exact Hs|constructor]. }
  destruct K as (r & E & R1 & R2 & R3). exists s, (sorted r), (fold_left (fun s n => set_erase n s) r remaining). split; [exact Hp|].
  assert (Ps : forall y, In y (sorted r) <-> In y r) by (intros y; split; apply Permutation_in; [|apply Permutation_sym]; apply sorted_perm).
  split; [destruct cleaned as [|x t] eqn:Ecl; [congruence|]; rewrite E; reflexivity|]. split; [now apply sorted_strict|].
  split; [eapply Permutation_NoDup; [apply Permutation_sym, sorted_perm|exact R1]|].
  split; [intros y; rewrite Ps; apply R2|]. split; [intros y; rewrite Ps; apply R3|]. split; [now apply erase_all_nodup|].
  intros y. rewrite erase_all_in, Ps. tauto.
Qed.
Hypothesis Sym : forall x y, x < n -> ~ In x ignored -> nb x y -> nb y x.
Lemma reach_in x y : reach x y -> x < n -> ~ In x ignored -> y < n /\ ~ In y ignored.
Proof.
  intros H. induction H as [x|x y z H1 H2 IH]; [auto|]. intros Hx Hi. apply IH; [|apply H1]. destruct H1 as [[H1|H1] _]; [now apply (Ra x)|now apply (Rr x)].
Qed.
Lemma reach_sym x y : reach x y -> x < n -> ~ In x ignored -> reach y x.
Proof.
  intros H. induction H as [x|x y z H1 H2 IH]; intros Hx Hi; [constructor|]. assert (Hy : y < n /\ ~ In y ignored) by (apply (reach_in x y); [econstructor; [exact H1|constructor]|exact Hx|exact Hi]).
  apply (reach_snoc z y); [now apply IH|]. now apply Sym.
Qed.
Lemma reach_trans x y z : reach x y -> reach y z -> reach x z.
Proof. intros H K. induction H as [x|x y w H1 H2 IH]; [exact K|]. eapply rt1n_trans; [exact H1|]. now apply IH. Qed.
(** All parts: [all] are the nodes that are not ignored. *)
Lemma divide_ok steps all : n < steps -> NoDup all -> (forall y, In y all <-> y < n /\ ~ In y ignored) ->
  forall fuel remaining found, NoDup remaining -> (forall y, In y remaining -> In y all) ->
  Permutation (concat found ++ remaining) all -> Forall (fun p => p <> [] /\ StronglySorted lt p) found ->
  (forall p x y, In p found -> In x p -> (In y p <-> reach x y)) -> length remaining < fuel ->
  exists parts, divide_loop fuel steps pick adj rev remaining ignored found = Ret (Some parts) /\ Permutation (concat parts) all /\
    Forall (fun p => p <> [] /\ StronglySorted lt p) parts /\ (forall p x y, In p parts -> In x p -> (In y p <-> reach x y)).
Proof.
  intros Hs Nall Hall. induction fuel as [|fuel IH]; intros remaining found Nd Sub Perm Ord Same F; [lia|]. cbn [divide_loop].
  destruct remaining as [|x0 t] eqn:E; [exists found; rewrite app_nil_r in Perm; auto|]. rewrite <- E in *. assert (Ne : remaining <> []) by (rewrite E; discriminate). clear E x0 t.
  destruct (find_ok remaining steps Nd) as (s & part & rest & Hin & Ef & P1 & P0 & P2 & P3 & P4 & P5); [intros y Hy; now apply Hall, Sub|exact Ne|exact Hs|].
  rewrite Ef. cbn [obind]. clear Ef. destruct (proj1 (Hall s) (Sub s Hin)) as [S1 S2].
  (* the part is made of remaining nodes *)
  assert (Pr : forall y, In y part -> In y remaining).
  { intros y Hy. pose proof (proj1 (P2 y) Hy) as Ry. destruct (reach_in s y Ry S1 S2) as [Y1 Y2]. assert (Ya : In y all) by (apply Hall; auto).
    apply (Permutation_in _ (Permutation_sym Perm)) in Ya. apply in_app_or in Ya as [Ya|Ya]; [|exact Ya]. exfalso. apply in_concat in Ya as (p & Hp & Hyp).
    assert (Sp : In s p) by (apply (Same p y s Hp Hyp); now apply reach_sym).
    assert (Nda : NoDup (concat found ++ remaining)) by (eapply Permutation_NoDup; [apply Permutation_sym, Perm|exact Nall]).
    assert (Sc : In s (concat found)) by (apply in_concat; eauto). clear - Nda Sc Hin. induction (concat found) as [|z l IHl]; [destruct Sc|]. cbn in Nda. apply NoDup_cons_iff in Nda as [A B].
    destruct Sc as [->|Sc]; [apply A; apply in_or_app; auto|auto]. }
  assert (Pp : Permutation (part ++ rest) remaining).
  { apply NoDup_Permutation; [|exact Nd|].
    - clear - P0 P4 P5. induction part as [|z l IHl]; [exact P4|]. assert (A : forall y, In y rest -> ~ In y (z :: l)) by (intros y Hy; now apply P5). clear P5. apply NoDup_cons_iff in P0 as [B C].
      cbn. constructor; [intros K; apply in_app_or in K as [K|K]; [tauto|apply (A z K); now left]|]. assert (A' : forall y, In y rest -> ~ In y l) by (intros y Hy K; apply (A y Hy); now right). clear A IHl B.
      induction l as [|w l IHl]; [exact P4|]. apply NoDup_cons_iff in C as [B C]. cbn. constructor; [intros K; apply in_app_or in K as [K|K]; [tauto|apply (A' w K); now left]|]. apply IHl; [exact C|].
      intros y Hy K. apply (A' y Hy). now right.
    - intros y. rewrite in_app_iff, P5. split; [intros [K|[K _]]; auto|]. intros K. destruct (in_dec Nat.eq_dec y part); auto. }
  assert (Sn : In s part) by (apply P2; constructor).
  apply IH.
  - exact P4.
  - intros y Hy. apply P5 in Hy as [Hy _]. auto.
  - rewrite concat_app. cbn [concat]. rewrite app_nil_r, <- app_assoc, Pp. exact Perm.
  - apply Forall_app. split; [exact Ord|]. repeat constructor; [intros ->; destruct Sn|exact P1].
  - intros p x y Hp Hx. apply in_app_or in Hp as [Hp|[<-|[]]]; [now apply (Same p)|]. rewrite P2. pose proof (proj1 (P2 x) Hx) as Rx. split.
    + intros Ry. apply (reach_trans x s); [|exact Ry]. now apply reach_sym.
    + intros Ry. now apply (reach_trans s x).
  - assert (length rest < length remaining); [|lia]. apply Permutation_length in Pp. rewrite app_length in Pp. destruct part; [destruct Sn|]. cbn in Pp. lia.
Qed.
End Search.
