From Coq Require Import Sorted.
From Verif Require Import Base ListLemmas Messaging_Model Neuron_Model Neuron_Spec.

Lemma ret_inj {A} (x y : A) : Ret x = Ret y -> x = y.
Proof. now intros [= ->]. Qed.
(** ** LIF *)
Lemma lif_impacts_refractory l : currents_only l -> forall n, l_cnt n <> 0%N -> impacts lif_impact n l = Ret n.
Proof.
  induction 1 as [|i l Hi Hl IH]; intros n Hn; cbn [impacts]; [reflexivity|].
  unfold lif_impact, is_current in *. apply N.eqb_neq in Hn. rewrite Hn.
  destruct (i_type i); try discriminate; cbn [obind]; apply IH; now apply N.eqb_neq.
Qed.
Lemma lif_impacts_free l : currents_only l -> forall n, l_cnt n = 0%N ->
  impacts lif_impact n l = Ret (mkLif (f_drive (l_pot n) l) 0).
Proof.
  induction 1 as [|i l Hi Hl IH]; intros n Hn; cbn [impacts f_drive fold_left].
  - destruct n; cbn in *. now subst.
  - unfold lif_impact, is_current in *. rewrite Hn, N.eqb_refl.
    destruct (i_type i); try discriminate; cbn [obind]; rewrite IH by reflexivity; reflexivity.
Qed.
Lemma lif_step_eq p n l : currents_only l -> lif_step p n l =
  Ret (if N.eqb (l_cnt n) 0
       then let v := f_drive (f_mul (l_pot n) (lp_leak p)) l in
            if f_gt v (lp_thr p) then (mkLif (lp_reset p) (lp_period p), true) else (mkLif v 0, false)
       else (mkLif (l_pot n) (l_cnt n - 1), false)).
Proof.
  intros Hl. unfold lif_step, neuron_step, lif_pre. destruct (N.eqb_spec (l_cnt n) 0) as [E|E].
  - rewrite (lif_impacts_free l Hl) by exact E. cbn [obind l_pot l_cnt lif_post]. unfold lif_post. cbn [l_cnt l_pot N.eqb].
    change (0 =? 0)%N with true. cbn [l_pot]. destruct (f_gt _ _); reflexivity.
  - rewrite (lif_impacts_refractory l Hl) by exact E. cbn [obind]. unfold lif_post.
    apply N.eqb_neq in E. now rewrite E.
Qed.
Lemma lif_spike_iff p n l n' b : currents_only l -> lif_step p n l = Ret (n', b) ->
  (b = true <-> l_cnt n = 0%N /\ f_gt (f_drive (f_mul (l_pot n) (lp_leak p)) l) (lp_thr p) = true) /\
  (b = true -> l_pot n' = lp_reset p /\ l_cnt n' = lp_period p) /\
  (b = false -> l_cnt n = 0%N -> l_pot n' = f_drive (f_mul (l_pot n) (lp_leak p)) l /\ l_cnt n' = 0%N).
Proof.
  intros Hl H. rewrite (lif_step_eq p n l Hl) in H. cbn zeta in H.
  destruct (N.eqb_spec (l_cnt n) 0) as [E|E].
  - destruct (f_gt _ _) eqn:Ef; injection H as <- <-; cbn; repeat split; auto; try discriminate; intros [_ ?]; discriminate.
  - injection H as <- <-. repeat split; auto; try discriminate; try contradiction. intros [? _]; contradiction.
Qed.
Lemma lif_refractory p : forall ls n, Forall currents_only ls -> (N.of_nat (length ls) <= l_cnt n)%N ->
  exists n' bs, lif_run p n ls = Ret (n', bs) /\ Forall (fun b => b = false) bs /\ length bs = length ls /\
    l_pot n' = l_pot n /\ l_cnt n' = (l_cnt n - N.of_nat (length ls))%N.
Proof.
  induction ls as [|l ls IH]; intros n Hf Hc; cbn [length] in Hc.
  - exists n, []. cbn. repeat split; auto. lia.
  - inversion Hf as [|? ? H1 H2]; subst.
    destruct (IH (mkLif (l_pot n) (l_cnt n - 1)) H2) as (n' & bs & E & Hb & Hlen & Hp & Hn); [cbn; lia|].
    cbn [l_pot l_cnt] in *.
    exists n', (false :: bs). unfold lif_run in *. cbn [neuron_run]. fold (lif_step p).
    rewrite (lif_step_eq p n l H1). destruct (N.eqb_spec (l_cnt n) 0); [lia|]. cbn [obind fst snd].
    rewrite E. cbn [obind fst snd]. repeat split; auto; cbn; try lia.
Qed.
Lemma lif_other_type p n l1 i l2 : is_current i = false -> currents_only l1 -> lif_step p n (l1 ++ i :: l2) = Throw.
Proof.
  intros Hi Hl. unfold lif_step, neuron_step.
  assert (G : forall m, impacts lif_impact m (l1 ++ i :: l2) = Throw).
  { induction Hl as [|x l1 Hx Hl IH]; intros m; cbn [app impacts].
    - unfold lif_impact, is_current in *. destruct (i_type i); try discriminate; reflexivity.
    - unfold is_current in Hx. unfold lif_impact at 1. destruct (i_type x); try discriminate; cbn [obind]; apply IH. }
  now rewrite G.
Qed.

(** ** BLIFAT: what impacts leave alone *)
Definition kept (n n' : bl) : Prop :=
  b_since n' = b_since n /\ b_dyn n' = b_dyn n /\ b_trace n' = b_trace n /\ b_pre n' = b_pre n /\ b_phase n' = b_phase n.
Lemma bl_impact_kept n i n' : bl_impact n i = Ret n' -> kept n n'.
Proof.
  unfold bl_impact, kept. destruct (i_type i); try (intros [= <-]; cbn; auto; fail).
  destruct (to_int64 (i_value i)); cbn; try discriminate. intros [= <-]; cbn; auto.
Qed.
Lemma bl_impacts_kept : forall l n n', impacts bl_impact n l = Ret n' -> kept n n'.
Proof.
  induction l as [|i l IH]; intros n n' H; cbn [impacts] in H; [injection H as <-; unfold kept; auto|].
  destruct (bl_impact n i) as [n1| |] eqn:E; cbn [obind] in H; try discriminate.
  apply bl_impact_kept in E. apply IH in H. unfold kept in *. intuition congruence.
Qed.
Lemma bl_step_fields stdp p n l n' b : bl_step stdp p n l = Ret (n', b) ->
  (b = true -> (bp_refract p < add64 (b_since n) 1)%N /\ b_since n' = 0%N /\ b_phase n' = bp_burst p) /\
  (b = false -> b_since n' = add64 (b_since n) 1 /\ b_phase n' = b_phase (bl_prestep stdp p n)) /\
  f_lt (b_pot n') (bp_min p) = false.
Proof.
  unfold bl_step, neuron_step. destruct (impacts bl_impact (bl_prestep stdp p n) l) as [n1| |] eqn:E; cbn [obind]; try discriminate.
  apply bl_impacts_kept in E. destruct E as (E1 & _ & _ & _ & E2).
  assert (Es : b_since (bl_prestep stdp p n) = add64 (b_since n) 1).
  { unfold bl_prestep. destruct (N.eqb (b_phase n) 1); reflexivity. }
  intros [= <- <-]. unfold bl_post. cbn zeta.
  match goal with |- context [bl_fires p ?m] => set (m1 := m); destruct (bl_fires p m1) eqn:F end.
  - split; [|split].
    + intros _. unfold bl_fires in F. apply andb_true_iff in F as [F _]. apply N.ltb_lt in F. subst m1. cbn in F.
      rewrite E1, Es in F. split; [exact F|]. match goal with |- context [if f_lt ?a ?b then _ else _] => destruct (f_lt a b) end; auto.
    + discriminate.
    + match goal with |- context [if f_lt ?a ?b then _ else _] => destruct (f_lt a b) eqn:X end; cbn [b_pot] in *; [|exact X].
      clear. unfold f_lt, SFltb. destruct (bp_min p) as [s|s| |s m e]; cbn; try (destruct s; reflexivity); try reflexivity.
      destruct s; rewrite Z.compare_refl, Pos.compare_refl; reflexivity.
  - split; [discriminate|split].
    + intros _. subst m1. match goal with |- context [if f_lt ?a ?b then _ else _] => destruct (f_lt a b) end; cbn; rewrite E1, E2; auto.
    + match goal with |- context [if f_lt ?a ?b then _ else _] => destruct (f_lt a b) eqn:X end; cbn [b_pot] in *; [|exact X].
      clear. unfold f_lt, SFltb. destruct (bp_min p) as [s|s| |s m e]; cbn; try (destruct s; reflexivity); try reflexivity.
      destruct s; rewrite Z.compare_refl, Pos.compare_refl; reflexivity.
Qed.

(** the number of steps since the last spike bounds the next spike *)
Lemma bl_first_spike stdp p : forall ls n n' bs, bl_run stdp p n ls = Ret (n', bs) -> (bp_refract p < two32)%N ->
  forall j, nth_error bs j = Some true -> (forall i, i < j -> nth_error bs i = Some false) ->
  (b_since n < two32)%N -> (bp_refract p < b_since n + 1 + N.of_nat j)%N.
Proof.
  induction ls as [|l ls IH]; intros n n' bs H Hr j Hj Hi Hs; unfold bl_run in H; cbn [neuron_run] in H.
  - injection H as <- <-. destruct j; discriminate.
  - fold (bl_step stdp p) in H. destruct (bl_step stdp p n l) as [[n1 b]| |] eqn:E; cbn [obind fst snd] in H; try discriminate.
    fold (bl_run stdp p) in H. destruct (bl_run stdp p n1 ls) as [[n2 bs']| |] eqn:E2; cbn [obind fst snd] in H; try discriminate.
    injection H as <- <-. destruct (bl_step_fields _ _ _ _ _ _ E) as (K1 & K2 & _).
    assert (Ha : add64 (b_since n) 1 = (b_since n + 1)%N).
    { unfold add64, w64. apply N.mod_small. change two64 with 18446744073709551616%N. change two32 with 4294967296%N in *. lia. }
    destruct j as [|j]; cbn [nth_error] in Hj.
    + injection Hj as ->. destruct (K1 eq_refl) as [K _]. rewrite Ha in K. cbn. lia.
    + pose proof (Hi 0 ltac:(lia)) as H0. cbn in H0. injection H0 as ->. destruct (K2 eq_refl) as [K _].
      destruct (N.lt_ge_cases (b_since n1) two32) as [Hlt|Hge].
      * specialize (IH n1 n2 bs' E2 Hr j Hj (fun i Hij => Hi (S i) ltac:(lia)) Hlt). rewrite K, Ha in IH. lia.
      * rewrite K, Ha in Hge. lia.
Qed.
Lemma bl_run_app stdp p : forall bs1 ls n n' bs2 b, bl_run stdp p n ls = Ret (n', bs1 ++ b :: bs2) ->
  exists n1 l ls2 m, bl_step stdp p n1 l = Ret (m, b) /\ bl_run stdp p m ls2 = Ret (n', bs2).
Proof.
  induction bs1 as [|x bs1 IH]; intros ls n n' bs2 b H; destruct ls as [|l ls]; unfold bl_run in H; cbn [neuron_run app] in H;
    try (injection H as _ ?; discriminate); fold (bl_step stdp p) in H;
    (destruct (bl_step stdp p n l) as [[n1 b1]| |] eqn:E; cbn [obind fst snd] in H; try discriminate);
    fold (bl_run stdp p) in H; (destruct (bl_run stdp p n1 ls) as [[n2 bs']| |] eqn:E2; cbn [obind fst snd] in H; try discriminate).
  - injection H as <- <- <-. eauto 8.
  - injection H as <- <- ->. eapply IH; eauto.
Qed.
Lemma bl_refractory stdp p ls n n' bs : (bp_refract p < two32)%N -> bl_run stdp p n ls = Ret (n', bs) ->
  forall i j, i < j -> nth_error bs i = Some true -> nth_error bs j = Some true -> (bp_refract p < N.of_nat (j - i))%N.
Proof.
  intros Hr H i j Hij Hi Hj.
  (* the last spike before j *)
  assert (G : exists k, i <= k < j /\ nth_error bs k = Some true /\ forall m, k < m < j -> nth_error bs m = Some false).
  { assert (Hlen : j < length bs) by (apply nth_error_Some; congruence).
    clear Hj. induction j as [|j IH]; [lia|].
    destruct (nth_error bs j) as [[|]|] eqn:Ej.
    - exists j. split; [lia|]. split; [exact Ej|]. intros; lia.
    - destruct (Nat.eq_dec i j) as [->|Hne]; [congruence|].
      destruct IH as (k & Hk & Ek & Hm); [lia|lia|]. exists k. split; [lia|]. split; [exact Ek|].
      intros m Hmm. destruct (Nat.eq_dec m j) as [->|]; [exact Ej|]. apply Hm. lia.
    - apply nth_error_None in Ej. lia. }
  destruct G as (k & Hk & Ek & Hm).
  apply nth_error_split in Ek as (bs1 & bs2 & -> & Hl). 
  destruct (bl_run_app stdp p bs1 ls n n' bs2 true H) as (n1 & l & ls2 & m & E1 & E2).
  destruct (bl_step_fields _ _ _ _ _ _ E1) as (K1 & _ & _). destruct (K1 eq_refl) as (_ & Ks & _).
  assert (X : forall q, nth_error (bs1 ++ true :: bs2) (S k + q) = nth_error bs2 q).
  { intros q. rewrite nth_error_app2 by lia. replace (S k + q - length bs1) with (S q) by lia. reflexivity. }
  pose proof (bl_first_spike stdp p ls2 m n' bs2 E2 Hr (j - k - 1)) as P.
  rewrite Ks in P. assert (bp_refract p < 0 + 1 + N.of_nat (j - k - 1))%N; [|lia].
  apply P.
  - rewrite <- X. replace (S k + (j - k - 1)) with j by lia. exact Hj.
  - intros q Hq. rewrite <- X. apply Hm. lia.
  - reflexivity.
Qed.

(** ** BLIFAT: blocking *)
Definition eqx (n n' : bl) : Prop :=
  b_since n' = b_since n /\ b_dyn n' = b_dyn n /\ b_trace n' = b_trace n /\ b_inh n' = b_inh n /\
  b_pre n' = b_pre n /\ b_phase n' = b_phase n /\ b_block n' = b_block n /\ b_dopa n' = b_dopa n.
Lemma eqx_refl n : eqx n n. Proof. unfold eqx; auto 10. Qed.
Lemma bl_impacts_currents : forall l n m n', eqx n m -> impacts bl_impact n l = Ret n' ->
  exists m', impacts bl_impact m (filter (fun i => negb (is_current i)) l) = Ret m' /\ eqx n' m'.
Proof.
  induction l as [|i l IH]; intros n m n' Hx H; cbn [impacts filter] in *.
  - injection H as <-. exists m. auto.
  - destruct (bl_impact n i) as [n1| |] eqn:E; cbn [obind] in H; try discriminate.
    unfold bl_impact in E. unfold is_current at 1. unfold eqx in Hx.
    destruct (i_type i) eqn:Ei; cbn [negb].
    + injection E as <-. apply (IH _ m n') in H; [exact H|]. unfold eqx; cbn. tauto.
    + injection E as <-. apply (IH _ m n') in H; [exact H|]. unfold eqx; cbn. tauto.
    + cbn [impacts]. unfold bl_impact at 1. rewrite Ei. cbn [obind]. injection E as <-. eapply IH; [|exact H].
      destruct Hx as (X1 & X2 & X3 & X4 & X5 & X6 & X7 & X8). unfold eqx; cbn. repeat split; congruence.
    + cbn [impacts]. unfold bl_impact at 1. rewrite Ei. cbn [obind]. injection E as <-. eapply IH; [|exact H].
      destruct Hx as (X1 & X2 & X3 & X4 & X5 & X6 & X7 & X8). unfold eqx; cbn. repeat split; congruence.
    + cbn [impacts]. unfold bl_impact at 1. rewrite Ei. destruct (to_int64 (i_value i)) as [z| |]; cbn [obind] in E; try discriminate.
      cbn [obind]. injection E as <-. eapply IH; [|exact H].
      destruct Hx as (X1 & X2 & X3 & X4 & X5 & X6 & X7 & X8). unfold eqx; cbn. repeat split; congruence.
Qed.
Lemma bl_post_blocked p n m : eqx n m -> (b_block n <= 0)%Z -> bl_post p m = bl_post p n.
Proof.
  intros (E1 & E2 & E3 & E4 & E5 & E6 & E7 & E8) Hb. unfold bl_post.
  rewrite E1, E2, E3, E4, E5, E6, E7, E8. destruct (Z.leb_spec (b_block n) 0); [reflexivity|lia].
Qed.
(** defined unless a blocking value is out of range *)
Lemma bl_impacts_defined : forall l n,
  Forall (fun i => is_blocking i = true -> exists z', to_int64 (i_value i) = Ret z') l ->
  exists n', impacts bl_impact n l = Ret n'.
Proof.
  induction l as [|i l IH]; intros n H; cbn [impacts]; [eauto|]. inversion H as [|? ? H1 H2]; subst.
  assert (exists n1, bl_impact n i = Ret n1) as (n1 & ->).
  { unfold bl_impact, is_blocking in *. destruct (i_type i); eauto. destruct (H1 eq_refl) as (z & ->). cbn. eauto. }
  cbn [obind]. now apply IH.
Qed.
Lemma no_blocking_defined l : no_blocking l -> Forall (fun i => is_blocking i = true -> exists z', to_int64 (i_value i) = Ret z') l.
Proof. intros H. eapply Forall_impl; [|exact H]. cbn. intros i -> X; discriminate. Qed.
Lemma bl_impacts_block : forall l n n', no_blocking l -> impacts bl_impact n l = Ret n' -> b_block n' = b_block n.
Proof.
  induction l as [|i l IH]; intros n n' Hl H; cbn [impacts] in H; [now injection H as <-|].
  inversion Hl as [|? ? H1 H2]; subst.
  destruct (bl_impact n i) as [n1| |] eqn:E; cbn [obind] in H; try discriminate. rewrite (IH n1 n' H2 H).
  unfold bl_impact, is_blocking in *. destruct (i_type i); try discriminate; injection E as <-; reflexivity.
Qed.
Lemma impacts_app {A} (imp : A -> impact -> outcome A) : forall a b n,
  impacts imp n (a ++ b) = obind (impacts imp n a) (fun m => impacts imp m b).
Proof.
  induction a as [|i a IH]; intros b n; cbn [app impacts]; [reflexivity|].
  destruct (imp n i); cbn [obind]; auto.
Qed.
Lemma blocks_with_spec l z n : blocks_with l z -> exists n', impacts bl_impact n l = Ret n' /\ b_block n' = z.
Proof.
  intros (a & b & c & -> & Hb & Hz & Hc & Ha). rewrite impacts_app.
  destruct (bl_impacts_defined a n Ha) as (n1 & ->). cbn [obind impacts].
  unfold is_blocking in Hb. unfold bl_impact at 1. destruct (i_type b); try discriminate. rewrite Hz. cbn [obind].
  match goal with |- context [impacts bl_impact ?m c] => set (n2 := m) end.
  destruct (bl_impacts_defined c n2 (no_blocking_defined c Hc)) as (n3 & E). exists n3. split; [exact E|].
  now rewrite (bl_impacts_block c n2 n3 Hc E).
Qed.
Lemma same_blocks l l' z n : blocks_with l z -> same_apart_from_currents l l' ->
  exists n', impacts bl_impact n l' = Ret n' /\ b_block n' = z.
Proof.
  intros H E. destruct (blocks_with_spec l z n H) as (n1 & E1 & Ez).
  destruct (bl_impacts_currents l n n n1 (eqx_refl n) E1) as (m & Em & Hx).
  assert (D : exists n', impacts bl_impact n l' = Ret n').
  { apply bl_impacts_defined.
    destruct H as (a & b & c & -> & Hb & Hz & Hc & Ha).
    assert (G : forall i, In i (a ++ b :: c) -> is_blocking i = true -> exists z', to_int64 (i_value i) = Ret z').
    { intros i Hi Hbi. apply in_app_iff in Hi as [Hi|[<-|Hi]].
      - rewrite Forall_forall in Ha. now apply Ha.
      - eauto.
      - unfold no_blocking in Hc. rewrite Forall_forall in Hc. rewrite Hc in Hbi by exact Hi. discriminate. }
    apply Forall_forall. intros i Hi Hbi. apply G; [|exact Hbi].
    assert (Hin : In i (filter (fun i => negb (is_current i)) l')).
    { apply filter_In. split; [exact Hi|]. unfold is_blocking, is_current in *. destruct (i_type i); auto; discriminate. }
    rewrite <- E in Hin. apply filter_In in Hin. tauto. }
  destruct D as (n2 & E2). exists n2. split; [exact E2|].
  destruct (bl_impacts_currents l' n n n2 (eqx_refl n) E2) as (m' & Em' & Hx').
  rewrite <- E, Em in Em'. injection Em' as <-. destruct Hx as (_ & _ & _ & _ & _ & _ & B & _), Hx' as (_ & _ & _ & _ & _ & _ & B' & _).
  congruence.
Qed.
Lemma same_step stdp p n l l' n1 : same_apart_from_currents l l' ->
  impacts bl_impact (bl_prestep stdp p n) l = Ret n1 -> (b_block n1 <= 0)%Z ->
  (exists n2, impacts bl_impact (bl_prestep stdp p n) l' = Ret n2) ->
  bl_step stdp p n l' = bl_step stdp p n l.
Proof.
  intros E E1 Hb (n2 & E2).
  destruct (bl_impacts_currents l _ _ n1 (eqx_refl _) E1) as (m & Em & Hx).
  destruct (bl_impacts_currents l' _ _ n2 (eqx_refl _) E2) as (m' & Em' & Hx').
  rewrite <- E, Em in Em'. injection Em' as <-.
  unfold bl_step, neuron_step. rewrite E1, E2. cbn [obind]. f_equal.
  assert (Hbm : (b_block n2 <= 0)%Z).
  { destruct Hx as (_ & _ & _ & _ & _ & _ & B & _), Hx' as (_ & _ & _ & _ & _ & _ & B' & _). congruence. }
  rewrite <- (bl_post_blocked p n2 m Hx' Hbm). apply (bl_post_blocked p n1 m Hx Hb).
Qed.
Lemma bl_post_block p n : b_block (fst (bl_post p n)) = bl_next_block (b_block n).
Proof.
  unfold bl_post. cbn zeta. match goal with |- context [bl_fires p ?m] => destruct (bl_fires p m) end;
  match goal with |- context [if f_lt ?a ?b then _ else _] => destruct (f_lt a b) end; reflexivity.
Qed.
Lemma bl_prestep_block stdp p n : b_block (bl_prestep stdp p n) = b_block n.
Proof. unfold bl_prestep. destruct (N.eqb (b_phase n) 1); reflexivity. Qed.
Lemma bl_step_block stdp p n l n' b : no_blocking l -> bl_step stdp p n l = Ret (n', b) ->
  b_block n' = bl_next_block (b_block n).
Proof.
  intros Hl H. unfold bl_step, neuron_step in H.
  destruct (impacts bl_impact (bl_prestep stdp p n) l) as [n1| |] eqn:E; cbn [obind] in H; try discriminate.
  apply ret_inj in H. pose proof (bl_post_block p n1) as P. rewrite H in P. cbn [fst] in P.
  rewrite P, (bl_impacts_block l _ _ Hl E), bl_prestep_block. reflexivity.
Qed.
Definition after_block (k : Z) (m : nat) : Z := if (Z.of_nat m =? k)%Z then int64_max else (- (k - Z.of_nat m))%Z.
(** While the counter is -k, [m <= k] steps do not depend on currents. *)
Lemma blocked_run stdp p : forall ls ls' n k, Forall no_blocking ls -> Forall2 same_apart_from_currents ls ls' ->
  (Z.of_nat (length ls) <= k)%Z -> b_block n = (- k)%Z ->
  exists n' bs, bl_run stdp p n ls = Ret (n', bs) /\ bl_run stdp p n ls' = Ret (n', bs) /\
    (ls <> [] -> b_block n' = after_block k (length ls)).
Proof.
  induction ls as [|l ls IH]; intros ls' n k Hn HF Hk Hb; inversion HF as [|? l' ? ls2 Hs HF']; subst.
  - exists n, []. repeat split. congruence.
  - inversion Hn as [|? ? Hn1 Hn2]; subst. cbn [length] in Hk.
    destruct (bl_impacts_defined l (bl_prestep stdp p n) (no_blocking_defined l Hn1)) as (n1 & E1).
    assert (B1 : b_block n1 = (- k)%Z) by (rewrite (bl_impacts_block l _ _ Hn1 E1), bl_prestep_block; exact Hb).
    assert (Hn1' : no_blocking l').
    { unfold no_blocking in *. rewrite Forall_forall in *. intros i Hi. destruct (is_blocking i) eqn:Bi; [|reflexivity].
      assert (Hin : In i (filter (fun i => negb (is_current i)) l')).
      { apply filter_In. split; [exact Hi|]. unfold is_blocking, is_current in *. destruct (i_type i); auto; discriminate. }
      rewrite <- Hs in Hin. apply filter_In in Hin as [Hin _]. rewrite Hn1 in Bi by exact Hin. discriminate. }
    pose proof (bl_impacts_defined l' (bl_prestep stdp p n) (no_blocking_defined l' Hn1')) as D.
    pose proof (same_step stdp p n l l' n1 Hs E1 ltac:(lia) D) as ES.
    destruct (bl_step stdp p n l) as [[m b]| |] eqn:E.
    2,3: unfold bl_step, neuron_step in E; rewrite E1 in E; discriminate.
    pose proof (bl_step_block stdp p n l m b Hn1 E) as Bm. rewrite Hb in Bm.
    destruct (Z.eq_dec k 1) as [->|Hk1].
    + assert (Hl0 : ls = []) by (destruct ls; [reflexivity|cbn in Hk; lia]). subst ls. inversion HF'; subst.
      exists m, [b]. unfold bl_run. cbn [neuron_run]. fold (bl_step stdp p). rewrite E, ES. cbn. repeat split.
      intros _. exact Bm.
    + assert (Bm' : b_block m = (- (k - 1))%Z).
      { rewrite Bm. unfold bl_next_block. destruct (Z.ltb_spec (- k) 0); [|lia]. destruct (Z.eqb_spec (- k + 1) 0); lia. }
      destruct (IH ls2 m (k - 1)%Z Hn2 HF' ltac:(lia) Bm') as (n' & bs & R1 & R2 & R3).
      exists n', (b :: bs). unfold bl_run in *. cbn [neuron_run]. fold (bl_step stdp p). rewrite E, ES. cbn [obind fst snd].
      rewrite R1, R2. cbn [obind fst snd]. repeat split. intros _.
      destruct ls as [|l2 ls].
      * injection R1 as <- <-. cbn [length]. unfold after_block. destruct (Z.eqb_spec (Z.of_nat 1) k); [lia|]. rewrite Bm'. lia.
      * rewrite R3 by discriminate. unfold after_block.
        destruct (Z.eqb_spec (Z.of_nat (length (l2 :: ls))) (k - 1)), (Z.eqb_spec (Z.of_nat (length (l :: l2 :: ls))) k);
          cbn [length] in *; lia.
Qed.
Lemma blocked_from_impact stdp p n l l' ls ls' k :
  blocks_with l (- k)%Z -> same_apart_from_currents l l' ->
  Forall no_blocking ls -> Forall2 same_apart_from_currents ls ls' -> (1 <= k)%Z ->
  (Z.of_nat (S (length ls)) <= k)%Z ->
  exists n' bs, bl_run stdp p n (l :: ls) = Ret (n', bs) /\ bl_run stdp p n (l' :: ls') = Ret (n', bs) /\
    b_block n' = after_block k (S (length ls)).
Proof.
  intros Hb Hs Hn HF Hk1 Hk.
  destruct (blocks_with_spec l (- k) (bl_prestep stdp p n) Hb) as (n1 & E1 & B1).
  destruct (same_blocks l l' (- k) (bl_prestep stdp p n) Hb Hs) as (n2 & E2 & _).
  pose proof (same_step stdp p n l l' n1 Hs E1 ltac:(lia) (ex_intro _ n2 E2)) as ES.
  destruct (bl_step stdp p n l) as [[m b]| |] eqn:E.
  2,3: unfold bl_step, neuron_step in E; rewrite E1 in E; discriminate.
  assert (Bm : b_block m = bl_next_block (- k)).
  { unfold bl_step, neuron_step in E. rewrite E1 in E. cbn [obind] in E. apply ret_inj in E.
    pose proof (bl_post_block p n1) as P. rewrite E in P. cbn [fst] in P. now rewrite P, B1. }
  destruct (Z.eq_dec k 1) as [->|Hne].
  - assert (Hl0 : ls = []) by (destruct ls; [reflexivity|cbn in Hk; lia]). subst ls. inversion HF; subst.
    exists m, [b]. unfold bl_run. cbn [neuron_run]. fold (bl_step stdp p). rewrite E, ES. cbn. repeat split. exact Bm.
  - assert (Bm' : b_block m = (- (k - 1))%Z).
    { rewrite Bm. unfold bl_next_block. destruct (Z.ltb_spec (- k) 0); [|lia]. destruct (Z.eqb_spec (- k + 1) 0); lia. }
    destruct (blocked_run stdp p ls ls' m (k - 1)%Z Hn HF ltac:(lia) Bm') as (n' & bs & R1 & R2 & R3).
    exists n', (b :: bs). unfold bl_run in *. cbn [neuron_run]. fold (bl_step stdp p). rewrite E, ES. cbn [obind fst snd].
    rewrite R1, R2. cbn [obind fst snd]. repeat split.
    destruct ls as [|l2 ls].
    + injection R1 as <- <-. cbn [length]. unfold after_block. destruct (Z.eqb_spec (Z.of_nat 1) k); [lia|]. rewrite Bm'. lia.
    + rewrite R3 by discriminate. unfold after_block.
      destruct (Z.eqb_spec (Z.of_nat (length (l2 :: ls))) (k - 1)), (Z.eqb_spec (Z.of_nat (S (length (l2 :: ls)))) k);
        cbn [length] in *; lia.
Qed.
(** a counter of 0 blocks for ever *)
Lemma blocked_forever stdp p : forall ls ls' n, Forall no_blocking ls -> Forall2 same_apart_from_currents ls ls' ->
  b_block n = 0%Z -> exists n' bs, bl_run stdp p n ls = Ret (n', bs) /\ bl_run stdp p n ls' = Ret (n', bs) /\ b_block n' = 0%Z.
Proof.
  induction ls as [|l ls IH]; intros ls' n Hn HF Hb; inversion HF as [|? l' ? ls2 Hs HF']; subst.
  - exists n, []. auto.
  - inversion Hn as [|? ? Hn1 Hn2]; subst.
    destruct (bl_impacts_defined l (bl_prestep stdp p n) (no_blocking_defined l Hn1)) as (n1 & E1).
    assert (B1 : b_block n1 = 0%Z) by (rewrite (bl_impacts_block l _ _ Hn1 E1), bl_prestep_block; exact Hb).
    assert (Hn1' : no_blocking l').
    { unfold no_blocking in *. rewrite Forall_forall in *. intros i Hi. destruct (is_blocking i) eqn:Bi; [|reflexivity].
      assert (Hin : In i (filter (fun i => negb (is_current i)) l')).
      { apply filter_In. split; [exact Hi|]. unfold is_blocking, is_current in *. destruct (i_type i); auto; discriminate. }
      rewrite <- Hs in Hin. apply filter_In in Hin as [Hin _]. rewrite Hn1 in Bi by exact Hin. discriminate. }
    pose proof (bl_impacts_defined l' (bl_prestep stdp p n) (no_blocking_defined l' Hn1')) as D.
    pose proof (same_step stdp p n l l' n1 Hs E1 ltac:(lia) D) as ES.
    destruct (bl_step stdp p n l) as [[m b]| |] eqn:E.
    2,3: unfold bl_step, neuron_step in E; rewrite E1 in E; discriminate.
    pose proof (bl_step_block stdp p n l m b Hn1 E) as Bm. rewrite Hb in Bm. change (bl_next_block 0) with 0%Z in Bm.
    destruct (IH ls2 m Hn2 HF' Bm) as (n' & bs & R1 & R2 & R3).
    exists n', (b :: bs). unfold bl_run in *. cbn [neuron_run]. fold (bl_step stdp p). rewrite E, ES. cbn [obind fst snd].
    rewrite R1, R2. cbn [obind fst snd]. auto.
Qed.

(** ** BLIFAT: when it fires *)
Lemma bl_impacts_pot : forall l n n', no_blocking l -> impacts bl_impact n l = Ret n' -> b_pot n' = d_drive (b_pot n) l.
Proof.
  induction l as [|i l IH]; intros n n' Hl H; cbn [impacts] in H; [now injection H as <-|].
  inversion Hl as [|? ? H1 H2]; subst. unfold d_drive. cbn [fold_left].
  destruct (bl_impact n i) as [n1| |] eqn:E; cbn [obind] in H; try discriminate. rewrite (IH n1 n' H2 H).
  unfold d_drive. f_equal. unfold bl_impact, is_blocking in *. destruct (i_type i); try discriminate; injection E as <-; reflexivity.
Qed.
Lemma bl_impacts_inh : forall l n n', impacts bl_impact n l = Ret n' -> b_inh n' = d_conductance (b_inh n) l.
Proof.
  induction l as [|i l IH]; intros n n' H; cbn [impacts] in H; [now injection H as <-|].
  unfold d_conductance. cbn [fold_left].
  destruct (bl_impact n i) as [n1| |] eqn:E; cbn [obind] in H; try discriminate. rewrite (IH n1 n' H).
  unfold d_conductance. f_equal. unfold bl_impact in *. destruct (i_type i); try (injection E as <-; reflexivity).
  destruct (to_int64 (i_value i)); cbn in E; try discriminate. injection E as <-; reflexivity.
Qed.
Lemma bl_step_total stdp p n l : no_blocking l -> exists n' b, bl_step stdp p n l = Ret (n', b).
Proof.
  intros Hl. unfold bl_step, neuron_step.
  destruct (bl_impacts_defined l (bl_prestep stdp p n) (no_blocking_defined l Hl)) as (n1 & ->). cbn [obind].
  destruct (bl_post p n1) as [n' b]. eauto.
Qed.
Lemma bl_fires_iff stdp p n l n' b : no_blocking l -> (0 < b_block n)%Z -> bl_step stdp p n l = Ret (n', b) ->
  (b = true <-> (bp_refract p < add64 (b_since n) 1)%N /\
     f_ge (inhibited p (d_conductance (d_mul (b_inh n) (bp_inh_decay p)) l) (d_drive (b_pot (bl_prestep stdp p n)) l))
          (d_add (d_add (bp_thr p) (d_mul (b_dyn n) (bp_thr_decay p))) (bp_add p)) = true).
Proof.
  intros Hl Hb H. unfold bl_step, neuron_step in H.
  destruct (impacts bl_impact (bl_prestep stdp p n) l) as [n1| |] eqn:E; cbn [obind] in H; try discriminate.
  apply ret_inj in H. apply (f_equal snd) in H. cbn [snd] in H. subst b.
  pose proof (bl_impacts_pot l _ _ Hl E) as Ep. pose proof (bl_impacts_block l _ _ Hl E) as Eb. rewrite bl_prestep_block in Eb.
  pose proof (bl_impacts_inh l _ _ E) as Eg.
  apply bl_impacts_kept in E. destruct E as (E1 & E2 & _).
  assert (X : b_since (bl_prestep stdp p n) = add64 (b_since n) 1 /\ b_dyn (bl_prestep stdp p n) = d_mul (b_dyn n) (bp_thr_decay p)
              /\ b_inh (bl_prestep stdp p n) = d_mul (b_inh n) (bp_inh_decay p)).
  { unfold bl_prestep. destruct (N.eqb (b_phase n) 1); repeat split; reflexivity. }
  destruct X as (X1 & X2 & X3). rewrite X1 in E1. rewrite X2 in E2. rewrite X3 in Eg.
  unfold bl_post. cbn zeta. destruct (Z.leb_spec (b_block n1) 0); [lia|]. cbn [snd].
  unfold bl_fires at 1. cbn [b_since b_pot b_dyn]. rewrite andb_true_iff, N.ltb_lt, E1, E2, Ep, Eg. unfold inhibited. reflexivity.
Qed.
(** the first step after the default counter: it wraps to 0 *)
Lemma bl_wrapped stdp p n l n' b : b_since n = (two64 - 1)%N -> bl_step stdp p n l = Ret (n', b) -> b = false.
Proof.
  intros Hs H. destruct b; [|reflexivity]. destruct (bl_step_fields _ _ _ _ _ _ H) as (K & _). destruct (K eq_refl) as [X _].
  rewrite Hs in X. change (add64 (two64 - 1) 1) with 0%N in X. lia.
Qed.

(** ** BLIFAT: bursting *)
Lemma bl_reflex_unused stdp p r : bp_burst p <> 1%N -> forall ls n, b_phase n <> 1%N ->
  bl_run stdp (with_reflex r p) n ls = bl_run stdp p n ls.
Proof.
  intros Hb. induction ls as [|l ls IH]; intros n Hn; unfold bl_run; cbn [neuron_run]; [reflexivity|].
  fold (bl_step stdp (with_reflex r p)) (bl_step stdp p).
  assert (E : bl_step stdp (with_reflex r p) n l = bl_step stdp p n l).
  { unfold bl_step, neuron_step. unfold bl_prestep. apply N.eqb_neq in Hn. rewrite Hn. reflexivity. }
  rewrite E. destruct (bl_step stdp p n l) as [[m b]| |] eqn:ES; cbn [obind fst snd]; try reflexivity.
  assert (Hm : b_phase m <> 1%N).
  { destruct (bl_step_fields _ _ _ _ _ _ ES) as (K1 & K2 & _). destruct b; [now rewrite (proj2 (proj2 (K1 eq_refl)))|].
    rewrite (proj2 (K2 eq_refl)). unfold bl_prestep. pose proof Hn as Hn'. apply N.eqb_neq in Hn'. rewrite Hn'. exact Hn. }
  specialize (IH m Hm). unfold bl_run in IH. rewrite IH. reflexivity.
Qed.

(** ** AltAI *)
Lemma f_lt_irrefl x : f_lt x x = false.
Proof.
  unfold f_lt, SFltb. destruct x as [s|s| |s m e]; cbn; try (destruct s; reflexivity); try reflexivity.
  destruct s; rewrite Z.compare_refl, Pos.compare_refl; reflexivity.
Qed.
Lemma f_lt_le x y : f_lt x y = true -> f_le x y = true.
Proof. unfold f_lt, f_le, SFltb, SFleb. destruct (SFcompare x y) as [[]|]; auto; discriminate. Qed.
Lemma round_sign s m e l : let r := binary_round_aux 24 128 s m e l in r = S754_nan \/ sign_bit r = s.
Proof.
  cbn zeta. unfold binary_round_aux. destruct (shr_fexp 24 128 m e l) as [r1 e1].
  destruct (shr_fexp 24 128 _ e1 loc_Exact) as [r2 e2]. destruct (shr_m r2); auto. destruct (e2 <=? 128 - 24)%Z; auto.
Qed.
Lemma f_of_Z_sign z : (0 <= z)%Z -> f_of_Z z = S754_nan \/ sign_bit (f_of_Z z) = false.
Proof.
  intros H. destruct z as [|q|q]; [right; reflexivity| |lia]. unfold f_of_Z, binary_normalize, binary_round.
  destruct (shl_align _ _ _) as [mz ez]. apply (round_sign false).
Qed.
Lemma nonneg_not_below x y : (x = S754_nan \/ sign_bit x = false) -> (y = S754_nan \/ sign_bit y = false) ->
  f_lt x (f_neg y) = false.
Proof.
  intros [->|Hx] [->|Hy]; try reflexivity; try (destruct x; reflexivity).
  unfold f_lt, SFltb, f_neg, SFopp. destruct x as [sx|sx| |sx mx ex], y as [sy|sy| |sy my ey]; cbn in *; subst; try reflexivity; destruct sx; try reflexivity; discriminate.
Qed.
Lemma al_floor_ok p n l stdp n' b : ap_sat p = true -> al_step stdp p n l = Ret (n', b) ->
  f_lt (a_pot n') (al_floor p) = false.
Proof.
  intros Hs H. unfold al_step, neuron_step in H.
  destruct (impacts al_impact (al_prestep stdp p n) l) as [n1| |]; cbn [obind] in H; try discriminate.
  injection H as <- _. unfold al_post. cbn [a_pot]. rewrite Hs.
  match goal with |- context [f_le ?x (al_floor p) && negb ?w] => set (pot1 := x); destruct w eqn:W end.
  - cbn [negb]. rewrite andb_false_r. apply andb_true_iff in W as [Wo Wr]. subst pot1. rewrite Wo, Wr.
    unfold al_floor. apply nonneg_not_below; apply f_of_Z_sign; lia.
  - cbn [negb]. rewrite andb_true_r. destruct (f_le pot1 (al_floor p)) eqn:F; [apply f_lt_irrefl|].
    destruct (f_lt pot1 (al_floor p)) eqn:F2; [|reflexivity]. apply f_lt_le in F2. congruence.
Qed.
(** impacts that are not blocking leave the timer alone *)
Lemma al_impacts_eq : forall l n, al_legal l -> exists n', impacts al_impact n l = Ret n' /\ a_time n' = a_time n /\
  a_pot n' = f_drive (a_pot n) l.
Proof.
  induction l as [|i l IH]; intros n Hl; cbn [impacts]; [eauto|]. inversion Hl as [|? ? [H1 H1'] H2]; subst.
  unfold f_drive. cbn [fold_left]. unfold is_blocking in H1'. unfold al_impact at 1.
  destruct (i_type i); try contradiction; try discriminate; cbn [obind];
  match goal with |- context [impacts al_impact ?m l] => destruct (IH m H2) as (n' & E & Et & Ep) end;
  exists n'; cbn in *; auto.
Qed.
Lemma al_time_pos t : (int64_min <= t <= int64_max)%Z -> ((al_next_time t >? 0)%Z = true <-> (-1 <= t)%Z).
Proof.
  unfold al_next_time, int64_min, int64_max. intros H.
  destruct (Z.gtb_spec t 0), (Z.ltb_spec t 0); try lia;
  repeat match goal with |- context [(?a =? 0)%Z] => destruct (Z.eqb_spec a 0) end; try lia.
Qed.
Lemma al_step_eq stdp p n l : al_legal l -> (int64_min <= a_time n <= int64_max)%Z ->
  exists n' b, al_step stdp p n l = Ret (n', b) /\
    (b = true <-> (-1 <= a_time n)%Z /\
       f_ge (d_of_f (al_leak p (f_drive (a_pot (al_prestep stdp p n)) l))) (al_threshold p) = true) /\
    a_time n' = al_next_time (a_time n).
Proof.
  intros Hl Ht. unfold al_step, neuron_step.
  destruct (al_impacts_eq l (al_prestep stdp p n) Hl) as (n1 & -> & Et & Ep). cbn [obind].
  eexists _, _. split; [reflexivity|]. unfold al_post. cbn [fst snd a_time]. rewrite Et, Ep. cbn [al_prestep a_time].
  split; [|reflexivity]. rewrite andb_true_iff, al_time_pos by exact Ht. tauto.
Qed.
Lemma al_next_range t : (int64_min <= t <= int64_max)%Z -> (int64_min <= al_next_time t <= int64_max)%Z.
Proof.
  unfold al_next_time, int64_min, int64_max. intros H.
  destruct (Z.gtb_spec t 0), (Z.ltb_spec t 0); try lia;
  repeat match goal with |- context [(?a =? 0)%Z] => destruct (Z.eqb_spec a 0) end; try lia.
Qed.
(** silent while the timer is below -1 *)
Lemma al_silent stdp p : forall ls n k, Forall al_legal ls -> a_time n = (- k)%Z -> (1 <= k <= int64_max)%Z ->
  (Z.of_nat (length ls) < k)%Z ->
  exists n' bs, al_run stdp p n ls = Ret (n', bs) /\ Forall (fun b => b = false) bs /\ length bs = length ls /\
    a_time n' = (- (k - Z.of_nat (length ls)))%Z.
Proof.
  induction ls as [|l ls IH]; intros n k Hl Ht Hk Hlen; cbn [length] in *.
  - exists n, []. cbn. repeat split; auto. lia.
  - inversion Hl as [|? ? H1 H2]; subst.
    assert (Hr : (int64_min <= a_time n <= int64_max)%Z) by (unfold int64_min, int64_max in *; lia).
    destruct (al_step_eq stdp p n l H1 Hr) as (m & b & E & Hb & Hm).
    assert (Hm' : a_time m = (- (k - 1))%Z).
    { rewrite Hm, Ht. unfold al_next_time. destruct (Z.gtb_spec (- k) 0), (Z.ltb_spec (- k) 0); try lia.
      destruct (Z.eqb_spec (- k + 1) 0); lia. }
    destruct (IH m (k - 1)%Z H2 Hm' ltac:(lia) ltac:(lia)) as (n' & bs & R & Hf & Hl' & Hn).
    exists n', (b :: bs). unfold al_run in *. cbn [neuron_run]. fold (al_step stdp p). rewrite E. cbn [obind fst snd].
    rewrite R. cbn [obind fst snd]. repeat split; auto; cbn [length]; [|lia|lia].
    constructor; [|exact Hf]. destruct b; [|reflexivity]. exfalso. destruct (proj1 Hb eq_refl) as [X _]. lia.
Qed.
(** a blocking impact of value z on a neuron whose timer is not negative *)
Lemma al_block_arrival n i z : is_blocking i = true -> sign_bit (i_value i) = true -> to_int64 (i_value i) = Ret z ->
  (0 <= a_time n)%Z -> al_impact n i = Ret (mkAl (a_pot n) (a_pre n) z (a_dopa n)).
Proof.
  intros Hb Hs Hz Ht. unfold al_impact, is_blocking in *. destruct (i_type i); try discriminate.
  destruct (Z.ltb_spec (a_time n) 0); [lia|]. rewrite Hs, Hz. reflexivity.
Qed.

Lemma al_silent_from_impact stdp p n l1 i l2 ls k :
  al_legal l1 -> al_legal l2 -> Forall al_legal ls -> (0 <= a_time n <= int64_max)%Z ->
  is_blocking i = true -> sign_bit (i_value i) = true -> to_int64 (i_value i) = Ret (- k)%Z -> (2 <= k <= int64_max)%Z ->
  (Z.of_nat (S (length ls)) < k)%Z ->
  exists n' bs, al_run stdp p n ((l1 ++ i :: l2) :: ls) = Ret (n', bs) /\ Forall (fun b => b = false) bs /\
    length bs = S (length ls) /\ a_time n' = (- (k - Z.of_nat (S (length ls))))%Z.
Proof.
  intros H1 H2 Hls Ht Hb Hs Hz Hk Hlen.
  assert (E : exists m, al_step stdp p n (l1 ++ i :: l2) = Ret (m, false) /\ a_time m = (- (k - 1))%Z).
  { unfold al_step, neuron_step. rewrite impacts_app.
    destruct (al_impacts_eq l1 (al_prestep stdp p n) H1) as (n1 & -> & Et & _). cbn [obind impacts].
    rewrite (al_block_arrival n1 i (- k)%Z Hb Hs Hz); [|rewrite Et; cbn [al_prestep a_time]; lia]. cbn [obind].
    match goal with |- context [impacts al_impact ?q l2] => destruct (al_impacts_eq l2 q H2) as (n2 & -> & Et2 & _) end.
    cbn [obind a_time] in *.
    assert (T : al_next_time (a_time n2) = (- (k - 1))%Z).
    { rewrite Et2. unfold al_next_time. destruct (Z.gtb_spec (- k) 0), (Z.ltb_spec (- k) 0); try lia.
      destruct (Z.eqb_spec (- k + 1) 0); lia. }
    exists (fst (al_post p n2)). unfold al_post. cbn zeta. cbn [fst a_time]. rewrite T. split; [|reflexivity].
    destruct (Z.gtb_spec (- (k - 1)) 0); [lia|]. rewrite andb_false_r. reflexivity. }
  destruct E as (m & E & Em).
  destruct (al_silent stdp p ls m (k - 1)%Z Hls Em) as (n' & bs & R & Hf & Hl & Hn); [lia|lia|].
  exists n', (false :: bs). unfold al_run in *. cbn [neuron_run]. fold (al_step stdp p). rewrite E. cbn [obind fst snd].
  rewrite R. cbn [obind fst snd]. repeat split; auto; cbn [length]; lia.
Qed.

(** Runs, cut at one step. *)
Lemma neuron_run_cut {A} (pre : A -> A) imp post : forall ls n n' bs i b,
  neuron_run pre imp post n ls = Ret (n', bs) -> nth_error bs i = Some b ->
  exists ls1 l ls2 n1 m bs1 bs2, ls = ls1 ++ l :: ls2 /\ length ls1 = i /\ length bs1 = i /\ bs = bs1 ++ b :: bs2 /\
    neuron_run pre imp post n ls1 = Ret (n1, bs1) /\ neuron_step pre imp post n1 l = Ret (m, b) /\
    neuron_run pre imp post m ls2 = Ret (n', bs2).
Proof.
  induction ls as [|l ls IH]; intros n n' bs i b H Hi; cbn [neuron_run] in H.
  - injection H as <- <-. destruct i; discriminate.
  - destruct (neuron_step pre imp post n l) as [[m b0]| |] eqn:E; cbn [obind fst snd] in H; try discriminate.
    destruct (neuron_run pre imp post m ls) as [[n2 bs']| |] eqn:E2; cbn [obind fst snd] in H; try discriminate.
    injection H as <- <-. destruct i as [|i]; cbn [nth_error] in Hi.
    + injection Hi as <-. exists [], l, ls, n, m, [], bs'. repeat split; auto.
    + destruct (IH m n2 bs' i b E2 Hi) as (ls1 & l' & ls2 & n1 & m' & bs1 & bs2 & -> & L1 & L2 & -> & R1 & R2 & R3).
      exists (l :: ls1), l', ls2, n1, m', (b0 :: bs1), bs2. cbn [length app neuron_run]. rewrite E. cbn [obind fst snd].
      rewrite R1. cbn [obind fst snd]. repeat split; auto.
Qed.
Lemma neuron_run_length {A} (pre : A -> A) imp post : forall ls n n' bs,
  neuron_run pre imp post n ls = Ret (n', bs) -> length bs = length ls.
Proof.
  induction ls as [|l ls IH]; intros n n' bs H; cbn [neuron_run] in H; [now injection H as <- <-|].
  destruct (neuron_step pre imp post n l) as [[m b0]| |]; cbn [obind fst snd] in H; try discriminate.
  destruct (neuron_run pre imp post m ls) as [[n2 bs']| |] eqn:E2; cbn [obind fst snd] in H; try discriminate.
  injection H as <- <-. cbn. f_equal. eapply IH. exact E2.
Qed.
Lemma lif_silence p ls n n' bs i j : Forall currents_only ls -> lif_run p n ls = Ret (n', bs) ->
  nth_error bs i = Some true -> i < j -> (N.of_nat (j - i) <= lp_period p)%N -> j < length bs -> nth_error bs j = Some false.
Proof.
  intros HF H Hi Hij Hd Hj. pose proof (neuron_run_length _ _ _ _ _ _ _ H) as HL.
  destruct (neuron_run_cut _ _ _ _ _ _ _ _ _ H Hi) as (ls1 & l & ls2 & n1 & m & bs1 & bs2 & -> & L1 & L2 & -> & R1 & R2 & R3).
  apply Forall_app in HF as [HF1 HF2]. inversion HF2 as [|? ? Hl HF3]; subst.
  destruct (lif_spike_iff p n1 l m true Hl R2) as (_ & K & _). destruct (K eq_refl) as [_ Kc].
  set (d := j - length ls1 - 1).
  rewrite nth_error_app2 by lia. replace (j - length bs1) with (S d) by (unfold d; lia). cbn [nth_error].
  destruct (nth_error bs2 d) as [b|] eqn:Eb.
  2: { apply nth_error_None in Eb. rewrite app_length in Hj. cbn in Hj. unfold d in Eb. lia. }
  pose proof (neuron_run_length _ _ _ _ _ _ _ R3) as HL2.
  destruct (neuron_run_cut _ _ _ _ _ _ _ _ _ R3 Eb) as (a & l' & c & q & r & bs3 & bs4 & -> & A1 & A2 & -> & B1 & B2 & B3).
  apply Forall_app in HF3 as [HF4 HF5]. inversion HF5 as [|? ? Hl' HF6]; subst.
  destruct (lif_refractory p a m HF4) as (m' & bs' & E & _ & _ & _ & Ec); [rewrite Kc, A1; unfold d; lia|].
  unfold lif_run in E. rewrite B1 in E. injection E as <- <-.
  destruct b; [|reflexivity]. destruct (lif_spike_iff p q l' r true Hl' B2) as (K2 & _).
  destruct (proj1 K2 eq_refl) as [Z _]. rewrite Ec, Kc, A1 in Z. unfold d in Z. lia.
Qed.
