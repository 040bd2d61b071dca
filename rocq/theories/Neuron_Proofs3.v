(** Order of impacts. *)
From Verif Require Import Base FloatInt ListLemmas Messaging_Model Delta_Model Delta_Spec Delta_Proofs Delta_Proofs2
  Neuron_Model Neuron_Spec Neuron_Proofs Neuron_Proofs2.

Lemma addressed_perm i l l' : Permutation l l' -> Permutation (addressed i l) (addressed i l').
Proof. intros H. now apply perm_filter. Qed.

Section Order.
Context {A : Type}.
Variables (pre : A -> A) (imp : A -> impact -> outcome A) (post : A -> A * bool).
(** The result for every neuron does not depend on the order of its impacts. *)
Definition insensitive (ns : list A) (l : list impact) : Prop :=
  forall i n l', nth_error ns i = Some n -> Permutation (addressed i l) l' ->
    impacts imp (pre n) l' = impacts imp (pre n) (addressed i l).
Lemma population_order u step ms ms' ns r : insensitive ns (impacts_of ms) ->
  Permutation (impacts_of ms) (impacts_of ms') ->
  population_step pre imp post u step ms ns = Ret r -> population_step pre imp post u step ms' ns = Ret r.
Proof.
  intros Hi Hp H. destruct r as [[ns' m] s]. apply population_step_spec in H as (HF & rs & Hl & Hr & -> & -> & ->).
  apply population_step_spec. split; [eapply Permutation_Forall; [exact Hp|exact HF]|].
  exists rs. split; [exact Hl|]. split; [|auto]. intros i n Hn. destruct (Hr i n Hn) as (r & E1 & E2). exists r. split; [exact E1|].
  rewrite <- E2. unfold neuron_step. rewrite (Hi i n (addressed i (impacts_of ms')) Hn); [reflexivity|]. now apply addressed_perm.
Qed.
Lemma single_impacts_insensitive ns l : (forall i, length (addressed i l) <= 1) -> insensitive ns l.
Proof.
  intros H i n l' Hn Hp. specialize (H i). destruct (addressed i l) as [|x [|y t]]; cbn in H; try lia.
  - apply Permutation_nil in Hp. now subst.
  - apply Permutation_length_1_inv in Hp. now subst.
Qed.
Lemma commuting_impacts : (forall n a b, obind (imp n a) (fun m => imp m b) = obind (imp n b) (fun m => imp m a)) ->
  forall l l', Permutation l l' -> forall n, impacts imp n l = impacts imp n l'.
Proof.
  intros C l l' H. induction H as [|x l l' H IH|x y l|l1 l2 l3 H1 IH1 H2 IH2]; intros n; cbn [impacts].
  - reflexivity.
  - destruct (imp n x); cbn [obind]; auto.
  - specialize (C n y x). destruct (imp n y) as [a| |], (imp n x) as [b| |]; cbn [obind] in *;
      try (rewrite <- C; reflexivity); try (rewrite C; reflexivity); try reflexivity; try discriminate.
    all: try (destruct (imp a x); cbn [obind] in *; try discriminate; reflexivity).
    all: try (destruct (imp b y); cbn [obind] in *; try discriminate; reflexivity).
  - now rewrite IH1.
Qed.
End Order.

(** ** Integer currents *)
Definition abs_sum (val : impact -> Z) (l : list impact) : Z := fold_right (fun i s => Z.abs (val i) + s)%Z 0%Z l.
Definition signed (val : impact -> Z) (i : impact) : Z := match i_type i with EXCITATORY => val i | _ => (- val i)%Z end.
Definition net (val : impact -> Z) (l : list impact) : Z := fold_right (fun i s => signed val i + s)%Z 0%Z l.
Lemma abs_sum_nonneg val l : (0 <= abs_sum val l)%Z.
Proof. induction l as [|i l IH]; cbn; [lia|]. unfold abs_sum in *. lia. Qed.
Lemma signed_abs val i : Z.abs (signed val i) = Z.abs (val i).
Proof. unfold signed. destruct (i_type i); lia. Qed.
Lemma net_perm val l l' : Permutation l l' -> net val l = net val l'.
Proof. induction 1; unfold net in *; cbn in *; lia. Qed.
Lemma abs_sum_perm val l l' : Permutation l l' -> abs_sum val l = abs_sum val l'.
Proof. induction 1; unfold abs_sum in *; cbn in *; lia. Qed.
Lemma integer_currents_perm val bound base l l' : Permutation l l' -> integer_currents val bound base l -> integer_currents val bound base l'.
Proof.
  intros H (H1 & H2 & H3). split; [|split].
  - eapply Permutation_Forall; eauto.
  - eapply Permutation_Forall; eauto.
  - pose proof (abs_sum_perm val l l' H) as E. unfold abs_sum in E. rewrite <- E. exact H3.
Qed.
Lemma f_drive_int val : forall l base, integer_currents val (2 ^ 24) base l -> f_drive (f_of_Z base) l = f_of_Z (base + net val l).
Proof.
  induction l as [|i l IH]; intros base (H1 & H2 & H3).
  - cbn. now rewrite Z.add_0_r.
  - inversion H1 as [|? ? C1 C2]; subst. inversion H2 as [|? ? V1 V2]; subst. cbn [fold_right] in H3.
    fold (abs_sum val l) in H3. pose proof (abs_sum_nonneg val l). pose proof (signed_abs val i) as Sa.
    unfold f_drive. cbn [fold_left].
    assert (E : match i_type i with EXCITATORY => f_add (f_of_Z base) (i_value i) | INHIBITORY_CURRENT => f_sub (f_of_Z base) (i_value i) | _ => f_of_Z base end
                = f_of_Z (base + signed val i)).
    { rewrite V1. unfold is_current, signed in *. destruct (i_type i); try discriminate.
      - apply f_add_int; lia.
      - rewrite f_sub_int by lia. reflexivity. }
    rewrite E. change (fold_left _ l ?x) with (f_drive x l). rewrite IH.
    + unfold net. cbn [fold_right]. now rewrite Z.add_assoc.
    + split; [exact C2|]. split; [exact V2|]. fold (abs_sum val l). lia.
Qed.
Lemma d_of_f_int z : (Z.abs z < 2 ^ 24)%Z -> d_of_f (f_of_Z z) = d_of_Z z.
Proof.
  intros H. destruct (Z.eq_dec z 0) as [->|Hn]; [reflexivity|]. rewrite f_of_Z_of, d_of_Z_of.
  destruct (of_Z_shape 24 128 ltac:(lia) ltac:(lia) ltac:(lia) z Hn H) as (s & c & j & -> & E). cbn [d_of_f].
  rewrite <- (normalize_int 53 1024 ltac:(lia) ltac:(lia) ltac:(lia) z j) by lia.
  replace (z * 2 ^ Z.of_nat j)%Z with (if s then Zneg (sh j c) else Zpos (sh j c)).
  - unfold binary_normalize. destruct s; reflexivity.
  - rewrite E. destruct s; cbn [cond_Zopp]; [|apply sh_Z]. rewrite Z.mul_opp_l, <- sh_Z. reflexivity.
Qed.
Lemma d_drive_int val : forall l base, integer_currents val (2 ^ 53) base l -> Forall (fun i => (Z.abs (val i) < 2 ^ 24)%Z) l ->
  d_drive (d_of_Z base) l = d_of_Z (base + net val l).
Proof.
  induction l as [|i l IH]; intros base (H1 & H2 & H3) H4.
  - cbn. now rewrite Z.add_0_r.
  - inversion H1 as [|? ? C1 C2]; subst. inversion H2 as [|? ? V1 V2]; subst. inversion H4 as [|? ? S1 S2]; subst. cbn [fold_right] in H3.
    fold (abs_sum val l) in H3. pose proof (abs_sum_nonneg val l). pose proof (signed_abs val i) as Sa.
    unfold d_drive. cbn [fold_left].
    assert (E : match i_type i with EXCITATORY => d_add (d_of_Z base) (d_of_f (i_value i)) | INHIBITORY_CURRENT => d_sub (d_of_Z base) (d_of_f (i_value i)) | _ => d_of_Z base end
                = d_of_Z (base + signed val i)).
    { rewrite V1, d_of_f_int by exact S1. unfold is_current, signed in *. destruct (i_type i); try discriminate.
      - apply d_add_int; lia.
      - rewrite d_sub_int by lia. reflexivity. }
    rewrite E. change (fold_left _ l ?x) with (d_drive x l). rewrite IH.
    + unfold net. cbn [fold_right]. now rewrite Z.add_assoc.
    + split; [exact C2|]. split; [exact V2|]. fold (abs_sum val l). lia.
    + exact S2.
Qed.

(** LIF: every neuron is refractory or has an integer potential before the impacts. *)
Lemma lif_int_insensitive p val ns l :
  (forall i n, nth_error ns i = Some n -> currents_only (addressed i l) /\
     (l_cnt n <> 0%N \/ exists base, l_pot (lif_pre p n) = f_of_Z base /\ integer_currents val (2 ^ 24) base (addressed i l))) ->
  insensitive (lif_pre p) lif_impact ns l.
Proof.
  intros H i n l' Hn Hp. destruct (H i n Hn) as [Hc Hi].
  assert (Hc' : currents_only l') by (eapply Permutation_Forall; eauto).
  assert (Ec : l_cnt (lif_pre p n) = l_cnt n) by (unfold lif_pre; destruct (N.eqb (l_cnt n) 0); reflexivity).
  destruct (N.eq_dec (l_cnt n) 0) as [E|E].
  - destruct Hi as [Hi|(base & Hb & Hi)]; [contradiction|].
    rewrite !lif_impacts_free by (auto; congruence). rewrite Hb.
    rewrite (f_drive_int val _ _ Hi), (f_drive_int val _ _ (integer_currents_perm _ _ _ _ _ Hp Hi)).
    now rewrite (net_perm val _ _ Hp).
  - rewrite !lif_impacts_refractory by (auto; congruence). reflexivity.
Qed.
Lemma bl_impacts_currents_only : forall l n, currents_only l -> impacts bl_impact n l =
  Ret (mkBl (b_since n) (b_dyn n) (b_trace n) (b_inh n) (d_drive (b_pot n) l) (b_pre n) (b_phase n) (b_block n) (b_dopa n)).
Proof.
  induction l as [|i l IH]; intros n H; cbn [impacts]; [destruct n; reflexivity|].
  inversion H as [|? ? C1 C2]; subst. unfold d_drive. cbn [fold_left]. unfold is_current in C1. unfold bl_impact at 1.
  destruct (i_type i); try discriminate; cbn [obind]; rewrite IH by exact C2; reflexivity.
Qed.
Lemma bl_int_insensitive stdp p val ns l :
  (forall i n, nth_error ns i = Some n -> exists base, b_pot (bl_prestep stdp p n) = d_of_Z base /\
     integer_currents val (2 ^ 53) base (addressed i l) /\ Forall (fun x => (Z.abs (val x) < 2 ^ 24)%Z) (addressed i l)) ->
  insensitive (bl_prestep stdp p) bl_impact ns l.
Proof.
  intros H i n l' Hn Hp. destruct (H i n Hn) as (base & Hb & Hi & Hs).
  pose proof (integer_currents_perm _ _ _ _ _ Hp Hi) as Hi'.
  assert (Hs' : Forall (fun x => (Z.abs (val x) < 2 ^ 24)%Z) l') by (eapply Permutation_Forall; eauto).
  rewrite !bl_impacts_currents_only by (apply Hi || apply Hi'). rewrite Hb.
  rewrite (d_drive_int val _ _ Hi Hs), (d_drive_int val _ _ Hi' Hs'). now rewrite (net_perm val _ _ Hp).
Qed.
Lemma al_impacts_currents_only : forall l n, currents_only l -> impacts al_impact n l =
  Ret (mkAl (f_drive (a_pot n) l) (a_pre n) (a_time n) (a_dopa n)).
Proof.
  induction l as [|i l IH]; intros n H; cbn [impacts]; [destruct n; reflexivity|].
  inversion H as [|? ? C1 C2]; subst. unfold f_drive. cbn [fold_left]. unfold is_current in C1. unfold al_impact at 1.
  destruct (i_type i); try discriminate; cbn [obind]; rewrite IH by exact C2; reflexivity.
Qed.
Lemma al_int_insensitive stdp p val ns l :
  (forall i n, nth_error ns i = Some n -> exists base, a_pot (al_prestep stdp p n) = f_of_Z base /\
     integer_currents val (2 ^ 24) base (addressed i l)) ->
  insensitive (al_prestep stdp p) al_impact ns l.
Proof.
  intros H i n l' Hn Hp. destruct (H i n Hn) as (base & Hb & Hi).
  pose proof (integer_currents_perm _ _ _ _ _ Hp Hi) as Hi'.
  rewrite !al_impacts_currents_only by (apply Hi || apply Hi'). rewrite Hb.
  rewrite (f_drive_int val _ _ Hi), (f_drive_int val _ _ Hi'). now rewrite (net_perm val _ _ Hp).
Qed.

(** ** Bursting with period 1 *)
Lemma bl_silent_phase0 p : forall ls n n' bs, b_phase n = 0%N -> bl_run false p n ls = Ret (n', bs) -> Forall (fun b => b = false) bs ->
  b_phase n' = 0%N.
Proof.
  induction ls as [|l ls IH]; intros n n' bs Hn H Hb; unfold bl_run in H; cbn [neuron_run] in H; [now injection H as <- <-|].
  fold (bl_step false p) in H. destruct (bl_step false p n l) as [[m b]| |] eqn:E; cbn [obind fst snd] in H; try discriminate.
  fold (bl_run false p) in H. destruct (bl_run false p m ls) as [[q bs']| |] eqn:E2; cbn [obind fst snd] in H; try discriminate.
  injection H as <- <-. inversion Hb as [|? ? B1 B2]; subst. apply (IH m q bs'); auto.
  destruct (bl_step_fields _ _ _ _ _ _ E) as (_ & K & _). rewrite (proj2 (K eq_refl)). unfold bl_prestep. rewrite Hn.
  reflexivity.
Qed.
Lemma bl_pot_phase stdp p n : b_pot (bl_prestep stdp p n) =
  if N.eqb (b_phase n) 1 then d_add (d_mul (b_pot n) (bp_pot_decay p)) (bp_reflex p) else d_mul (b_pot n) (bp_pot_decay p).
Proof. unfold bl_prestep. destruct (N.eqb (b_phase n) 1); reflexivity. Qed.
Lemma bl_burst_one p n l n1 : bp_burst p = 1%N -> bl_step false p n l = Ret (n1, true) ->
  b_pot (bl_prestep false p n1) = d_add (d_mul (b_pot n1) (bp_pot_decay p)) (bp_reflex p) /\
  forall l2 n2, bl_step false p n1 l2 = Ret (n2, false) ->
  forall ls n3 bs, bl_run false p n2 ls = Ret (n3, bs) -> Forall (fun b => b = false) bs ->
    b_pot (bl_prestep false p n3) = d_mul (b_pot n3) (bp_pot_decay p).
Proof.
  intros Hb H. destruct (bl_step_fields _ _ _ _ _ _ H) as (K & _). destruct (K eq_refl) as (_ & _ & Kp). rewrite Hb in Kp.
  split; [rewrite bl_pot_phase, Kp; reflexivity|]. intros l2 n2 H2 ls n3 bs H3 Hf.
  destruct (bl_step_fields _ _ _ _ _ _ H2) as (_ & K2 & _). destruct (K2 eq_refl) as [_ Kp2].
  assert (E0 : b_phase n2 = 0%N) by (rewrite Kp2; unfold bl_prestep; rewrite Kp; reflexivity).
  rewrite bl_pot_phase, (bl_silent_phase0 p ls n2 n3 bs E0 H3 Hf). reflexivity.
Qed.
Lemma bl_stdp_phase p : forall ls n n' bs, b_phase n = 1%N -> bl_run true p n ls = Ret (n', bs) -> Forall (fun b => b = false) bs ->
  b_phase n' = 1%N.
Proof.
  induction ls as [|l ls IH]; intros n n' bs Hn H Hb; unfold bl_run in H; cbn [neuron_run] in H; [now injection H as <- <-|].
  fold (bl_step true p) in H. destruct (bl_step true p n l) as [[m b]| |] eqn:E; cbn [obind fst snd] in H; try discriminate.
  fold (bl_run true p) in H. destruct (bl_run true p m ls) as [[q bs']| |] eqn:E2; cbn [obind fst snd] in H; try discriminate.
  injection H as <- <-. inversion Hb as [|? ? B1 B2]; subst. apply (IH m q bs'); auto.
  destruct (bl_step_fields _ _ _ _ _ _ E) as (_ & K & _). rewrite (proj2 (K eq_refl)). unfold bl_prestep. rewrite Hn.
  reflexivity.
Qed.

(** ** Two schedules of the multi-threaded projections *)
Lemma same_message_trans a b c : same_message b a -> same_message b c -> same_message a c.
Proof.
  destruct a, b, c; cbn; try tauto. intros (-> & -> & -> & P1) (<- & <- & <- & P2). repeat split. rewrite <- P1. exact P2.
Qed.
Lemma same_outputs_trans o a b : Forall2 same_output o a -> Forall2 same_output o b -> Forall2 same_output a b.
Proof.
  intros H. revert b. induction H as [|x y o a H1 H2 IH]; intros b Hb; inversion Hb as [|? z ? b' H3 H4]; subst; constructor; auto.
  destruct x, y, z; cbn in *; try tauto. eapply same_message_trans; eauto.
Qed.
Lemma positions_spec bs i : In i (positions bs) <-> nth_error bs i = Some true.
Proof.
  unfold positions. rewrite filter_In, in_seq. split.
  - intros [H1 H2]. destruct (nth_error bs i) as [b|] eqn:E; [|apply nth_error_None in E; lia].
    rewrite (nth_error_nth _ _ _ E) in H2. now subst.
  - intros H. split; [|now apply nth_error_nth]. assert (i < length bs) by (apply nth_error_Some; congruence). lia.
Qed.
From Coq Require Import Sorted.
Lemma seq_sorted n : forall k, StronglySorted lt (seq k n).
Proof.
  induction n as [|n IH]; intros k; cbn; constructor; [apply IH|]. apply Forall_forall. intros x Hx. apply in_seq in Hx. lia.
Qed.
Lemma filter_sorted (f : nat -> bool) l : StronglySorted lt l -> StronglySorted lt (filter f l).
Proof.
  induction 1 as [|x l H IH Hx]; cbn; [constructor|]. destruct (f x); [|exact IH]. constructor; [exact IH|].
  apply Forall_forall. intros y Hy. apply filter_In in Hy as [Hy _]. rewrite Forall_forall in Hx. auto.
Qed.
Lemma positions_sorted bs : StronglySorted lt (positions bs).
Proof. apply filter_sorted, seq_sorted. Qed.
Lemma message_small u step idx n : Forall (fun i => i < n) idx -> (N.of_nat n <= two32)%N ->
  message_of u step idx = SpikeMsg u step (map N.of_nat idx).
Proof.
  intros H Hn. unfold message_of. f_equal. apply map_ext_in. intros i Hi. rewrite Forall_forall in H. specialize (H i Hi).
  unfold w32. apply N.mod_small. lia.
Qed.
Lemma population_step_observed {A} (pre : A -> A) imp post u step ms ns : (N.of_nat (length ns) <= two32)%N ->
  forall ns' m sent, population_step pre imp post u step ms ns = Ret (ns', m, sent) <->
  Forall (fun x => (i_post x < N.of_nat (length ns))%N) (impacts_of ms) /\
  exists rs idx, length rs = length ns /\
    (forall i n, nth_error ns i = Some n ->
       exists r, nth_error rs i = Some r /\ neuron_step pre imp post n (addressed i (impacts_of ms)) = Ret r) /\
    ns' = map fst rs /\
    StronglySorted lt idx /\ (forall i, In i idx <-> exists n', nth_error rs i = Some (n', true)) /\
    m = SpikeMsg u step (map N.of_nat idx) /\ sent = (match idx with [] => None | _ => Some m end).
Proof.
  intros Hn ns' m sent. rewrite population_step_spec.
  assert (B : forall rs : list (A * bool), length rs = length ns -> message_of u step (positions (map snd rs)) = SpikeMsg u step (map N.of_nat (positions (map snd rs)))).
  { intros rs Hl. apply (message_small u step _ (length ns)); [|exact Hn]. apply Forall_forall. intros i Hi. apply positions_spec in Hi.
    assert (i < length (map snd rs)) by (apply nth_error_Some; congruence). rewrite map_length in *. lia. }
  assert (P : forall (rs : list (A * bool)) i, In i (positions (map snd rs)) <-> exists n', nth_error rs i = Some (n', true)).
  { intros rs i. rewrite positions_spec, nth_error_map. destruct (nth_error rs i) as [[x b]|]; cbn.
    - split; [intros [= ->]; eauto|intros (n' & [= _ ->]); reflexivity].
    - split; [discriminate|intros (n' & ?); discriminate]. }
  split.
  - intros (HF & rs & Hl & Hr & -> & -> & ->). split.
    + eapply Forall_impl; [|exact HF]. intros x Hx. cbn beta in *. lia.
    + exists rs, (positions (map snd rs)). split; [exact Hl|]. split; [exact Hr|]. split; [reflexivity|].
      split; [apply positions_sorted|]. split; [apply P|]. split; [now apply B|].
      unfold sent_of. destruct (positions (map snd rs)); reflexivity.
  - intros (HF & rs & idx & Hl & Hr & -> & Hs & Hi & -> & ->). split.
    + eapply Forall_impl; [|exact HF]. intros x Hx. cbn beta in *. lia.
    + assert (E : idx = positions (map snd rs)).
      { assert (G : forall l1 l2, StronglySorted lt l1 -> StronglySorted lt l2 -> (forall i, In i l1 <-> In i l2) -> l1 = l2).
        { clear. induction l1 as [|a l1 IH]; intros [|b l2] S1 S2 HI; auto.
          - exfalso. apply (HI b). now left.
          - exfalso. apply (HI a). now left.
          - inversion S1 as [|? ? S1' F1]; subst. inversion S2 as [|? ? S2' F2]; subst. rewrite Forall_forall in F1, F2.
            assert (a = b).
            { destruct (proj1 (HI a) (or_introl eq_refl)) as [|Ha]; [auto|]. destruct (proj2 (HI b) (or_introl eq_refl)) as [|Hb]; [auto|].
              specialize (F1 b Hb). specialize (F2 a Ha). lia. }
            subst b. f_equal. apply IH; auto. intros i. split; intros Hin.
            + destruct (proj1 (HI i) (or_intror Hin)) as [<-|]; [|assumption]. specialize (F1 _ Hin). lia.
            + destruct (proj2 (HI i) (or_intror Hin)) as [<-|]; [|assumption]. specialize (F2 _ Hin). lia. }
        apply G; [exact Hs|apply positions_sorted|]. intros i. now rewrite Hi, P. }
      exists rs. split; [exact Hl|]. split; [exact Hr|]. split; [reflexivity|]. subst idx. split; [symmetry; now apply B|].
      unfold sent_of. destruct (positions (map snd rs)); reflexivity.
Qed.
