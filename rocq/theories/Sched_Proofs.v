(** Proofs about the order of training tasks. *)
From Verif Require Import Base ListLemmas Messaging_Model Messaging_Spec Projection_Model Projection_Spec Projection_Proofs
  Delta_Model Delta_Spec Delta_Proofs Neuron_Model Pipeline_Model Pipeline_Spec Pipeline_Proofs Pipeline_Proofs2
  Stdp_Model Additive_Model Additive_Spec Additive_Proofs Train_Model Train_Proofs Net_Model Net_Spec Net_Proofs Net_Proofs2 Net_Proofs3 Net_Proofs4 Net_Proofs5 Sched_Model.

(** ** Slices determine the synapses *)
Lemma concat_eq {A} : forall ls ls' : list (list A), map (@length A) ls = map (@length A) ls' -> concat ls = concat ls' -> ls = ls'.
Proof.
  induction ls as [|l ls IH]; intros [|l' ls'] E H; cbn [map concat] in *; try discriminate; [reflexivity|].
  injection E as E1 E2.
  assert (l = l' /\ concat ls = concat ls') as [-> Hc].
  { clear -E1 H. revert l' E1 H. induction l as [|x l IH]; intros [|x' l'] E H; cbn [length app] in *; try discriminate; [auto|].
    injection H as -> H. destruct (IH l') as [-> H2]; [lia|exact H|]. auto. }
  now rewrite (IH ls' E2 Hc).
Qed.
Lemma works_determined (ps ps' : list rproj) : map ends ps = map ends ps' -> (forall n, slice n ps = slice n ps') -> map p_syn ps = map p_syn ps'.
Proof.
  intros He H. apply concat_eq.
  - assert (forall l : list rproj, map (@length rsyn) (map p_syn l) = map (@length (N * N)) (map ends l)) as Hx.
    { intros l. rewrite !map_map. apply map_ext. intros p. unfold ends. now rewrite map_length. }
    now rewrite !Hx, He.
  - assert (Hl : lends (concat (map p_syn ps)) = lends (concat (map p_syn ps'))).
    { unfold lends. rewrite !concat_map, !map_map. unfold ends in He. now rewrite He. }
    pose proof (slices_all eq _ _ Hl) as H2.
    assert (forall n, Forall2 eq (sl n (concat (map p_syn ps))) (sl n (concat (map p_syn ps')))) as Hs.
    { intros n. specialize (H n). unfold slice, sl in *. rewrite H. clear. induction (map _ _); constructor; auto. }
    specialize (H2 Hs). clear -H2. induction H2 as [|s s' l l' (A & B & C) _ IH]; [reflexivity|]. rewrite IH. f_equal.
    destruct s as [a1 a2 a3], s' as [b1 b2 b3]. cbn [sy_from sy_to sy_params] in *. congruence.
Qed.
Lemma works_ends u us l l' : Forall2 (projs_result us) l l' -> map ends (works u l') = map ends (works u l).
Proof.
  induction 1 as [|w w' t t' [K _] _ IH]; [reflexivity|]. unfold works in *. cbn [flat_map]. rewrite !map_app, IH. f_equal.
  destruct K as (_ & _ & K3 & K4 & _ & K6). unfold working. rewrite K3, K4. destruct (np_kind w) as [| |l0 p0], (np_kind w') as [| |l1 p1]; try contradiction; try reflexivity.
  destruct (_ && _); [|reflexivity]. cbn [map]. f_equal. destruct K6 as [_ K6]. unfold ends. clear -K6. induction K6 as [|s s' a b (A & B & _) _ IH]; cbn [map]; [reflexivity|].
  now rewrite IH, A, B.
Qed.
Lemma determined us projs p1 p2 : Forall2 (projs_result us) projs p1 -> Forall2 (projs_result us) projs p2 ->
  (forall u n, In u us -> incoming u n p1 = incoming u n p2) -> map forget p1 = map forget p2.
Proof.
  intros F1 F2 Hinc.
  assert (Hw : forall u, In u us -> map p_syn (works u p1) = map p_syn (works u p2)).
  { intros u Hu. apply works_determined.
    - rewrite (works_ends u us projs p1 F1), (works_ends u us projs p2 F2). reflexivity.
    - intros n. rewrite <- !works_incoming. now apply Hinc. }
  clear Hinc. revert p2 F2 Hw. induction F1 as [|w w1 t t1 [K1 N1] F1 IH]; intros p2 F2 Hw; inversion F2 as [|? w2 ? t2 [K2 N2] F2']; subst; [reflexivity|].
  cbn [map]. 
  assert (Hlen : forall u, working u w1 = None <-> working u w2 = None).
  { intros u. destruct K1 as (_ & _ & A3 & A4 & _ & A6), K2 as (_ & _ & B3 & B4 & _ & B6). unfold working. rewrite A3, A4, B3, B4.
    destruct (np_kind w), (np_kind w1), (np_kind w2); try contradiction; try tauto. destruct (_ && _); intuition discriminate. }
  assert (Hsplit : forall u, In u us -> match working u w1, working u w2 with Some a, Some b => p_syn a = p_syn b | None, None => True | _, _ => False end /\
                       map p_syn (works u t1) = map p_syn (works u t2)).
  { intros u Hu. specialize (Hw u Hu). specialize (Hlen u). unfold works in Hw. cbn [flat_map] in Hw. fold (works u t1) (works u t2) in Hw.
    destruct (working u w1) eqn:Ea, (working u w2) eqn:Eb.
    - cbn [app map] in Hw. split; [exact (f_equal (hd []) Hw)|exact (f_equal (@tl _) Hw)].
    - exfalso. destruct Hlen as [_ H]. specialize (H eq_refl). discriminate.
    - exfalso. destruct Hlen as [H _]. specialize (H eq_refl). discriminate.
    - auto. }
  rewrite (IH t2 F2') by (intros u Hu; apply Hsplit; exact Hu). f_equal.
  destruct (existsb (fun u => match working u w with Some _ => true | None => false end) us) eqn:Ex.
  - apply existsb_exists in Ex as (u & Hu & Hx). destruct (Hsplit u Hu) as [Hs _]. destruct (working u w) as [p|] eqn:Ew; [|discriminate].
    destruct K1 as (A1 & A2 & A3 & A4 & A5 & A6), K2 as (B1 & B2 & B3 & B4 & B5 & B6). unfold working in Ew, Hs. rewrite A3, A4, B3, B4 in Hs.
    destruct (np_kind w) as [| |l0 p0]; try discriminate. destruct (np_locked w), (N.eqb (np_post w) u); cbn [negb andb] in *; try discriminate.
    unfold forget, np_with. destruct (np_kind w1) as [| |l1 q1]; try contradiction. destruct (np_kind w2) as [| |l2 q2]; try contradiction.
    destruct A6 as [-> _], B6 as [-> _]. unfold no_index. rewrite Hs. congruence.
  - assert (Hnone : Forall (fun u => working u w = None) us).
    { apply Forall_forall. intros u Hu. destruct (working u w) eqn:Ew; [|reflexivity]. exfalso.
      assert (existsb (fun u => match working u w with Some _ => true | None => false end) us = true) as H; [|congruence].
      apply existsb_exists. exists u. rewrite Ew. auto. }
    now rewrite (N1 Hnone), (N2 Hnone).
Qed.

Section Jobs.
Variable pow2f : flt -> flt.
(** ** A list of tasks *)
Definition job_ok (jb : job) : Prop := NoDup (jb_fired jb) /\ Forall (fun i => (i < N.of_nat (size (jb_pop jb)))%N) (jb_fired jb).
Definition job_result (step : N) (projs projs' : list nproj) (jb : job) (a' : npop) : Prop :=
  match jb_pop jb, a' with
  | NPlain x, NPlain x' => x' = x
  | NStdpBlifat l, NStdpBlifat l' => neurons_result pow2f bl_view bl_write (jb_uid jb) step (jb_fired jb) projs projs' l l'
  | NStdpAltai l, NStdpAltai l' => neurons_result pow2f al_view al_write (jb_uid jb) step (jb_fired jb) projs projs' l l'
  | _, _ => False
  end.
Definition job_uids (jobs : list job) : list uid := map jb_uid (filter (fun jb => stdp_pop (jb_pop jb)) jobs).
Lemma finalize_spec step jb projs : kinds_ok projs -> job_ok jb ->
  exists a' projs', finalize pow2f step jb projs = Ret (a', projs') /\ job_result step projs projs' jb a' /\ kinds_ok projs' /\
    Forall2 (projs_result (if stdp_pop (jb_pop jb) then [jb_uid jb] else [])) projs projs' /\
    (forall v n, v <> jb_uid jb -> incoming v n projs' = incoming v n projs).
Proof.
  intros Hk [Hn Hr]. unfold finalize, job_result. destruct (jb_pop jb) as [x|l|l]; cbn [size stdp_pop] in *.
  - exists (NPlain x), projs. split; [reflexivity|]. split; [reflexivity|]. split; [exact Hk|]. split; [|auto].
    clear. induction projs; constructor; auto. split; [apply kept_refl|reflexivity].
  - destruct (stdp_train_spec pow2f bl_view bl_write (jb_uid jb) step (jb_fired jb) l projs Hk Hn Hr) as (ns' & projs1 & Et & L' & Hk' & Hkept & Hall & Hout).
    rewrite Et. cbn [obind fst snd]. do 2 eexists. split; [reflexivity|]. split; [split; [exact L'|]; split; assumption|]. split; [exact Hk'|]. split.
    + clear -Hkept. induction Hkept as [|w w' t t' [K Hw] _ IH]; constructor; auto. split; [exact K|]. intros Hf. apply Hw. now inversion Hf.
    + intros v n Hv. eapply incoming_other; eauto.
  - destruct (stdp_train_spec pow2f al_view al_write (jb_uid jb) step (jb_fired jb) l projs Hk Hn Hr) as (ns' & projs1 & Et & L' & Hk' & Hkept & Hall & Hout).
    rewrite Et. cbn [obind fst snd]. do 2 eexists. split; [reflexivity|]. split; [split; [exact L'|]; split; assumption|]. split; [exact Hk'|]. split.
    + clear -Hkept. induction Hkept as [|w w' t t' [K Hw] _ IH]; constructor; auto. split; [exact K|]. intros Hf. apply Hw. now inversion Hf.
    + intros v n Hv. eapply incoming_other; eauto.
Qed.
Lemma neurons_result_ext {A} (view : A -> tview) write u step fired p1 p2 q1 q2 ns ns' :
  (forall n, incoming u n q1 = incoming u n p1) -> (forall n, incoming u n q2 = incoming u n p2) ->
  neurons_result pow2f view write u step fired p1 p2 ns ns' -> neurons_result pow2f view write u step fired q1 q2 ns ns'.
Proof.
  intros H1 H2 (L & Hall & Hout). split; [exact L|]. split.
  - intros i n Hi. rewrite H1, H2. auto.
  - intros j Hj. rewrite H1, H2. auto.
Qed.
Lemma job_result_ext step p1 p2 q1 q2 jb a' :
  (forall n, incoming (jb_uid jb) n q1 = incoming (jb_uid jb) n p1) -> (forall n, incoming (jb_uid jb) n q2 = incoming (jb_uid jb) n p2) ->
  job_result step p1 p2 jb a' -> job_result step q1 q2 jb a'.
Proof.
  intros H1 H2. unfold job_result. destruct (jb_pop jb), a'; auto; now apply neurons_result_ext.
Qed.
Lemma jobs_spec step : forall jobs projs, kinds_ok projs -> Forall job_ok jobs -> NoDup (map jb_uid jobs) ->
  exists res projs', train_jobs pow2f step jobs projs = Ret (res, projs') /\ kinds_ok projs' /\
    Forall2 (projs_result (job_uids jobs)) projs projs' /\
    (forall v n, ~ In v (map jb_uid jobs) -> incoming v n projs' = incoming v n projs) /\
    Forall2 (fun jb e => fst e = jb_uid jb /\ job_result step projs projs' jb (snd e)) jobs res.
Proof.
  induction jobs as [|jb jobs IH]; intros projs Hk Hj Hn; cbn [train_jobs].
  - exists [], projs. split; [reflexivity|]. split; [exact Hk|]. split; [|split; [auto|constructor]].
    clear. induction projs; constructor; auto. split; [apply kept_refl|reflexivity].
  - apply Forall_cons_iff in Hj as [Hj1 Hj2]. cbn [map] in Hn. apply NoDup_cons_iff in Hn as [Hni Hn].
    destruct (finalize_spec step jb projs Hk Hj1) as (a' & projs1 & E & R1 & K1 & P1 & I1). rewrite E. cbn [obind fst snd].
    destruct (IH projs1 K1 Hj2 Hn) as (res & projs2 & E2 & K2 & P2 & I2 & R2). rewrite E2. cbn [obind fst snd].
    do 2 eexists. split; [reflexivity|]. split; [exact K2|]. split; [|split].
    + assert (job_uids (jb :: jobs) = (if stdp_pop (jb_pop jb) then [jb_uid jb] else []) ++ job_uids jobs) as ->.
      { unfold job_uids. cbn [filter]. now destruct (stdp_pop (jb_pop jb)). }
      eapply Forall2_trans3; [|exact P1|exact P2]. intros. eapply projs_result_trans; eauto.
    + intros v n Hv. cbn [map In] in Hv. rewrite I2 by tauto. apply I1. intros ->. apply Hv. now left.
    + constructor.
      * split; [reflexivity|]. cbn [snd]. eapply job_result_ext; [| |exact R1]; [reflexivity|]. intros n. now apply I2.
      * assert (forall jb0, In jb0 jobs -> forall n, incoming (jb_uid jb0) n projs1 = incoming (jb_uid jb0) n projs) as Hx.
        { intros jb0 Hin n. apply I1. intros Hu. apply Hni. rewrite <- Hu. now apply in_map. }
        clear -R2 Hx. induction R2 as [|jb0 e t t' [H1 H2] _ IH]; constructor.
        -- split; [exact H1|]. eapply job_result_ext; [| |exact H2]; [intros n; symmetry; apply Hx; now left|reflexivity].
        -- apply IH. intros jb1 Hin. apply Hx. now right.
Qed.

(** ** Two orders *)
Lemma existsb_perm (f : N -> bool) l l' : Permutation l l' -> existsb f l = existsb f l'.
Proof. induction 1; cbn [existsb]; [reflexivity|congruence|rewrite !orb_assoc; f_equal; apply orb_comm|congruence]. Qed.
Lemma neurons_result_fired {A} (view : A -> tview) write u step f f' p q ns ns' : Permutation f f' ->
  neurons_result pow2f view write u step f p q ns ns' -> neurons_result pow2f view write u step f' p q ns ns'.
Proof.
  intros Hp (L & H1 & H2). split; [exact L|]. split; [|exact H2]. intros i n Hi. destruct (H1 i n Hi) as (v & Hv & E). exists v. split; [exact Hv|].
  now rewrite <- (existsb_perm _ _ _ Hp).
Qed.
(** The result of training a neuron list is determined by what comes in. *)
Lemma neurons_determined {A} (view : A -> tview) write u step f p q1 q2 ns n1 n2 :
  neurons_result pow2f view write u step f p q1 ns n1 -> neurons_result pow2f view write u step f p q2 ns n2 ->
  n1 = n2 /\ forall n, incoming u n q1 = incoming u n q2.
Proof.
  intros (L1 & A1 & B1) (L2 & A2 & B2). split.
  - apply nth_error_ext. intros i. destruct (nth_error ns i) as [x|] eqn:Ex.
    + destruct (A1 i x Ex) as (v1 & H1 & E1). destruct (A2 i x Ex) as (v2 & H2 & E2). rewrite H1, H2.
      rewrite <- E2 in E1. apply (f_equal fst) in E1. cbn [fst] in E1. now rewrite E1.
    + apply nth_error_None in Ex. rewrite (proj2 (nth_error_None n1 i)) by lia. symmetry. apply nth_error_None. lia.
  - intros n. destruct (N.ltb_spec n (N.of_nat (length ns))) as [Hn|Hn]; [|now rewrite B1, B2].
    destruct (nth_error ns (N.to_nat n)) as [x|] eqn:Ex; [|apply nth_error_None in Ex; lia].
    destruct (A1 _ x Ex) as (v1 & H1 & E1). destruct (A2 _ x Ex) as (v2 & H2 & E2). rewrite N2Nat.id in *.
    rewrite <- E2 in E1. exact (f_equal snd E1).
Qed.
Lemma job_determined step p q1 q2 jb jb' a1 a2 :
  jb_uid jb = jb_uid jb' -> jb_pop jb = jb_pop jb' -> Permutation (jb_fired jb) (jb_fired jb') ->
  job_result step p q1 jb a1 -> job_result step p q2 jb' a2 ->
  a1 = a2 /\ (stdp_pop (jb_pop jb) = true -> forall n, incoming (jb_uid jb) n q1 = incoming (jb_uid jb) n q2).
Proof.
  unfold job_result. intros Hu Hp Hf R1 R2. rewrite <- Hp in R2. rewrite <- Hu in R2.
  destruct (jb_pop jb) as [x|l|l], a1 as [x1|l1|l1]; try contradiction; destruct a2 as [x2|l2|l2]; try contradiction.
  - split; [congruence|discriminate].
  - apply (neurons_result_fired _ _ _ _ _ _ _ _ _ _ Hf) in R1. destruct (neurons_determined _ _ _ _ _ _ _ _ _ _ _ R1 R2) as [-> H]. auto.
  - apply (neurons_result_fired _ _ _ _ _ _ _ _ _ _ Hf) in R1. destruct (neurons_determined _ _ _ _ _ _ _ _ _ _ _ R1 R2) as [-> H]. auto.
Qed.
Definition alike (a b : job) : Prop := jb_uid a = jb_uid b /\ jb_pop a = jb_pop b /\ Permutation (jb_fired a) (jb_fired b).
Lemma alike_ok a b : alike a b -> job_ok a -> job_ok b.
Proof.
  intros (H1 & H2 & H3) [A B]. split; [eapply Permutation_NoDup; eauto|]. rewrite <- H2. eapply Permutation_Forall; eauto.
Qed.
Lemma jobs_reordered step jobs jobs' projs res projs1 : kinds_ok projs -> Forall job_ok jobs -> NoDup (map jb_uid jobs) -> reordered jobs jobs' ->
  Forall2 (projs_result (job_uids jobs)) projs projs1 ->
  Forall2 (fun jb e => fst e = jb_uid jb /\ job_result step projs projs1 jb (snd e)) jobs res ->
  exists res' projs2, train_jobs pow2f step jobs' projs = Ret (res', projs2) /\ Permutation res res' /\ map forget projs1 = map forget projs2.
Proof.
  intros Hk Hj Hn (js & Hp & Ha) P1 R1. change (Forall2 alike js jobs') in Ha.
  assert (Hj1 : Forall job_ok js) by (eapply Permutation_Forall; eauto).
  assert (Hj2 : Forall job_ok jobs'). { clear -Ha Hj1. induction Ha; [constructor|]. apply Forall_cons_iff in Hj1 as [H1 H2]. constructor; [eapply alike_ok; eauto|auto]. }
  assert (Hu : map jb_uid jobs' = map jb_uid js) by (clear -Ha; induction Ha as [|a b t t' (H & _) _ IH]; cbn [map]; [reflexivity|now rewrite IH, H]).
  assert (Hn1 : NoDup (map jb_uid js)) by (eapply Permutation_NoDup; [apply Permutation_map; exact Hp|exact Hn]).
  assert (Hn2 : NoDup (map jb_uid jobs')) by now rewrite Hu.
  destruct (jobs_spec step jobs' projs Hk Hj2 Hn2) as (res' & projs2 & E2 & _ & P2 & I2 & R2).
  exists res', projs2. split; [exact E2|].
  (* results of [jobs], in the order of [js] *)
  assert (exists res1, Permutation res res1 /\ Forall2 (fun jb e => fst e = jb_uid jb /\ job_result step projs projs1 jb (snd e)) js res1) as (res1 & Hpr & R1').
  { clear -Hp R1. revert res R1. induction Hp; intros res R1.
    - inversion R1; subst. exists []. auto.
    - inversion R1 as [|? e ? t Hh Ht]; subst. destruct (IHHp t Ht) as (r1 & X1 & X2). exists (e :: r1). split; [now constructor|now constructor].
    - inversion R1 as [|? e ? t Hh Ht]; subst. inversion Ht as [|? e2 ? t2 Hh2 Ht2]; subst. exists (e2 :: e :: t2). split; [constructor|repeat constructor; tauto].
    - destruct (IHHp1 res R1) as (r1 & X1 & X2). destruct (IHHp2 r1 X2) as (r2 & Y1 & Y2). exists r2. split; [eapply Permutation_trans; eauto|exact Y2]. }
  assert (Hres : res1 = res' /\ forall u n, In u (job_uids js) -> incoming u n projs1 = incoming u n projs2).
  { clear -Ha R1' R2. revert res1 res' R1' R2. induction Ha as [|a b t t' (A1 & A2 & A3) _ IH]; intros res1 res' R1 R2; inversion R1 as [|? e1 ? r1 [H1 H2] Ht1]; subst; inversion R2 as [|? e2 ? r2 [K1 K2] Ht2]; subst.
    - split; [reflexivity|]. intros u n [].
    - destruct (IH r1 r2 Ht1 Ht2) as [-> IH2]. destruct (job_determined step projs projs1 projs2 a b (snd e1) (snd e2) A1 A2 A3 H2 K2) as [Es Ei].
      split; [f_equal; destruct e1, e2; cbn [fst snd] in *; congruence|].
      intros u n Hin. unfold job_uids in *. cbn [filter] in Hin. destruct (stdp_pop (jb_pop a)); [|auto].
      cbn [map In] in Hin. destruct Hin as [<-|Hin]; auto. }
  destruct Hres as [-> Hinc]. split; [exact Hpr|].
  assert (Hsame : forall u, In u (job_uids jobs) <-> In u (job_uids js)).
  { intros u. unfold job_uids. split; intros H; apply in_map_iff in H as (jb & <- & H); apply filter_In in H as [H H0]; apply in_map, filter_In; split; auto.
    - eapply Permutation_in; eauto. - eapply Permutation_in; [apply Permutation_sym|]; eauto. }
  assert (Hsame2 : job_uids jobs' = job_uids js).
  { clear -Ha. unfold job_uids. induction Ha as [|a b t t' (A1 & A2 & A3) _ IH]; cbn [filter map]; [reflexivity|]. rewrite A2. destruct (stdp_pop _); cbn [map]; congruence. }
  apply (determined (job_uids js) projs).
  - clear -P1 Hsame. induction P1 as [|a b t t' [K N] _ IH]; constructor; auto. split; [exact K|]. intros Hf. apply N. rewrite Forall_forall in *.
    intros u Hu. apply Hf. now apply Hsame.
  - now rewrite <- Hsame2.
  - exact Hinc.
Qed.
End Jobs.
