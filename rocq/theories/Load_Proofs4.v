(** A network moved at rest: the same network, its step counter shifted. *)
From Verif Require Import Base ListLemmas Messaging_Model Messaging_Spec Messaging_Proofs Messaging_Proofs2 Projection_Model
  Delta_Model Delta_Spec Neuron_Model Pipeline_Model Pipeline_Spec Pipeline_Proofs Pipeline_Proofs2 Stdp_Model Additive_Model Train_Model
  Net_Model Net_Spec Net_Proofs Net_Proofs2 Net_Proofs3 Net_Proofs4 Load_Model Load_Spec Load_Proofs Load_Proofs3.

Definition alike (a b : list message) : Prop := map unstamp a = map unstamp b.
Lemma alike_filter f a b : (forall m, f (unstamp m) = f m) -> alike a b -> alike (filter f a) (filter f b).
Proof.
  intros Hf. revert b. unfold alike. induction a as [|x a IH]; intros [|y b] H; cbn [map] in *; try discriminate; [reflexivity|].
  injection H as H1 H2. cbn [filter]. rewrite <- (Hf x), <- (Hf y), H1. destruct (f (unstamp y)); cbn [map]; [f_equal|]; auto.
Qed.
Lemma alike_app a b c d : alike a b -> alike c d -> alike (a ++ c) (b ++ d).
Proof. unfold alike. intros. rewrite !map_app. congruence. Qed.
Lemma alike_spikes a b : alike a b -> spikes_of a = spikes_of b.
Proof.
  revert b. unfold alike. induction a as [|x a IH]; intros [|y b] H; cbn [map] in *; try discriminate; [reflexivity|].
  injection H as H1 H2. cbn [spikes_of flat_map]. fold (spikes_of a). fold (spikes_of b). rewrite (IH b H2). f_equal. destruct x, y; cbn [unstamp] in H1; congruence.
Qed.
Lemma alike_impacts a b : alike a b -> impacts_of a = impacts_of b.
Proof.
  revert b. unfold alike. induction a as [|x a IH]; intros [|y b] H; cbn [map] in *; try discriminate; [reflexivity|].
  injection H as H1 H2. cbn [impacts_of flat_map]. fold (impacts_of a). fold (impacts_of b). rewrite (IH b H2). f_equal. destruct x, y; cbn [unstamp] in H1; congruence.
Qed.
Lemma to_population_unstamp hs extra u m : to_population hs extra u (unstamp m) = to_population hs extra u m.
Proof. destruct m; reflexivity. Qed.
Lemma to_nproj_unstamp extra w m : to_nproj extra w (unstamp m) = to_nproj extra w m.
Proof. destruct m; reflexivity. Qed.
Lemma alike_sent a b : map (option_map unstamp) a = map (option_map unstamp) b -> alike (sent_msgs a) (sent_msgs b).
Proof.
  revert b. unfold alike, sent_msgs. induction a as [|x a IH]; intros [|y b] H; cbn [map] in *; try discriminate; [reflexivity|].
  injection H as H1 H2. cbn [flat_map]. rewrite !map_app, (IH b H2). f_equal. destruct x, y; cbn [option_map] in H1; try discriminate; cbn [map]; congruence.
Qed.

(** ** Shifted steps *)
Lemma add64_lt a b : (add64 a b < two64)%N.
Proof. unfold add64, w64. apply N.mod_lt. discriminate. Qed.
Lemma add64_inj a b t : (a < two64)%N -> (b < two64)%N -> add64 a t = add64 b t -> a = b.
Proof.
  unfold add64, w64. change (2 ^ 64)%N with two64. intros Ha Hb E.
  assert (H : ((a + t + (two64 - t mod two64)) mod two64 = (b + t + (two64 - t mod two64)) mod two64)%N).
  { rewrite <- (N.add_mod_idemp_l (a + t)), <- (N.add_mod_idemp_l (b + t)), E by discriminate. reflexivity. }
  assert (X : forall c, (c < two64 -> (c + t + (two64 - t mod two64)) mod two64 = c)%N).
  { intros c Hc. assert (Hz : two64 <> 0%N) by discriminate. revert Hc Hz. clear. generalize two64 as M. intros M Hc Hz. pose proof (N.mod_lt t M Hz) as Hm.
    pose proof (N.div_mod t M Hz) as Hd. remember (t mod M)%N as r. remember (t / M)%N as q.
    replace (c + t + (M - r))%N with (c + (q + 1) * M)%N by nia.
    rewrite N.mod_add by exact Hz. now apply N.mod_small. }
  rewrite (X a Ha), (X b Hb) in H. exact H.
Qed.
Lemma add64_eqb a b t : (a < two64)%N -> (b < two64)%N -> N.eqb (add64 a t) (add64 b t) = N.eqb a b.
Proof.
  intros Ha Hb. destruct (N.eqb_spec a b) as [->|Hn]; [apply N.eqb_refl|]. apply N.eqb_neq. intros E. apply Hn. exact (add64_inj a b t Ha Hb E).
Qed.
Lemma future_shift d n t : future_step d (add64 n t) = add64 (future_step d n) t.
Proof.
  unfold future_step, sub64, add64, w64. change (1 mod two64)%N with 1%N.
  assert (Hz : two64 <> 0%N) by discriminate. assert (H1 : (1 <= two64)%N) by discriminate. revert Hz H1. generalize two64 as M. intros M Hz H1.
  repeat first [rewrite N.add_mod_idemp_r by exact Hz | rewrite N.add_mod_idemp_l by exact Hz].
  rewrite <- (N.add_assoc ((d + n) mod M)), N.add_mod_idemp_l by exact Hz. replace (d + (n + t) + (M - 1))%N with (d + n + (M - 1 + t))%N by lia. reflexivity.
Qed.
Lemma future_lt d n : (future_step d n < two64)%N.
Proof. unfold future_step, sub64, w64. apply N.mod_lt. discriminate. Qed.

(** ** Queues *)
Section Shift.
Variable t : N.
Definition entry (a b : N * message) : Prop := (fst b < two64)%N /\ fst a = add64 (fst b) t /\ unstamp (snd a) = unstamp (snd b).
Definition shifted (qa qb : queue) : Prop := Forall2 entry qa qb.
Lemma push_alike i a b : unstamp a = unstamp b -> unstamp (push_impact i a) = unstamp (push_impact i b).
Proof. destruct a, b; cbn [unstamp push_impact]; congruence. Qed.
Lemma find_shifted qa qb : shifted qa qb -> forall k, (k < two64)%N -> option_map unstamp (q_find (add64 k t) qa) = option_map unstamp (q_find k qb).
Proof.
  induction 1 as [|[ka a] [kb b] qa qb (H1 & H2 & H3) _ IH]; intros k Hk; cbn [q_find fst snd] in *; [reflexivity|].
  rewrite H2, add64_eqb by assumption. destruct (N.eqb k kb); [cbn [option_map]; congruence|auto].
Qed.
Lemma push_shifted qa qb : shifted qa qb -> forall k i, (k < two64)%N -> shifted (q_push (add64 k t) i qa) (q_push k i qb).
Proof.
  induction 1 as [|[ka a] [kb b] qa qb (H1 & H2 & H3) Hq IH]; intros k i Hk; cbn [q_push fst snd] in *; [constructor|].
  rewrite H2, add64_eqb by assumption. destruct (N.eqb k kb); constructor.
  - split; [exact H1|]. split; [reflexivity|]. now apply push_alike.
  - exact Hq.
  - split; [exact H1|]. split; [reflexivity|exact H3].
  - now apply IH.
Qed.
Lemma erase_shifted qa qb : shifted qa qb -> forall k, (k < two64)%N -> shifted (q_erase (add64 k t) qa) (q_erase k qb).
Proof.
  induction 1 as [|[ka a] [kb b] qa qb (H1 & H2 & H3) Hq IH]; intros k Hk; cbn [q_erase filter fst snd] in *; [constructor|].
  rewrite H2, add64_eqb by assumption. destruct (N.eqb k kb); cbn [negb]; [now apply IH|]. constructor; [|now apply IH]. split; auto.
Qed.
Lemma schedule_shifted h n d i qa qb : shifted qa qb -> 
  shifted (schedule h (add64 n t) (future_step d (add64 n t)) i qa) (schedule h n (future_step d n) i qb).
Proof.
  intros Hq. unfold schedule. rewrite future_shift. pose proof (find_shifted qa qb Hq _ (future_lt d n)) as Hf.
  destruct (q_find (add64 _ t) qa), (q_find (future_step d n) qb); cbn [option_map] in Hf; try discriminate.
  - apply push_shifted; [exact Hq|apply future_lt].
  - apply Forall2_app; [exact Hq|]. constructor; [|constructor]. split; [apply future_lt|]. split; reflexivity.
Qed.
Lemma synapses_shifted h n l : forall idx qa qb qa' qb', shifted qa qb ->
  do_synapses h (add64 n t) l idx qa = Ret qa' -> do_synapses h n l idx qb = Ret qb' -> shifted qa' qb'.
Proof.
  induction idx as [|i idx IH]; intros qa qb qa' qb' Hq Ha Hb; cbn [do_synapses] in *; [injection Ha as <-; injection Hb as <-; exact Hq|].
  destruct (nth_error l i) as [s|]; [|discriminate]. eapply IH; [|exact Ha|exact Hb]. now apply schedule_shifted.
Qed.
Lemma spikes_shifted h n : forall sp p qa qb pa pb qa' qb', shifted qa qb ->
  do_spikes h (add64 n t) sp p qa = Ret (pa, qa') -> do_spikes h n sp p qb = Ret (pb, qb') -> pa = pb /\ shifted qa' qb'.
Proof.
  induction sp as [|x sp IH]; intros p qa qb pa pb qa' qb' Hq Ha Hb; cbn [do_spikes] in *; [injection Ha as <- <-; injection Hb as <- <-; auto|].
  destruct (find_synapses ByPre x p) as [p' idx].
  destruct (do_synapses h (add64 n t) (p_syn p') idx qa) as [qa1| |] eqn:Ea; cbn [obind] in Ha; try discriminate.
  destruct (do_synapses h n (p_syn p') idx qb) as [qb1| |] eqn:Eb; cbn [obind] in Hb; try discriminate.
  eapply IH; [|exact Ha|exact Hb]. eapply synapses_shifted; eauto.
Qed.
Lemma projection_shifted h n ma mb p qa qb pa pb qa' qb' oa ob : (n < two64)%N -> shifted qa qb -> alike ma mb ->
  calculate_projection h (add64 n t) ma p qa = Ret (pa, qa', oa) -> calculate_projection h n mb p qb = Ret (pb, qb', ob) ->
  pa = pb /\ shifted qa' qb' /\ option_map unstamp oa = option_map unstamp ob.
Proof.
  intros Hn Hq Hm Ha Hb. unfold calculate_projection in *. rewrite (alike_spikes _ _ Hm) in Ha.
  destruct (do_spikes h (add64 n t) (spikes_of mb) p qa) as [[pa1 qa1]| |] eqn:Ea; cbn [obind fst snd] in Ha; try discriminate.
  destruct (do_spikes h n (spikes_of mb) p qb) as [[pb1 qb1]| |] eqn:Eb; cbn [obind fst snd] in Hb; try discriminate.
  destruct (spikes_shifted _ _ _ _ _ _ _ _ _ _ Hq Ea Eb) as [-> Hq1]. pose proof (find_shifted _ _ Hq1 n Hn) as Hf.
  destruct (q_find (add64 n t) qa1), (q_find n qb1); cbn [option_map] in Hf; try discriminate; injection Ha as <- <- <-; injection Hb as <- <- <-;
    (split; [reflexivity|split; [|cbn [option_map]; congruence]]).
  - now apply erase_shifted.
  - exact Hq1.
Qed.
(** ** Populations and projections *)
Definition pair_proj (wa wb : nproj) : Prop :=
  np_head wa = np_head wb /\ (exists p, np_kind wa = NDelta p /\ np_kind wb = NDelta p) /\ shifted (np_queue wa) (np_queue wb).
Lemma pair_step expf n ma mb wa wb wa' wb' oa ob : (n < two64)%N -> pair_proj wa wb -> alike ma mb ->
  nproj_step expf (add64 n t) ma wa = Ret (wa', oa) -> nproj_step expf n mb wb = Ret (wb', ob) ->
  pair_proj wa' wb' /\ option_map unstamp oa = option_map unstamp ob.
Proof.
  intros Hn (Hh & (p & Ka & Kb) & Hq) Hm Ha Hb. unfold nproj_step in *. rewrite Ka in Ha. rewrite Kb, <- Hh in Hb.
  destruct (calculate_projection _ _ ma _ _) as [[[pa qa] xa]| |] eqn:Ea; cbn [obind] in Ha; try discriminate.
  destruct (calculate_projection _ _ mb _ _) as [[[pb qb] xb]| |] eqn:Eb; cbn [obind] in Hb; try discriminate.
  injection Ha as <- <-. injection Hb as <- <-. destruct (projection_shifted _ _ _ _ _ _ _ _ _ _ _ _ _ Hn Hq Hm Ea Eb) as (-> & H2 & H3).
  split; [|exact H3]. split; [|split; [exists pb; auto|exact H2]].
  unfold np_head, np_with, np_forced in *. cbn [np_uid np_pre np_post np_kind]. rewrite Ka, Kb in Hh. exact Hh.
Qed.
Lemma plain_step pow2f u na nb ma mb a projs projs' a' b' pa pb oa ob : stdp_pop a = false -> alike ma mb ->
  npop_step pow2f u na ma a projs = Ret (a', pa, oa) -> npop_step pow2f u nb mb a projs' = Ret (b', pb, ob) ->
  a' = b' /\ pa = projs /\ pb = projs' /\ stdp_pop a' = false /\ option_map unstamp oa = option_map unstamp ob.
Proof.
  intros Hp Hm. destruct a as [a| |]; try discriminate. cbn [npop_step]. 
  destruct (apop_step u na ma a) as [[xa ya]| |] eqn:Ea; cbn [obind fst snd]; try discriminate.
  destruct (apop_step u nb mb a) as [[xb yb]| |] eqn:Eb; cbn [obind fst snd]; try discriminate.
  intros H1 H2. injection H1 as <- <- <-. injection H2 as <- <- <-.
  assert (H : xa = xb /\ option_map unstamp ya = option_map unstamp yb).
  { unfold apop_step, population_step in *. rewrite (alike_impacts _ _ Hm) in Ea.
    destruct a as [l|l|l];
      (destruct (impact_population _ (impacts_of mb) _) as [n1| |]; cbn [obind] in *; try discriminate;
       destruct (post_part _ 0 0 _ n1) as [n2 idx]; cbn [obind fst snd] in *; injection Ea as <- <-; injection Eb as <- <-;
       split; [reflexivity|]; destruct (Nat.eqb (length idx) 0); reflexivity). }
  destruct H as [-> H]. auto 10.
Qed.
End Shift.

(** ** Two backends side by side *)
Section Twin.
Variables pow2f expf : flt -> flt.
Variable t : N.
Definition pair_record (ra rb : nrecord) : Prop :=
  nr_pops ra = nr_pops rb /\ nr_pops' ra = nr_pops' rb /\ Forall2 (pair_proj t) (nr_projs' ra) (nr_projs' rb) /\
  map (option_map unstamp) (r_pop_out (nr_msgs ra)) = map (option_map unstamp) (r_pop_out (nr_msgs rb)) /\
  map (option_map unstamp) (r_proj_out (nr_msgs ra)) = map (option_map unstamp) (r_proj_out (nr_msgs rb)).
Lemma pops_pair na nb : forall pops boxa boxb projsa projsb popsa popsb pa pb oa ob, Forall plain_pop pops ->
  (forall u, alike (boxa u) (boxb u)) ->
  npops_alone pow2f na boxa pops projsa = Ret (popsa, pa, oa) -> npops_alone pow2f nb boxb pops projsb = Ret (popsb, pb, ob) ->
  popsa = popsb /\ pa = projsa /\ pb = projsb /\ Forall plain_pop popsa /\ map (option_map unstamp) oa = map (option_map unstamp) ob.
Proof.
  induction pops as [|[u a] pops IH]; intros boxa boxb projsa projsb popsa popsb pa pb oa ob Hp Hx Ha Hb; cbn [npops_alone] in *.
  - injection Ha as <- <- <-. injection Hb as <- <- <-. auto 10.
  - apply Forall_cons_iff in Hp as [Hp1 Hp].
    destruct (npop_step pow2f u na (boxa u) a projsa) as [[[a1 p1] o1]| |] eqn:E1; cbn [obind] in Ha; try discriminate.
    destruct (npop_step pow2f u nb (boxb u) a projsb) as [[[a2 p2] o2]| |] eqn:E2; cbn [obind] in Hb; try discriminate.
    destruct (plain_step _ _ _ _ _ _ _ _ _ _ _ _ _ _ _ Hp1 (Hx u) E1 E2) as (<- & -> & -> & Hs & Ho).
    destruct (npops_alone pow2f na boxa pops projsa) as [[[l1 q1] x1]| |] eqn:F1; cbn [obind] in Ha; try discriminate.
    destruct (npops_alone pow2f nb boxb pops projsb) as [[[l2 q2] x2]| |] eqn:F2; cbn [obind] in Hb; try discriminate.
    injection Ha as <- <- <-. injection Hb as <- <- <-.
    destruct (IH _ _ _ _ _ _ _ _ _ _ Hp Hx F1 F2) as (-> & -> & -> & H4 & H5). split; [reflexivity|]. split; [reflexivity|]. split; [reflexivity|].
    split; [constructor; assumption|]. cbn [map]. congruence.
Qed.
Lemma projs_pair n : (n < two64)%N -> forall wa wb, Forall2 (pair_proj t) wa wb -> forall boxa boxb pa pb oa ob,
  (forall w w', pair_proj t w w' -> alike (boxa w) (boxb w')) ->
  nprojs_alone expf (add64 n t) boxa wa = Ret (pa, oa) -> nprojs_alone expf n boxb wb = Ret (pb, ob) ->
  Forall2 (pair_proj t) pa pb /\ map (option_map unstamp) oa = map (option_map unstamp) ob.
Proof.
  intros Hn. induction 1 as [|x y wa wb Hxy _ IH]; intros boxa boxb pa pb oa ob Hx Ha Hb; cbn [nprojs_alone] in *.
  - injection Ha as <- <-. injection Hb as <- <-. auto.
  - destruct (nproj_step expf (add64 n t) (boxa x) x) as [[a1 o1]| |] eqn:E1; cbn [obind] in Ha; try discriminate.
    destruct (nproj_step expf n (boxb y) y) as [[a2 o2]| |] eqn:E2; cbn [obind] in Hb; try discriminate.
    destruct (pair_step t expf n _ _ _ _ _ _ _ _ Hn Hxy (Hx _ _ Hxy) E1 E2) as [H1 H2].
    destruct (nprojs_alone expf (add64 n t) boxa wa) as [[l1 x1]| |] eqn:F1; cbn [obind] in Ha; try discriminate.
    destruct (nprojs_alone expf n boxb wb) as [[l2 x2]| |] eqn:F2; cbn [obind] in Hb; try discriminate.
    injection Ha as <- <-. injection Hb as <- <-. destruct (IH _ _ _ _ _ _ Hx F1 F2) as [H3 H4].
    cbn [fst snd map] in *. split; [constructor; assumption|congruence].
Qed.
Lemma F2_cons {A B} (R : A -> B -> Prop) a b l m : Forall2 R (a :: l) (b :: m) -> R a b /\ Forall2 R l m.
Proof. intros H. inversion H. auto. Qed.
Lemma pair_learn bs cs : forall la lb, Forall2 (pair_proj t) la lb -> Forall2 (pair_proj t) (learn_all bs la) (learn_all cs lb).
Proof.
  intros la lb H. assert (H1 : Forall2 (pair_proj t) (learn_all bs la) lb).
  { pose proof (learn_all_spec (fun w w' => np_head w' = np_head w /\ np_kind w' = np_kind w /\ np_queue w' = np_queue w)
      (fun w => conj eq_refl (conj eq_refl eq_refl)) (fun w w' b H => H) bs la) as L. revert L H. clear. generalize (learn_all bs la) as l.
    intros l L. revert lb. induction L as [|w w' la l (E1 & E2 & E3) L IH]; intros lb H; [inversion H; constructor|].
    destruct lb as [|y lb]; [inversion H|]. apply F2_cons in H as [(P1 & (p & P2 & P3) & P4) H]. constructor; [|auto].
    split; [congruence|]. split; [exists p; split; congruence|]. now rewrite E3. }
  pose proof (learn_all_spec (fun w w' => np_head w' = np_head w /\ np_kind w' = np_kind w /\ np_queue w' = np_queue w)
      (fun w => conj eq_refl (conj eq_refl eq_refl)) (fun w w' b H => H) cs lb) as L. revert L H1. clear. generalize (learn_all cs lb) as l.
  generalize (learn_all bs la) as l1. intros l1 l L. revert l1. induction L as [|w w' lb l (E1 & E2 & E3) L IH]; intros l1 H; [inversion H; constructor|].
  destruct l1 as [|y l1]; [inversion H|]. apply F2_cons in H as [(P1 & (p & P2 & P3) & P4) H]. constructor; [|auto].
  split; [congruence|]. split; [exists p; split; congruence|]. now rewrite E3.
Qed.
Lemma moved_runs extra pa0 pb0 us : NoDup (map np_uid pa0) -> NoDup (map np_uid pb0) -> NoDup us -> map np_head pa0 = map np_head pb0 ->
  forall ta tb prea preb ka kb ka' kb' tra trb, nready extra pa0 us prea ka -> nready extra pb0 us preb kb -> alike prea preb ->
  nb_pops ka = nb_pops kb -> Forall plain_pop (nb_pops kb) -> Forall2 (pair_proj t) (nb_projs ka) (nb_projs kb) -> nb_step ka = add64 (nb_step kb) t -> (nb_step kb < two64)%N ->
  Forall (fun u => forallb outside (tu_ops u) = true) ta -> Forall (fun u => forallb outside (tu_ops u) = true) tb -> length ta = length tb ->
  nbackend_run pow2f expf ta ka = Ret (ka', tra) -> nbackend_run pow2f expf tb kb = Ret (kb', trb) ->
  (forall i ra rb, nth_error tra i = Some ra -> nth_error trb i = Some rb -> alike (r_ext (nr_msgs ra)) (r_ext (nr_msgs rb))) ->
  Forall2 pair_record tra trb.
Proof.
  intros Hda Hdb Hud Hh. induction ta as [|u ta IH]; intros [|v tb] prea preb ka kb ka' kb' tra trb Ra Rb Hpre Ep Hpl Eq Es Hlt Fa Fb El Ha Hb Hin; cbn [length] in El; try discriminate.
  - cbn [nbackend_run] in Ha, Hb. injection Ha as <- <-. injection Hb as <- <-. auto.
  - apply Forall_cons_iff in Fa as [Fa1 Fa], Fb as [Fb1 Fb].
    destruct (run_cons _ _ _ _ _ Hda Hud _ _ _ _ _ _ Ra Fa1 Ha) as (ka1 & ra & tra' & -> & Sa & Ra1 & Pa & Qa & Pa1 & Qa1 & Na & Ha1).
    destruct (run_cons _ _ _ _ _ Hdb Hud _ _ _ _ _ _ Rb Fb1 Hb) as (kb1 & rb & trb' & -> & Sb & Rb1 & Pb & Qb & Pb1 & Qb1 & Nb & Hb1).
    pose proof (Hin 0 ra rb eq_refl eq_refl) as I1.
    destruct Sa as (A1 & A2 & A3 & A4), Sb as (B1 & B2 & B3 & B4).
    assert (Hbox : forall x, alike (npop_box extra pa0 prea (r_ext (nr_msgs ra)) x) (npop_box extra pb0 preb (r_ext (nr_msgs rb)) x)).
    { intros x. unfold npop_box. rewrite Hh. apply alike_filter; [apply to_population_unstamp|]. now apply alike_app. }
    rewrite Pa, Ep, <- Pb in A1.
    assert (Hpl' : Forall plain_pop (nr_pops rb)) by (rewrite Pb; exact Hpl).
    destruct (pops_pair _ _ _ _ _ _ _ _ _ _ _ _ _ Hpl' Hbox A1 B1) as (X1 & X2 & X3 & X4 & X5).
    assert (Hpq : Forall2 (pair_proj t) (nr_trained ra) (nr_trained rb)).
    { rewrite X2, X3, Qa, Qb. now apply pair_learn. }
    rewrite Es in A2.
    assert (Hpb : forall w w', pair_proj t w w' -> alike (nproj_box extra (r_ext (nr_msgs ra)) (sent_msgs (r_pop_out (nr_msgs ra))) w)
                                                   (nproj_box extra (r_ext (nr_msgs rb)) (sent_msgs (r_pop_out (nr_msgs rb))) w')).
    { intros w w' (W1 & (p & W2 & W3) & _). unfold nproj_box. rewrite (filter_ext (to_nproj extra w) (to_nproj extra w')).
      - apply alike_filter; [apply to_nproj_unstamp|]. apply alike_app; [exact I1|]. now apply alike_sent.
      - intros m. unfold to_nproj, stdp_pops. rewrite W2, W3. pose proof (f_equal ph_pre W1) as H1. pose proof (f_equal ph_uid W1) as H2.
        cbn [np_head ph_pre ph_uid] in H1, H2. now rewrite H1, H2. }
    destruct (projs_pair _ Hlt _ _ Hpq _ _ _ _ _ _ Hpb A2 B2) as [Y1 Y2].
    constructor; [unfold pair_record; split; [congruence|]; auto|].
    apply (IH tb _ _ ka1 kb1 ka' kb' tra' trb' Ra1 Rb1); try congruence; auto.
    + now apply alike_sent.
    + rewrite Na, Nb, Es. unfold add64, w64. assert (Hz : two64 <> 0%N) by discriminate. revert Hz. generalize two64 as M. intros M Hz.
      rewrite !N.add_mod_idemp_l by exact Hz. f_equal. lia.
    + rewrite Nb. apply add64_lt.
    + intros i r1 r2 H1 H2. exact (Hin (S i) r1 r2 H1 H2).
Qed.
End Twin.
