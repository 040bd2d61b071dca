(** A step as a function of what arrives; two runs side by side. *)
From Verif Require Import Base ListLemmas Messaging_Model Messaging_Spec Messaging_Proofs Messaging_Proofs2 Projection_Model
  Delta_Model Delta_Spec Neuron_Model Pipeline_Model Pipeline_Spec Pipeline_Proofs Pipeline_Proofs2 Stdp_Model Additive_Model Train_Model
  Net_Model Net_Spec Net_Proofs Net_Proofs2 Net_Proofs3 Net_Proofs4 Load_Model Load_Spec Load_Proofs.

Section Fun.
Variables pow2f expf : flt -> flt.
Variables (extra : list subscr) (projs0 : list nproj) (us : list uid).
Hypothesis Hpd : NoDup (map np_uid projs0).
Hypothesis Hud : NoDup us.
Local Notation S_ := (nS0 extra projs0).
Local Notation hs := (map np_head projs0).
Definition fun_step (prev : list message) (n : N) (r : nrecord) : Prop :=
  npops_alone pow2f n (npop_box extra projs0 prev (r_ext (nr_msgs r))) (nr_pops r) (nr_projs r) =
    Ret (nr_pops' r, nr_trained r, r_pop_out (nr_msgs r)) /\
  nprojs_alone expf n (nproj_box extra (r_ext (nr_msgs r)) (sent_msgs (r_pop_out (nr_msgs r)))) (nr_trained r) =
    Ret (nr_projs' r, r_proj_out (nr_msgs r)) /\
  r_pop_in (nr_msgs r) = map (fun e => npop_box extra projs0 prev (r_ext (nr_msgs r)) (fst e)) (nr_pops r) /\
  r_proj_in (nr_msgs r) = map (nproj_box extra (r_ext (nr_msgs r)) (sent_msgs (r_pop_out (nr_msgs r)))) (nr_trained r).
Lemma step_fun prev k k' r : nready extra projs0 us prev k -> nbackend_step pow2f expf (pending (nb_bus k)) k = Ret (k', r) ->
  fun_step prev (nb_step k) r.
Proof.
  intros R H. destruct R as [G Ho Hus Hsz Hhs Hok W0 W1]. remember (pending (nb_bus k)) as ext eqn:Eext.
  unfold nbackend_step in H.
  destruct (route_good S_ (nb_bus k) G) as (b1 & E1 & G1 & O1 & S1 & P1 & R1). rewrite E1 in H. cbn [obind] in H. rewrite <- Eext in R1.
  assert (B1 : forall u, In u us -> waiting b1 1 u = npop_box extra projs0 prev ext u).
  { intros u Hu. rewrite R1, (W1 u Hu). unfold npop_box. rewrite filter_app. f_equal.
    apply filter_ext. intros m. apply nS0_population. }
  assert (B0 : forall w, In w projs0 -> waiting b1 0 (np_uid w) = filter (to_nproj extra w) ext).
  { intros w Hw. rewrite R1, (W0 w Hw). cbn [app]. apply filter_ext. intros m. now apply nS0_projection. }
  assert (Hnd : NoDup (map fst (nb_pops k))) by (rewrite Hus; exact Hud).
  pose proof (npops_phase_eq pow2f S_ (nb_step k) (nb_pops k) (nb_projs k) b1 G1 O1 Hnd) as HP.
  rewrite (npops_alone_ext pow2f (nb_step k) (waiting b1 1) (npop_box extra projs0 prev ext)) in HP by (intros u Hu; apply B1; congruence).
  destruct (npops_alone pow2f (nb_step k) (npop_box extra projs0 prev ext) (nb_pops k) (nb_projs k)) as [[[pops' projs1] pout]| |] eqn:EP.
  2,3: rewrite HP in H; discriminate.
  destruct HP as (b2 & E2 & G2 & O2 & S2 & Z2 & Y2). rewrite E2 in H. cbn [obind] in H.
  assert (Hkinds : kinds_ok (nb_projs k)) by (eapply Forall_impl; [|exact Hok]; intros w; apply proj1).
  destruct (npops_facts pow2f (nb_step k) (npop_box extra projs0 prev ext) _ _ _ _ _ Hnd Hsz Hkinds EP) as (F1 & F2 & F2' & Hsp & F4 & F5 & _ & F7).
  pose proof (kept_all_ok _ _ _ F5 Hok F4) as Hok1. pose proof (kept_all_fixed _ _ _ F5) as Hfx1. rewrite Hhs in Hfx1.
  destruct (route_good S_ b2 G2) as (b3 & E3 & G3 & O3 & S3 & P3 & R3). rewrite E3 in H. cbn [obind] in H.
  rewrite (own_pending b2 (g_ids S_ b2 G2) O2), S2, S1 in R3. cbn [app] in R3.
  assert (B3 : forall w, In w projs1 -> waiting b3 0 (np_uid w) = nproj_box extra ext (sent_msgs pout) w).
  { intros w Hw. destruct (fixed_In projs1 projs0 w Hfx1 Hw) as (w0 & Hw0 & Ew).
    destruct (fixed_uid _ _ Ew) as (Eu & _ & _). rewrite <- Eu, R3, Z2, (B0 w0 Hw0). unfold nproj_box. rewrite filter_app. f_equal.
    - apply filter_ext. intros m. now apply fixed_to.
    - apply filter_ext. intros m. rewrite <- (fixed_to extra w0 w m Ew). now apply nS0_projection. }
  destruct (map_fixed_uid _ _ Hfx1) as [Hu1 Hh1].
  assert (Hnd' : NoDup (map np_uid projs1)) by (rewrite Hu1; exact Hpd).
  pose proof (nprojs_phase_eq expf S_ (nb_step k) projs1 b3 G3 O3 Hnd') as HQ.
  rewrite (nprojs_alone_ext expf (nb_step k) _ (nproj_box extra ext (sent_msgs pout)) projs1 B3) in HQ.
  destruct (nprojs_facts expf (nb_step k) (nproj_box extra ext (sent_msgs pout)) projs1 Hok1) as (projs' & jout & EQ & K1 & K2 & K3 & K4).
  rewrite EQ in HQ. destruct HQ as (b4 & E4 & G4 & O4 & S4 & Z4 & Y4). rewrite E4 in H. cbn [obind] in H.
  destruct (route_good S_ b4 G4) as (b5 & E5 & G5 & O5 & S5 & P5 & R5). rewrite E5 in H. cbn [obind] in H.
  injection H as _ <-. unfold fun_step. cbn [nr_msgs nr_pops nr_projs nr_trained nr_pops' nr_projs' r_ext r_pop_in r_pop_out r_proj_in r_proj_out].
  split; [exact EP|]. split; [exact EQ|]. split.
  - apply map_ext_in. intros e He. apply B1. rewrite <- Hus. now apply in_map.
  - apply map_ext_in. exact B3.
Qed.
(** The first step of a run. *)
Lemma run_cons u turns prev k k' tr : nready extra projs0 us prev k -> forallb outside (tu_ops u) = true ->
  nbackend_run pow2f expf (u :: turns) k = Ret (k', tr) ->
  exists k1 r tr', tr = r :: tr' /\ fun_step prev (nb_step k) r /\ nready extra projs0 us (sent_msgs (r_proj_out (nr_msgs r))) k1 /\
    nr_pops r = nb_pops k /\ nr_projs r = learn_all (tu_learn u) (nb_projs k) /\ nb_pops k1 = nr_pops' r /\ nb_projs k1 = nr_projs' r /\
    nb_step k1 = add64 (nb_step k) 1 /\ nbackend_run pow2f expf turns k1 = Ret (k', tr').
Proof.
  intros R Hops H. cbn [nbackend_run] in H.
  destruct (run (nb_bus k) (tu_ops u)) as [[b trb]| |] eqn:Er; cbn [obind fst] in H; try discriminate.
  set (k1 := mkNB b (nb_pops k) (learn_all (tu_learn u) (nb_projs k)) (nb_step k)) in *.
  assert (R1 : nready extra projs0 us prev k1).
  { destruct R as [G Ho Hus Hsz Hhs Hok W0 W1]. destruct (outside_run S_ (tu_ops u) (nb_bus k) b trb G Hops Er) as (G' & W & S').
    split; cbn [k1 nb_bus nb_pops nb_projs]; auto; try congruence.
    - now rewrite learn_all_fixed.
    - now apply learn_all_ok.
    - intros w Hw. rewrite W. auto.
    - intros v Hv. rewrite W. auto. }
  change (pending b) with (pending (nb_bus k1)) in H.
  destruct (nbackend_step pow2f expf (pending (nb_bus k1)) k1) as [[k2 r]| |] eqn:Es; cbn [obind fst snd] in H; try discriminate.
  destruct (nbackend_run pow2f expf turns k2) as [[k3 tr']| |] eqn:Eb; cbn [obind fst snd] in H; try discriminate.
  injection H as <- <-. pose proof (step_fun prev k1 k2 r R1 Es) as SF.
  destruct (nstep_eq pow2f expf extra projs0 us Hpd Hud prev k1 k2 r R1 Es) as (_ & R2 & X1 & X2 & X3 & X4 & X5 & X6).
  exists k2, r, tr'. cbn [k1 nb_step nb_pops nb_projs] in *. auto 10.
Qed.
End Fun.

(** ** Runs that differ only in messages nobody in the network is meant to get *)
Definition same_record (ra rb : nrecord) : Prop :=
  nr_pops ra = nr_pops rb /\ nr_projs ra = nr_projs rb /\ nr_trained ra = nr_trained rb /\ nr_pops' ra = nr_pops' rb /\ nr_projs' ra = nr_projs' rb /\
  r_pop_in (nr_msgs ra) = r_pop_in (nr_msgs rb) /\ r_pop_out (nr_msgs ra) = r_pop_out (nr_msgs rb) /\
  r_proj_in (nr_msgs ra) = r_proj_in (nr_msgs rb) /\ r_proj_out (nr_msgs ra) = r_proj_out (nr_msgs rb).
Lemma twin_runs pow2f expf extra projs0 us : NoDup (map np_uid projs0) -> NoDup us ->
  forall ta tb prev ka kb ka' kb' tra trb, nready extra projs0 us prev ka -> nready extra projs0 us prev kb ->
  nb_pops ka = nb_pops kb -> nb_projs ka = nb_projs kb -> nb_step ka = nb_step kb ->
  Forall (fun u => forallb outside (tu_ops u) = true) ta -> Forall (fun u => forallb outside (tu_ops u) = true) tb ->
  map tu_learn ta = map tu_learn tb ->
  nbackend_run pow2f expf ta ka = Ret (ka', tra) -> nbackend_run pow2f expf tb kb = Ret (kb', trb) ->
  (forall t ra rb, nth_error tra t = Some ra -> nth_error trb t = Some rb ->
     (forall u, In u us -> filter (to_population (map np_head projs0) extra u) (r_ext (nr_msgs ra)) = filter (to_population (map np_head projs0) extra u) (r_ext (nr_msgs rb))) /\
     (forall w, In w projs0 -> filter (to_nproj extra w) (r_ext (nr_msgs ra)) = filter (to_nproj extra w) (r_ext (nr_msgs rb)))) ->
  Forall2 same_record tra trb /\ nb_pops ka' = nb_pops kb' /\ nb_projs ka' = nb_projs kb'.
Proof.
  intros Hpd Hud. induction ta as [|u ta IH]; intros [|v tb] prev ka kb ka' kb' tra trb Ra Rb Ep Eq Es Fa Fb El Ha Hb Hin; cbn [map] in El; try discriminate.
  - cbn [nbackend_run] in Ha, Hb. injection Ha as <- <-. injection Hb as <- <-. auto.
  - apply Forall_cons_iff in Fa as [Fa1 Fa], Fb as [Fb1 Fb]. assert (El1 : tu_learn u = tu_learn v) by (apply (f_equal (hd [])) in El; exact El).
    assert (El2 : map tu_learn ta = map tu_learn tb) by (apply (f_equal (@tl _)) in El; exact El).
    destruct (run_cons _ _ _ _ _ Hpd Hud _ _ _ _ _ _ Ra Fa1 Ha) as (ka1 & ra & tra' & -> & Sa & Ra1 & Pa & Qa & Pa1 & Qa1 & Na & Ha1).
    destruct (run_cons _ _ _ _ _ Hpd Hud _ _ _ _ _ _ Rb Fb1 Hb) as (kb1 & rb & trb' & -> & Sb & Rb1 & Pb & Qb & Pb1 & Qb1 & Nb & Hb1).
    destruct (Hin 0 ra rb eq_refl eq_refl) as [I1 I2].
    assert (SR : same_record ra rb).
    { destruct Sa as (A1 & A2 & A3 & A4), Sb as (B1 & B2 & B3 & B4). rewrite Pa, Ep, <- Pb, Qa, Eq, El1, <- Qb, Es in A1.
      assert (Hbox : forall x, In x us -> npop_box extra projs0 prev (r_ext (nr_msgs ra)) x = npop_box extra projs0 prev (r_ext (nr_msgs rb)) x).
      { intros x Hx. unfold npop_box. rewrite !filter_app. f_equal. now apply I1. }
      assert (Hus : map fst (nr_pops rb) = us) by (rewrite Pb; apply (nrd_us _ _ _ _ _ Rb)).
      rewrite (npops_alone_ext pow2f _ _ (npop_box extra projs0 prev (r_ext (nr_msgs rb)))) in A1 by (rewrite Hus; exact Hbox).
      rewrite A1 in B1. injection B1 as X1 X2 X3.
      assert (Hfx : map fixed (nr_trained rb) = map fixed projs0).
      { destruct Rb as [_ _ _ Hsz Hhs Hok _ _].
        assert (Hkinds : kinds_ok (nr_projs rb)).
        { rewrite Qb. eapply Forall_impl; [|apply learn_all_ok; exact Hok]. intros w; apply proj1. }
        assert (Hn : NoDup (map fst (nr_pops rb))) by (rewrite Hus; exact Hud).
        assert (Hz : Forall (fun e => (N.of_nat (size (snd e)) <= two32)%N) (nr_pops rb)) by (rewrite Pb; exact Hsz).
        destruct (npops_facts pow2f _ _ _ _ _ _ _ Hn Hz Hkinds A1) as (_ & _ & _ & _ & _ & F5 & _).
        rewrite <- X2, (kept_all_fixed _ _ _ F5), Qb, learn_all_fixed. exact Hhs. }
      assert (Hpb : forall w, In w (nr_trained rb) -> nproj_box extra (r_ext (nr_msgs ra)) (sent_msgs (r_pop_out (nr_msgs rb))) w =
                                                     nproj_box extra (r_ext (nr_msgs rb)) (sent_msgs (r_pop_out (nr_msgs rb))) w).
      { intros w Hw. destruct (fixed_In _ _ w Hfx Hw) as (w0 & Hw0 & Ew). unfold nproj_box. rewrite !filter_app. f_equal.
        rewrite !(filter_ext (to_nproj extra w) (to_nproj extra w0)) by (intros m; symmetry; now apply fixed_to). now apply I2. }
      rewrite X2, X3, Es, (nprojs_alone_ext expf _ _ _ _ Hpb), B2 in A2. injection A2 as Y1 Y2.
      split; [congruence|]. split; [rewrite Qa, Qb, Eq, El1; reflexivity|]. split; [exact X2|]. split; [exact X1|]. split; [auto|].
      split; [|split; [exact X3|split; [|auto]]].
      - rewrite A3, B3, Pa, Pb, Ep. apply map_ext_in. intros e He. apply Hbox. rewrite <- Hus, Pb. now apply in_map.
      - rewrite A4, B4, X2, X3. apply map_ext_in. exact Hpb. }
    destruct SR as (X1 & X2 & X3 & X4 & X5 & X6 & X7 & X8 & X9).
    assert (Rb2 : nready extra projs0 us (sent_msgs (r_proj_out (nr_msgs ra))) kb1) by (rewrite X9; exact Rb1).
    destruct (IH tb _ ka1 kb1 ka' kb' tra' trb' Ra1 Rb2) as (H1 & H2 & H3); try congruence; auto.
    + intros t r1 r2 H1 H2. exact (Hin (S t) r1 r2 H1 H2).
    + split; [|auto]. constructor; [|exact H1]. unfold same_record. auto 10.
Qed.
