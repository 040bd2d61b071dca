(** Rounds of the executor on the multi-threaded backend. *)
From Verif Require Import Base ListLemmas Messaging_Model Messaging_Spec Messaging_Proofs Messaging_Proofs2 Neuron_Model
  Pipeline_Model Pipeline_Spec Pipeline_Proofs Pipeline_Proofs2 Stdp_Model Additive_Model Train_Model Net_Model Net_Spec Net_Proofs Net_Proofs2 Net_Proofs3 Net_Proofs4
  Mt_Model Mt_Spec Mt_Proofs Mt_Proofs2 Sched_Model MtNet_Model MtNet_Spec MtNet_Proofs MtNet_Proofs2
  Framework_Model Exec_Model Exec_Spec Exec_Proofs Exec_Proofs2 Exec_Proofs3 Exec_Proofs4 Exec_Proofs5 MtExec_Model MtExec_Spec.

Section Own.
Variables (rs : list role) (s r : nat -> list message).
Lemma unload_all_looks ty : forall l b e0 b' out, looks b rs s r e0 -> unload_all ty l b = Ret (b', out) ->
  exists e0', looks b' rs s r e0' /\ b_route b' = b_route b.
Proof.
  induction l as [|u l IH]; intros b e0 b' out L H; cbn [unload_all] in H.
  - injection H as <- _. eauto.
  - destruct (unload_own b ty u) as [[b1 x]| |] eqn:E; cbn [obind fst snd] in H; try discriminate.
    destruct (unload_own_looks _ _ _ _ _ _ _ _ _ L E) as (e1 & L1 & R1).
    destruct (unload_all ty l b1) as [[b2 y]| |] eqn:E2; cbn [obind fst snd] in H; try discriminate. injection H as <- _.
    destruct (IH _ _ _ _ L1 E2) as (e2 & L2 & R2). exists e2. split; [exact L2|congruence].
Qed.
Lemma send_all_looks : forall l b e0 b', looks b rs s r e0 -> send_all l b = Ret b' ->
  exists e0', looks b' rs s r e0' /\ b_route b' = b_route b.
Proof.
  induction l as [|o l IH]; intros b e0 b' L H; cbn [send_all] in H.
  - injection H as <-. eauto.
  - destruct (send_own b o) as [b1| |] eqn:E; cbn [obind fst snd] in H; try discriminate.
    destruct (send_own_looks _ _ _ _ _ _ _ L E) as (e1 & L1 & R1).
    destruct (IH _ _ _ L1 H) as (e2 & L2 & R2). exists e2. split; [exact L2|congruence].
Qed.
End Own.

Section Step.
Variable pow2f : flt -> flt.
Variables (extra : list subscr) (projs0 : list nproj) (us : list uid) (pops0 : list (uid * npop)) (pp pj : N).
Hypothesis Hpd : NoDup (map np_uid projs0).
Hypothesis Hud : NoDup us.
Hypothesis Hpp : (0 < pp < two64)%N.
Lemma mt_nstep_looks sc prev k k' rec rs s r e0 : mt_ready extra projs0 us pops0 prev k -> nsched_ok pp pj pops0 projs0 sc -> looks (nb_bus k) rs s r e0 ->
  mt_nbackend_step pow2f sc (pending (nb_bus k)) k = Ret (k', rec) ->
  exists e0', looks (nb_bus k') rs (fun _ => [])
    (fun i => r i ++ filter (takes (nth (pred i) rs None)) (rev (r_ext (nr_msgs rec)))
                  ++ filter (takes (nth (pred i) rs None)) (rev (sent_msgs (r_pop_out (nr_msgs rec))))
                  ++ filter (takes (nth (pred i) rs None)) (rev (sent_msgs (r_proj_out (nr_msgs rec))))) e0' /\
    b_route (nb_bus k') = [].
Proof.
  intros R Hs L H.
  assert (Hfx : map fixed (nr_trained rec) = map fixed projs0).
  { pose proof (mt_nstep_eq pow2f extra projs0 us pops0 pp pj Hpd Hud Hpp sc prev k R Hs) as Hst.
    destruct (in_turn _ _ _ _ _) as [y| |]; [|rewrite Hst in H; discriminate|rewrite Hst in H; discriminate].
    destruct Hst as (k2 & r2 & Es & SF & _). rewrite H in Es. injection Es as _ <-. apply (mf_hs1 _ _ _ _ _ _ _ _ _ SF). }
  destruct (map_fixed_uid _ _ Hfx) as [Hu1 _].
  destruct R as (R & F & _). destruct R as [G Ho Hus Hsz Hhs Hok W0 W1]. remember (pending (nb_bus k)) as ext eqn:Eext.
  assert (Hoth : others (nb_bus k) = ext) by (rewrite Eext, (pending_front _ F), Ho; reflexivity).
  unfold mt_nbackend_step in H. set (S_ := nS0 extra projs0) in *.
  destruct (unload_all_eq S_ 1 (map fst (nb_pops k)) (nb_bus k) G F) as (b1 & E1 & G1 & F1 & Z1 & O1 & Q1).
  { rewrite Hus. exact Hud. }
  rewrite E1 in H. cbn [obind fst snd] in H.
  destruct (unload_all_looks _ _ _ _ _ _ _ _ _ L E1) as (e1 & L1 & T1).
  destruct (mt_fronts _ _ _ _) as [jobs| |]; cbn [obind] in H; try discriminate.
  destruct (train_at _ _ _ _ _) as [[jobs2 projs1]| |]; cbn [obind fst snd] in H; try discriminate.
  set (pout := map (job_message (nb_step k)) jobs2) in *.
  destruct (send_all_eq S_ pout b1 G1 F1) as (b2 & E2 & G2 & F2 & Z2 & O2 & Q2). rewrite E2 in H. cbn [obind] in H.
  destruct (send_all_looks _ _ _ _ _ _ _ L1 E2) as (e2 & L2 & T2).
  assert (Hp2 : pending b2 = sent_msgs pout ++ ext).
  { rewrite (pending_front _ F2), Q2, O2, Q1, O1, Ho, Hoth. reflexivity. }
  destruct (route_good S_ b2 G2) as (b3 & E3 & G3 & O3 & S3 & P3 & R3). rewrite E3 in H. cbn [obind] in H.
  pose proof (route_front b2 b3 (g_ids S_ b2 G2) F2 E3) as F3.
  destruct (route_own_looks _ _ _ _ _ _ L2 E3) as (e3 & L3 & T3). rewrite Hp2 in L3.
  destruct (unload_all 0 (map np_uid projs1) b3) as [[b4 jin]| |] eqn:E4; cbn [obind fst snd] in H; try discriminate.
  destruct (mt_nprojs _ _ _ _) as [[projs2 jout]| |]; cbn [obind fst snd] in H; try discriminate.
  destruct (send_all jout b4) as [b5| |] eqn:E5; cbn [obind fst snd] in H; try discriminate.
  destruct (route_receive_own b5) as [b6| |] eqn:E6; cbn [obind fst snd] in H; try discriminate.
  injection H as <- <-. cbn [nb_bus nr_msgs r_ext r_pop_out r_proj_out nr_trained] in *.
  assert (Hnd' : NoDup (map np_uid projs1)) by (rewrite Hu1; exact Hpd).
  destruct (unload_all_eq S_ 0 (map np_uid projs1) b3 G3 F3 Hnd') as (b4' & E4' & G4 & F4 & Z4 & O4 & Q4). rewrite E4 in E4'. injection E4' as <- _.
  destruct (send_all_eq S_ jout b4 G4 F4) as (b5' & E5' & G5 & F5 & Z5 & O5 & Q5). rewrite E5 in E5'. injection E5' as <-.
  destruct (unload_all_looks _ _ _ _ _ _ _ _ _ L3 E4) as (e4 & L4 & T4).
  destruct (send_all_looks _ _ _ _ _ _ _ L4 E5) as (e5 & L5 & T5).
  assert (Hp5 : pending b5 = sent_msgs jout).
  { assert (Hb3 : pending b3 = []) by exact P3. rewrite (pending_front _ F3) in Hb3. apply app_eq_nil in Hb3 as [X1 X2].
    rewrite (pending_front _ F5), Q5, O5, Q4, O4, X1, X2. cbn [app]. now rewrite app_nil_r. }
  destruct (route_own_looks _ _ _ _ _ _ L5 E6) as (e6 & L6 & T6). rewrite Hp5 in L6.
  exists e6. split; [|exact T6]. eapply looks_ext; [exact L6|]. intros i Hi. split; [reflexivity|].
  rewrite rev_app_distr, filter_app, <- !app_assoc. reflexivity.
Qed.
Lemma mt_ready_outside prev k ops b tr bs : mt_ready extra projs0 us pops0 prev k -> forallb outside ops = true -> run (nb_bus k) ops = Ret (b, tr) ->
  mt_ready extra projs0 us pops0 prev (mkNB b (nb_pops k) (learn_all bs (nb_projs k)) (nb_step k)).
Proof.
  intros (R & F & Hl & Hz) Hops Er. split; [exact (nready_outside _ _ _ _ _ _ _ _ bs R Hops Er)|]. cbn [nb_bus nb_pops nb_projs].
  split; [exact (outside_run_front _ _ _ _ (g_ids _ _ (nrd_good _ _ _ _ _ R)) F Hops Er)|]. split; [now apply learn_all_loadable|exact Hz].
Qed.
End Step.
