(** A wired model has a next round on the multi-threaded backend. *)
From Verif Require Import Base ListLemmas Messaging_Model Messaging_Spec Messaging_Proofs Messaging_Proofs2 Projection_Model Delta_Model Neuron_Model
  Pipeline_Model Pipeline_Spec Pipeline_Proofs Pipeline_Proofs2 Stdp_Model Additive_Model Train_Model Net_Model Net_Spec Net_Proofs Net_Proofs2 Net_Proofs3 Net_Proofs4
  Net_Proofs5 Safe_Spec Safe_Proofs Safe_Proofs2 Props_Safe
  Mt_Model Mt_Spec Mt_Proofs Mt_Proofs2 Sched_Model MtNet_Model MtNet_Spec MtNet_Proofs MtNet_Proofs2 MtSafe_Spec MtSafe_Proofs
  Framework_Model Exec_Model Exec_Spec Exec_Proofs Exec_Proofs2 Exec_Proofs3 Exec_Proofs4 Exec_Proofs5 Exec_Proofs6 Props_ExecSafe
  MtExec_Model MtExec_Spec MtExec_Proofs MtExec_Proofs2 MtExecSafe_Spec.

Section Progress.
Variable pow2f : flt -> flt.
Variables (ins outs : list (uid * list uid)) (calls : list xcall) (pops0 : list (uid * npop)) (projs0 : list nproj) (pp pj : N).
Hypothesis Hsound : sound_network pops0 projs0.
Local Notation extra := (connections ins calls).
Hypothesis Hwired : wired extra pops0 projs0.
Hypothesis Hvalid : weights_valid projs0.
Hypothesis Hpp : (0 < pp < two64)%N.
Local Notation roles := (all_roles ins outs calls).
Local Notation ni := (length ins).
Local Notation no := (length outs).
Definition calm_round (g : list xturn) : Prop := calm projs0 calls g.

Lemma inputs_single step g : calm_round g -> forall ins0 j, Forall (single projs0) (inputs_for step j ins0 g).
Proof.
  intros Hg. induction ins0 as [|[c ps] t IH]; intros j; cbn [inputs_for]; [constructor|]. apply Forall_app. split; [|apply IH].
  apply Forall_flat_map. apply Forall_forall. intros u Hu. destruct (Nat.eqb _ _); [constructor|]. constructor; [|constructor].
  destruct Hg as [Hg|[Hg _]]; [now right|left]. exact (Hg u j Hu).
Qed.
Lemma answers_single g n step M : calm_round g -> Forall (single projs0) (flat_map snd (map (answer n step M) (handlers calls))).
Proof.
  intros Hg. apply Forall_flat_map, Forall_map, Forall_forall. intros [[c ss] f] Hh. cbn [answer snd].
  destruct (f n (filter (wanted 0 ss) M)) eqn:Ef; constructor; [|constructor]. destruct Hg as [Hg|[_ Hg]]; [now right|left]. cbn [distinct_spikes]. rewrite <- Ef. exact (Hg _ _ _ Hh n _).
Qed.
Lemma calm_part g g' : calm_round g -> incl g' g -> calm_round g'.
Proof. intros [H|[H1 H2]] Hi; [now left|right]. split; [|exact H2]. intros u j Hu. apply H1, Hi, Hu. Qed.
Lemma mt_xprogress refused prev handled x k u sc : mt_xinv ins outs calls projs0 (map fst pops0) pops0 refused prev handled x k ->
  mt_safe extra pops0 projs0 prev k -> is_spikes handled -> calm_round (refused ++ [u]) -> Forall (single projs0) handled -> (xt_go u = true -> nsched_ok pp pj pops0 projs0 sc) ->
  exists x' o, mt_executor_turn pow2f ins outs calls u sc x = Ret (x', o).
Proof.
  intros [X MR] Hsa Hsp Hca Hsi Hsc. unfold mt_executor_turn.
  assert (Es : exists b, send_inputs (nb_step (x_net x)) 0 ins (xt_data u) (nb_bus (x_net x)) = Ret b).
  { destruct (xi_looks _ _ _ _ _ _ _ _ _ _ X) as (s & e0 & L & _).
    destruct (send_inputs_ok (nb_step (x_net x)) (xt_data u) ins [] (out_roles outs ++ call_roles calls) _ s none e0 L) as (b' & s' & E1 & _). eauto. }
  destruct Es as (b & Es). rewrite Es. cbn [obind]. pose proof (xinv_send _ _ _ _ _ _ _ _ _ _ _ _ X Es) as X1. cbn zeta in X1.
  destruct (xt_go u) eqn:Hgo; [|eauto]. specialize (Hsc eq_refl).
  set (k1 := with_net (x_net x) b (learn_all (xt_learn u) (nb_projs (x_net x)))) in *.
  pose proof (xinv_pending _ _ _ _ _ _ _ _ _ _ X1) as Hp. cbn [x_net] in Hp. change (nb_bus k1) with b in Hp.
  destruct X1 as [R (ops & tr & F & E) P J S_ T (s & e0 & L & H1 & H2 & H3)]. cbn [x_net] in *. change (nb_bus k1) with b in *.
  assert (Hk1 : k1 = mkNB b (nb_pops k) (learn_all (flat_map xt_learn (refused ++ [u])) (nb_projs k)) (nb_step k)).
  { rewrite <- P, <- J, <- S_. reflexivity. }
  assert (Hext : Forall (harmless extra pops0 projs0) (pending b)).
  { apply spikes_harmless. rewrite Hp. apply Forall_app. split; [apply inputs_spikes|exact Hsp]. }
  assert (Hex2 : Forall (single projs0) (pending b)).
  { rewrite Hp. apply Forall_app. split; [|exact Hsi]. apply inputs_single. exact Hca. }
  pose proof (mt_safe_ops extra pops0 projs0 prev k ops b tr (flat_map xt_learn (refused ++ [u])) Hsa F E) as Hsa1. rewrite <- Hk1 in Hsa1.
  destruct (mt_safe_step pow2f extra pops0 projs0 pp pj Hsound Hwired Hvalid Hpp sc prev k1 Hsa1 Hsc Hext Hex2) as (k2 & nrec & En & _ & _). change (nb_bus k1) with b in En. rewrite En. cbn [obind fst snd].
  pose proof (mt_ready_outside _ _ _ _ _ _ _ _ _ (flat_map xt_learn (refused ++ [u])) MR F E) as MR1. rewrite <- Hk1 in MR1.
  assert (En' : mt_nbackend_step pow2f sc (pending (nb_bus k1)) k1 = Ret (k2, nrec)) by exact En.
  destruct (mt_nstep_looks pow2f extra projs0 (map fst pops0) pops0 pp pj (sn_projs _ _ Hsound) (sn_pops _ _ Hsound) Hpp sc prev k1 k2 nrec roles s none e0 MR1 Hsc L En') as (e2 & L2 & T2).
  set (r2 := fun i => none i ++ filter (takes (nth (pred i) roles None)) (rev (r_ext (nr_msgs nrec))) ++
      filter (takes (nth (pred i) roles None)) (rev (sent_msgs (r_pop_out (nr_msgs nrec)))) ++
      filter (takes (nth (pred i) roles None)) (rev (sent_msgs (r_proj_out (nr_msgs nrec))))) in *.
  assert (Full : forall q ty v ss, nth_error roles q = Some (Some (ty, v, ss)) -> filter (wanted ty ss) (rev (r2 (S q))) = filter (wanted ty ss) (told (nr_msgs nrec))).
  { apply full_after. intros i. reflexivity. }
  assert (Li : length (in_roles ins) = ni) by apply map_length. assert (Lo : length (out_roles outs) = no) by apply map_length.
  unfold all_roles in L2.
  destruct (outputs_ok (told (nr_msgs nrec)) outs (in_roles ins) (call_roles calls) _ _ _ _ L2) as (b3 & r3 & E3 & L3 & T3 & K3 & K3').
  { intros q ty v ss Hq. rewrite Li. replace (S ni + q) with (S (ni + q)) by lia. apply (Full _ ty v). unfold all_roles. rewrite nth_error_app2 by (rewrite Li; lia).
    rewrite Li. replace (ni + q - ni) with q by lia. rewrite nth_error_app1; [exact Hq|]. apply nth_error_Some. congruence. }
  rewrite Li in E3, K3, K3'. rewrite E3. cbn [obind fst snd].
  rewrite app_assoc in L3.
  assert (Len : length (in_roles ins ++ out_roles outs) = ni + no) by (rewrite app_length, Li, Lo; reflexivity).
  destruct (handlers_ok (x_done x) (nb_step k2) (told (nr_msgs nrec)) calls (in_roles ins ++ out_roles outs) _ _ _ _ L3) as (b4 & s4 & r4 & E4 & L4 & T4 & K4 & K4' & K4'').
  { intros q ty v ss Hq. rewrite Len. replace (S (ni + no) + q) with (S (ni + no + q)) by lia. rewrite K3 by lia. apply (Full _ ty v).
    unfold all_roles. rewrite app_assoc, nth_error_app2 by (rewrite Len; lia). rewrite Len. now replace (ni + no + q - (ni + no)) with q by lia. }
  { reflexivity. }
  rewrite Len in E4, K4, K4', K4''. change (S (length ins + length outs)) with (S (length ins) + length outs) in E4. rewrite E4. cbn [obind fst snd].
  destruct (observers_ok (told (nr_msgs nrec)) calls (in_roles ins ++ out_roles outs) _ _ _ _ L4) as (b5 & r5 & E5 & L5 & T5 & K5 & K5').
  { intros q ty v ss Hq. rewrite Len. replace (S (ni + no) + q) with (S (ni + no + q)) by lia. rewrite (K4' q _ Hq). cbn [is_handler]. rewrite K3 by lia. apply (Full _ ty v).
    unfold all_roles. rewrite app_assoc, nth_error_app2 by (rewrite Len; lia). rewrite Len. replace (ni + no + q - (ni + no)) with q by lia.
    unfold call_roles. rewrite nth_error_map, Hq. reflexivity. }
  rewrite Len in E5, K5, K5'. change (S (length ins + length outs)) with (S (length ins) + length outs) in E5. rewrite E5. cbn [obind fst snd]. eauto.
Qed.
Lemma mt_xgoes all : calm_round all -> forall turns refused prev handled x k, mt_xinv ins outs calls projs0 (map fst pops0) pops0 refused prev handled x k ->
  mt_safe extra pops0 projs0 prev k -> is_spikes handled -> Forall (single projs0) handled -> incl refused all -> incl (map fst turns) all ->
  schedules_ok pp pj pops0 projs0 turns -> exists x' recs, mt_executor_run pow2f ins outs calls turns x = Ret (x', recs).
Proof.
  intros Hca. induction turns as [|[u sc] turns IH]; intros refused prev handled x k X Hsa Hsp Hsi Hr Ht Hsch; cbn [mt_executor_run]; [eauto|].
  unfold schedules_ok in Hsch. apply Forall_cons_iff in Hsch as [Hs1 Hsch]. cbn [fst snd] in Hs1. cbn [map fst] in Ht.
  assert (Hu : incl (refused ++ [u]) all) by (apply incl_app; [exact Hr|intros v [<-|[]]; apply Ht; now left]).
  assert (Ht' : incl (map fst turns) all) by (intros v Hv; apply Ht; now right).
  destruct (mt_xprogress refused prev handled x k u sc X Hsa Hsp (calm_part _ _ Hca Hu) Hsi Hs1) as (x1 & o & E1). rewrite E1. cbn [obind fst snd].
  assert (G : exists x' recs, mt_executor_run pow2f ins outs calls turns x1 = Ret (x', recs)).
  { destruct (xt_go u) eqn:Hgo.
    - destruct (mt_turn_go pow2f ins outs calls u sc x x1 o E1 Hgo) as (rec & ->). specialize (Hs1 eq_refl).
      destruct (mt_xstep pow2f ins outs calls projs0 (map fst pops0) pops0 pp pj (sn_projs _ _ Hsound) (sn_pops _ _ Hsound) Hpp refused prev handled x k u sc x1 rec X Hs1 Hgo E1)
        as (k2 & ops & tr & b & F & E & En & He & _ & Hh & _ & _ & _ & _ & X').
      pose proof (mt_safe_ops extra pops0 projs0 prev k ops b tr (flat_map xt_learn (refused ++ [u])) Hsa F E) as Hsa1.
      set (k1 := mkNB b (nb_pops k) (learn_all (flat_map xt_learn (refused ++ [u])) (nb_projs k)) (nb_step k)) in *.
      assert (Hpe : r_ext (nr_msgs (xr_net rec)) = pending b).
      { pose proof (mt_nstep_eq pow2f extra projs0 (map fst pops0) pops0 pp pj (sn_projs _ _ Hsound) (sn_pops _ _ Hsound) Hpp sc prev k1 (ms_ready _ _ _ _ _ Hsa1) Hs1) as Hq.
        change (nb_bus k1) with b in Hq.
        destruct (in_turn _ _ _ _ _) as [yy| |]; [|rewrite Hq in En; discriminate|rewrite Hq in En; discriminate].
        destruct Hq as (k2' & r2' & Es' & _ & _ & Q2 & _). rewrite En in Es'.
        assert (Er : xr_net rec = r2') by exact (f_equal (fun o => match o with Ret z => snd z | _ => xr_net rec end) Es'). rewrite Er. exact Q2. }
      rewrite He in Hpe.
      destruct (mt_safe_step pow2f extra pops0 projs0 pp pj Hsound Hwired Hvalid Hpp sc prev k1 Hsa1 Hs1) as (k2' & r' & En2 & _ & Hsa2).
      { change (nb_bus k1) with b. apply spikes_harmless. rewrite <- Hpe. apply Forall_app. split; [apply inputs_spikes|exact Hsp]. }
      { change (nb_bus k1) with b. rewrite <- Hpe. apply Forall_app. split; [apply inputs_single, (calm_part _ _ Hca Hu)|exact Hsi]. }
      change (nb_bus k1) with b in En2, Hsa2. rewrite En in En2. injection En2 as <- <-. rewrite <- Hpe, <- He in Hsa2.
      eapply (IH _ _ _ x1 k2 X' Hsa2); auto; [rewrite Hh; apply answers_spikes|rewrite Hh; eapply answers_single; exact Hca|intros v []].
    - destruct (mt_xrefuse pow2f ins outs calls projs0 (map fst pops0) pops0 refused prev handled x k u sc x1 o X Hgo E1) as (_ & _ & _ & X').
      eapply (IH _ _ _ x1 k X' Hsa Hsp); auto. }
  destruct G as (x' & recs & E). rewrite E. cbn [obind fst snd]. eauto.
Qed.
End Progress.
