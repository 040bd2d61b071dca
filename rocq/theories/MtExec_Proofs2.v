(** Runs of the executor on the multi-threaded backend. *)
From Verif Require Import Base ListLemmas Messaging_Model Messaging_Spec Messaging_Proofs Messaging_Proofs2 Neuron_Model
  Pipeline_Model Pipeline_Spec Pipeline_Proofs Pipeline_Proofs2 Stdp_Model Additive_Model Train_Model Net_Model Net_Spec Net_Proofs Net_Proofs2 Net_Proofs3 Net_Proofs4
  Mt_Model Mt_Spec Mt_Proofs Mt_Proofs2 Sched_Model MtNet_Model MtNet_Spec MtNet_Proofs MtNet_Proofs2
  Framework_Model Exec_Model Exec_Spec Exec_Proofs Exec_Proofs2 Exec_Proofs3 Exec_Proofs4 Exec_Proofs5 MtExec_Model MtExec_Spec MtExec_Proofs.

Section Run.
Variable pow2f : flt -> flt.
Variables (ins outs : list (uid * list uid)) (calls : list xcall) (projs0 : list nproj) (us : list uid) (pops0 : list (uid * npop)) (pp pj : N).
Hypothesis Hpd : NoDup (map np_uid projs0).
Hypothesis Hud : NoDup us.
Hypothesis Hpp : (0 < pp < two64)%N.
Let extra := connections ins calls.
Let roles := all_roles ins outs calls.
Let ni := length ins.
Let no := length outs.
Definition mt_xinv (refused : list xturn) (prev handled : list message) (x : xstate) (k : nbackend) : Prop :=
  xinv ins outs calls projs0 us refused prev handled x k /\ mt_ready extra projs0 us pops0 prev k.
Lemma mt_roles_split : roles = in_roles ins ++ out_roles outs ++ call_roles calls.
Proof. reflexivity. Qed.
Lemma mt_len_in : length (in_roles ins) = ni.
Proof. apply map_length. Qed.
Lemma mt_len_out : length (out_roles outs) = no.
Proof. apply map_length. Qed.

Lemma mt_xstep refused prev handled x k u sc x' rec : mt_xinv refused prev handled x k -> nsched_ok pp pj pops0 projs0 sc -> xt_go u = true ->
  mt_executor_turn pow2f ins outs calls u sc x = Ret (x', Some rec) ->
  exists k2 ops tr b, forallb outside ops = true /\ run (nb_bus k) ops = Ret (b, tr) /\
    mt_nbackend_step pow2f sc (pending b) (mkNB b (nb_pops k) (learn_all (flat_map xt_learn (refused ++ [u])) (nb_projs k)) (nb_step k)) = Ret (k2, xr_net rec) /\
    r_ext (nr_msgs (xr_net rec)) = inputs_for (nb_step k) 0 ins (refused ++ [u]) ++ handled /\
    xr_out rec = map (fun c => filter (wanted 0 (snd c)) (told (nr_msgs (xr_net rec)))) outs /\
    xr_handled rec = map (answer (x_done x) (add64 (nb_step k) 1) (told (nr_msgs (xr_net rec)))) (handlers calls) /\
    xr_observed rec = map (fun o => filter (wanted (fst o) (snd o)) (told (nr_msgs (xr_net rec)))) (observers calls) /\
    x_buffers x' = map (fun e => oc_update (snd e) (fst e)) (combine (x_buffers x) (xr_out rec)) /\
    x_done x' = S (x_done x) /\ nb_step k2 = add64 (nb_step k) 1 /\
    mt_xinv [] (r_ext (nr_msgs (xr_net rec)) ++ sent_msgs (r_proj_out (nr_msgs (xr_net rec)))) (flat_map snd (xr_handled rec)) x' k2.
Proof.
  intros [X MR] Hsc Hgo H. unfold mt_executor_turn in H.
  destruct (send_inputs (nb_step (x_net x)) 0 ins (xt_data u) (nb_bus (x_net x))) as [b| |] eqn:Es; cbn [obind] in H; try discriminate.
  pose proof (xinv_send _ _ _ _ _ _ _ _ _ _ _ _ X Es) as X1. rewrite Hgo in H.
  set (k1 := with_net (x_net x) b (learn_all (xt_learn u) (nb_projs (x_net x)))) in *.
  pose proof (xinv_pending _ _ _ _ _ _ _ _ _ _ X1) as Hp. cbn [x_net] in Hp. change (nb_bus k1) with b in Hp.
  destruct X1 as [R (ops & tr & F & E) P J S_ T (s & e0 & L & H1 & H2 & H3)]. cbn [x_net] in *. change (nb_bus k1) with b in *.
  destruct (mt_nbackend_step pow2f sc (pending b) k1) as [[k2 nrec]| |] eqn:En; cbn [obind fst snd] in H; try discriminate.
  assert (Hk1 : k1 = mkNB b (nb_pops k) (learn_all (flat_map xt_learn (refused ++ [u])) (nb_projs k)) (nb_step k)).
  { rewrite <- P, <- J, <- S_. reflexivity. }
  pose proof (nready_outside _ _ _ _ _ _ _ _ (flat_map xt_learn (refused ++ [u])) R F E) as R1. rewrite <- Hk1 in R1.
  pose proof (mt_ready_outside _ _ _ _ _ _ _ _ _ (flat_map xt_learn (refused ++ [u])) MR F E) as MR1. rewrite <- Hk1 in MR1.
  assert (En' : mt_nbackend_step pow2f sc (pending (nb_bus k1)) k1 = Ret (k2, nrec)) by exact En.
  destruct (mt_nstep_looks pow2f extra projs0 us pops0 pp pj Hpd Hud Hpp sc prev k1 k2 nrec roles s none e0 MR1 Hsc L En') as (e2 & L2 & T2).
  assert (Hq : mt_ready extra projs0 us pops0 (pending (nb_bus k1) ++ sent_msgs (r_proj_out (nr_msgs nrec))) k2 /\ r_ext (nr_msgs nrec) = pending (nb_bus k1) /\ nb_step k2 = add64 (nb_step k1) 1).
  { pose proof (mt_nstep_eq pow2f extra projs0 us pops0 pp pj Hpd Hud Hpp sc prev k1 MR1 Hsc) as Hq.
    destruct (in_turn _ _ _ _ _) as [yy| |]; [|rewrite Hq in En'; discriminate|rewrite Hq in En'; discriminate].
    destruct Hq as (k2' & r2' & Es' & _ & Q1 & Q2 & _ & _ & _ & _ & Q3). rewrite En' in Es'.
    assert (Ek : k2 = k2') by exact (f_equal (fun o => match o with Ret z => fst z | _ => k2 end) Es').
    assert (Er : nrec = r2') by exact (f_equal (fun o => match o with Ret z => snd z | _ => nrec end) Es').
    rewrite Ek, Er. auto. }
  destruct Hq as (MR2 & Hext & Hst).
  change (nb_bus k1) with b in Hext. assert (Hst' : nb_step k2 = add64 (nb_step k) 1) by (rewrite Hst, S_; reflexivity).
  set (r2 := fun i => none i ++ filter (takes (nth (pred i) roles None)) (rev (r_ext (nr_msgs nrec))) ++
      filter (takes (nth (pred i) roles None)) (rev (sent_msgs (r_pop_out (nr_msgs nrec)))) ++
      filter (takes (nth (pred i) roles None)) (rev (sent_msgs (r_proj_out (nr_msgs nrec))))) in *.
  assert (Full : forall q ty v ss, nth_error roles q = Some (Some (ty, v, ss)) -> filter (wanted ty ss) (rev (r2 (S q))) = filter (wanted ty ss) (told (nr_msgs nrec))).
  { apply full_after. intros i. reflexivity. }
  (* outputs *)
  rewrite mt_roles_split in L2.
  destruct (outputs_ok (told (nr_msgs nrec)) outs (in_roles ins) (call_roles calls) _ _ _ _ L2) as (b3 & r3 & E3 & L3 & T3 & K3 & K3').
  { intros q ty v ss Hq. rewrite mt_len_in. replace (S ni + q) with (S (ni + q)) by lia. apply (Full _ ty v). rewrite mt_roles_split, nth_error_app2 by (rewrite mt_len_in; lia).
    rewrite mt_len_in. replace (ni + q - ni) with q by lia. rewrite nth_error_app1; [exact Hq|]. apply nth_error_Some. congruence. }
  rewrite mt_len_in in E3, K3, K3'. unfold ni in E3. fold no in K3, K3'. rewrite E3 in H. cbn [obind fst snd] in H.
  (* handlers *)
  rewrite app_assoc in L3.
  assert (Len : length (in_roles ins ++ out_roles outs) = ni + no) by (rewrite app_length, mt_len_in, mt_len_out; reflexivity).
  destruct (handlers_ok (x_done x) (nb_step k2) (told (nr_msgs nrec)) calls (in_roles ins ++ out_roles outs) _ _ _ _ L3) as (b4 & s4 & r4 & E4 & L4 & T4 & K4 & K4' & K4'').
  { intros q ty v ss Hq. rewrite Len. replace (S (ni + no) + q) with (S (ni + no + q)) by lia. rewrite K3 by lia. apply (Full _ ty v).
    rewrite mt_roles_split, app_assoc, nth_error_app2 by (rewrite Len; lia). rewrite Len. now replace (ni + no + q - (ni + no)) with q by lia. }
  { reflexivity. }
  rewrite Len in E4, K4, K4', K4''. unfold ni, no in E4. change (S (length ins + length outs)) with (S (length ins) + length outs) in E4. rewrite E4 in H. cbn [obind fst snd] in H.
  (* observers *)
  destruct (observers_ok (told (nr_msgs nrec)) calls (in_roles ins ++ out_roles outs) _ _ _ _ L4) as (b5 & r5 & E5 & L5 & T5 & K5 & K5').
  { intros q ty v ss Hq. rewrite Len. replace (S (ni + no) + q) with (S (ni + no + q)) by lia. rewrite (K4' q _ Hq). cbn [is_handler]. rewrite K3 by lia. apply (Full _ ty v).
    rewrite mt_roles_split, app_assoc, nth_error_app2 by (rewrite Len; lia). rewrite Len. replace (ni + no + q - (ni + no)) with q by lia.
    unfold call_roles. rewrite nth_error_map, Hq. reflexivity. }
  rewrite Len in E5, K5, K5'. unfold ni, no in E5. change (S (length ins + length outs)) with (S (length ins) + length outs) in E5. rewrite E5 in H. cbn [obind fst snd] in H.
  injection H as <- <-. cbn [xr_net xr_out xr_handled xr_observed x_buffers x_done].
  exists k2, ops, tr, b. rewrite <- Hk1. split; [exact F|]. split; [exact E|]. split; [exact En|]. split; [congruence|]. split; [reflexivity|].
  split; [now rewrite Hst'|]. do 4 (split; [reflexivity || exact Hst'|]).
  split; [|cbn [x_net]; rewrite Hext; exact MR2].
  split; cbn [x_net with_net nb_bus nb_pops nb_projs nb_step]; auto.
  - rewrite Hext. apply MR2.
  - eapply else_trans; [eapply else_outputs; [|exact E3]; lia|]. eapply else_trans; [eapply else_handlers; [|exact E4]; lia|].
    eapply else_observers; [|exact E5]; lia.
  - congruence.
  - exists s4, e2. split; [|split; [|split]].
    + rewrite <- app_assoc in L5. rewrite <- mt_roles_split in L5. eapply looks_ext; [exact L5|]. intros i Hi. change (all_roles ins outs calls) with roles in Hi. split; [reflexivity|]. unfold none.
      rewrite mt_roles_split, !app_length, mt_len_in, mt_len_out in Hi.
      destruct (Nat.lt_ge_cases i (ni + no)) as [Hlt|Hge].
      * rewrite K5 by lia. rewrite (proj2 (K4 (S i) ltac:(lia))). destruct (Nat.lt_ge_cases i ni) as [Hl|Hg].
        -- rewrite K3 by lia. unfold r2, none. cbn [pred app].
           assert (N0 : nth i roles None = None).
           { rewrite mt_roles_split, app_nth1 by (rewrite mt_len_in; exact Hl). unfold in_roles. clear. revert i. induction ins as [|c t IH]; intros [|i]; cbn [map nth]; auto. }
           rewrite N0, !filter_takes_none. reflexivity.
        -- replace i with (ni + (i - ni)) by lia. apply K3'. lia.
      * destruct (nth_error calls (i - (ni + no))) as [c|] eqn:Ec.
        -- pose proof (K5' _ _ Ec) as Q. pose proof (K4' _ _ Ec) as Q'. replace (ni + no + (i - (ni + no))) with i in Q, Q' by lia. rewrite Q. destruct (is_handler c); [exact Q'|reflexivity].
        -- apply nth_error_None in Ec. unfold call_roles in Hi. rewrite map_length in Hi. lia.
    + intros j c Hc. assert (j < ni) by (apply nth_error_Some; congruence). rewrite (proj1 (K4 (S j) ltac:(lia))). reflexivity.
    + intros i Hi. rewrite (proj1 (K4 i ltac:(lia))). reflexivity.
    + exact K4''.
Qed.
Lemma mt_xrefuse refused prev handled x k u sc x' o : mt_xinv refused prev handled x k -> xt_go u = false ->
  mt_executor_turn pow2f ins outs calls u sc x = Ret (x', o) ->
  o = None /\ x_buffers x' = x_buffers x /\ x_done x' = x_done x /\ mt_xinv (refused ++ [u]) prev handled x' k.
Proof.
  intros [X MR] Hgo H. unfold mt_executor_turn in H.
  destruct (send_inputs (nb_step (x_net x)) 0 ins (xt_data u) (nb_bus (x_net x))) as [b| |] eqn:Es; cbn [obind] in H; try discriminate.
  pose proof (xinv_send _ _ _ _ _ _ _ _ _ _ _ _ X Es) as X1. rewrite Hgo in H. injection H as <- <-. split; [reflexivity|]. split; [reflexivity|]. split; [reflexivity|]. split; assumption.
Qed.
Lemma mt_turn_go u sc x x' o : mt_executor_turn pow2f ins outs calls u sc x = Ret (x', o) -> xt_go u = true -> exists rec, o = Some rec.
Proof.
  intros H Hgo. unfold mt_executor_turn in H. destruct (send_inputs _ _ _ _ _) as [b| |]; cbn [obind] in H; try discriminate. rewrite Hgo in H.
  destruct (mt_nbackend_step _ _ _ _) as [[k2 nrec]| |]; cbn [obind fst snd] in H; try discriminate.
  destruct (update_outputs _ _ _) as [[b3 l3]| |]; cbn [obind fst snd] in H; try discriminate.
  destruct (update_handlers _ _ _ _ _) as [[b4 l4]| |]; cbn [obind fst snd] in H; try discriminate.
  destruct (update_observers _ _ _) as [[b5 l5]| |]; cbn [obind fst snd] in H; try discriminate. injection H as _ <-. eauto.
Qed.
Lemma mt_xrun : forall turns refused prev handled x k x' recs, mt_xinv refused prev handled x k -> (nb_step k < two64)%N -> schedules_ok pp pj pops0 projs0 turns ->
  mt_executor_run pow2f ins outs calls turns x = Ret (x', recs) ->
  exists turns' k', Forall (fun c => forallb outside (tu_ops (fst c)) = true /\ nsched_ok pp pj pops0 projs0 (snd c)) turns' /\ map snd turns' = step_schedules turns /\
    map (fun c => tu_learn (fst c)) turns' = map (flat_map xt_learn) (rounds refused (map fst turns)) /\
    mt_nbackend_run pow2f turns' k = Ret (k', map xr_net recs) /\
    length recs = length (rounds refused (map fst turns)) /\
    (forall t rec g, nth_error recs t = Some rec -> nth_error (rounds refused (map fst turns)) t = Some g ->
      r_ext (nr_msgs (xr_net rec)) = inputs_for ((nb_step k + N.of_nat t) mod two64) 0 ins g ++ before_it handled recs t /\
      xr_out rec = map (fun c => filter (wanted 0 (snd c)) (told (nr_msgs (xr_net rec)))) outs /\
      xr_handled rec = map (answer (x_done x + t) ((nb_step k + N.of_nat (S t)) mod two64) (told (nr_msgs (xr_net rec)))) (handlers calls) /\
      xr_observed rec = map (fun o => filter (wanted (fst o) (snd o)) (told (nr_msgs (xr_net rec)))) (observers calls)) /\
    (length (x_buffers x) = no -> length (x_buffers x') = no /\
      forall j buf, nth_error (x_buffers x) j = Some buf -> nth_error (x_buffers x') j = Some (buf ++ flat_map (fun r => nth j (xr_out r) []) recs)) /\
    x_done x' = x_done x + length recs /\
    exists prev' handled', mt_xinv (unfinished refused (map fst turns)) prev' handled' x' k'.
Proof.
  induction turns as [|[u sc] turns IH]; intros refused prev handled x k x' recs X Hlt Hsch H; cbn [mt_executor_run] in H.
  - injection H as <- <-. exists [], k. cbn [rounds map nbackend_run length unfinished]. split; [constructor|]. do 4 (split; [reflexivity|]).
    split; [intros [|t]; discriminate|]. split; [|split; [lia|eauto]]. intros Hb. split; [exact Hb|]. intros j buf Hj. cbn [flat_map]. now rewrite app_nil_r.
  - destruct (mt_executor_turn pow2f ins outs calls u sc x) as [[x1 o]| |] eqn:Et; cbn [obind fst snd] in H; try discriminate.
    destruct (mt_executor_run pow2f ins outs calls turns x1) as [[x2 recs1]| |] eqn:Er; cbn [obind fst snd] in H; try discriminate.
    cbn [rounds unfinished map fst]. unfold schedules_ok in Hsch. apply Forall_cons_iff in Hsch as [Hs1 Hsch]. cbn [fst snd] in Hs1. unfold step_schedules. cbn [filter fst]. destruct (xt_go u) eqn:Hgo.
    + destruct (mt_turn_go _ _ _ _ _ Et Hgo) as [rec ->]. cbn [obind fst snd] in H. injection H as <- <-.
      destruct (mt_xstep _ _ _ _ _ _ _ _ _ X (Hs1 eq_refl) Hgo Et) as (k2 & ops & tr & b & F & E & En & C1 & C2 & C3 & C4 & C5 & C6 & C7 & X2).
      assert (Hlt2 : (nb_step k2 < two64)%N) by (rewrite C7; unfold add64, w64; apply N.mod_lt; discriminate).
      destruct (IH _ _ _ _ _ _ _ X2 Hlt2 Hsch Er) as (turns' & k' & I1 & I1' & I2 & I3 & I4 & I5 & I6 & I7 & I8).
      exists ((mkTurn ops (flat_map xt_learn (refused ++ [u])), sc) :: turns'), k'. split; [constructor; auto|]. split; [cbn [map snd]; now rewrite I1'|]. split; [cbn [map tu_learn fst]; now rewrite I2|].
      split. { cbn [mt_nbackend_run map tu_ops tu_learn]. rewrite E. cbn [obind fst snd]. rewrite En. cbn [obind fst snd]. rewrite I3. reflexivity. }
      split; [cbn [length]; now rewrite I4|].
      assert (Stp : forall t : nat, ((nb_step k2 + N.of_nat t) mod two64 = (nb_step k + N.of_nat (S t)) mod two64)%N).
      { intros t. rewrite C7. unfold add64, w64. rewrite N.add_mod_idemp_l by discriminate. f_equal. lia. }
      split; [|split; [|split; [cbn [length]; rewrite I7, C6; lia|exact I8]]].
      * intros [|t] rec0 g Ht Hg; cbn [nth_error] in Ht, Hg.
        -- injection Ht as <-. injection Hg as <-. cbn [N.of_nat before_it]. rewrite N.add_0_r, (N.mod_small _ _ Hlt), Nat.add_0_r.
           change (N.of_nat 1) with 1%N. auto.
        -- destruct (I5 t rec0 g Ht Hg) as (J1 & J2 & J3 & J4). rewrite !Stp in *. rewrite C6 in J3. replace (S (x_done x) + t) with (x_done x + S t) in J3 by lia.
           split; [|auto]. rewrite J1. f_equal. destruct t; reflexivity.
      * intros Hb. assert (Hlen : length (xr_out rec) = no) by (rewrite C2, map_length; reflexivity).
        assert (Hb1 : length (x_buffers x1) = no). { rewrite C5, map_length, combine_length, Hb, Hlen. apply Nat.min_id. }
        destruct (I6 Hb1) as (Q1 & Q2). split; [exact Q1|]. intros j buf Hj.
        assert (Hjl : j < no) by (rewrite <- Hb; apply nth_error_Some; congruence).
        destruct (nth_error (xr_out rec) j) as [ms|] eqn:Em; [|apply nth_error_None in Em; lia].
        assert (Hc : nth_error (combine (x_buffers x) (xr_out rec)) j = Some (buf, ms)).
        { clear - Hj Em. revert Hj Em. generalize (x_buffers x) (xr_out rec). induction j as [|j IH]; intros [|a l] [|c l']; cbn [nth_error combine]; try discriminate.
          - now intros [= ->] [= ->].
          - apply IH. }
        rewrite (Q2 j (buf ++ ms)).
        -- cbn [flat_map]. rewrite (nth_error_nth _ _ _ Em), <- app_assoc. reflexivity.
        -- rewrite C5, nth_error_map, Hc. reflexivity.
    + destruct (mt_xrefuse _ _ _ _ _ _ _ _ _ X Hgo Et) as (-> & B1 & D1 & X1). cbn [obind fst snd] in H. injection H as <- <-.
      destruct (IH _ _ _ _ _ _ _ X1 Hlt Hsch Er) as (turns' & k' & I1 & I1' & I2 & I3 & I4 & I5 & I6 & I7 & I8). rewrite B1, D1 in *.
      exists turns', k'. auto 12.
Qed.
End Run.
