(** Runs of the executor. *)
From Verif Require Import Base ListLemmas Messaging_Model Messaging_Spec Messaging_Proofs Messaging_Proofs2 Neuron_Model
  Pipeline_Model Pipeline_Spec Pipeline_Proofs Pipeline_Proofs2 Stdp_Model Additive_Model Train_Model Net_Model Net_Spec Net_Proofs Net_Proofs2 Net_Proofs3 Net_Proofs4
  Framework_Model Exec_Model Exec_Spec Exec_Proofs Exec_Proofs2 Exec_Proofs3 Exec_Proofs4.

Lemma learn_all_app a b projs : learn_all (a ++ b) projs = learn_all b (learn_all a projs).
Proof. unfold learn_all. apply fold_left_app. Qed.
Lemma ic_send_if c step d : ic_send c step d = if Nat.eqb (length d) 0 then [] else [SpikeMsg c step d].
Proof. destruct d; reflexivity. Qed.
Lemma sends_inputs step g : forall ins j s,
  (forall k c, nth_error ins k = Some c -> s (S (j + k)) = flat_map (fun u => ic_send (fst c) step (xt_data u (j + k))) g) ->
  sends_of (S j) (in_roles ins) s = inputs_for step j ins g.
Proof.
  induction ins as [|[c ps] t IH]; intros j s H; cbn [in_roles map sends_of inputs_for]; [reflexivity|]. f_equal.
  - pose proof (H 0 _ eq_refl) as H0. rewrite Nat.add_0_r in H0. rewrite H0. cbn [fst]. apply flat_map_ext. intros u. apply ic_send_if.
  - apply (IH (S j)). intros k d Hd. replace (S j + k) with (j + S k) by lia. now apply H.
Qed.
Lemma sends_none rs i s : (forall k, k < length rs -> s (i + k) = []) -> sends_of i rs s = [].
Proof. intros H. rewrite (sends_ext rs i s (fun _ => [])); [now apply sends_nil|]. intros k Hk. now apply H. Qed.
Lemma filter_takes_none l : filter (takes None) l = [].
Proof. induction l as [|m l IH]; cbn [filter takes]; auto. Qed.

Section Run.
Variables pow2f expf : flt -> flt.
Variables (ins outs : list (uid * list uid)) (calls : list xcall) (projs0 : list nproj) (us : list uid).
Hypothesis Hpd : NoDup (map np_uid projs0).
Hypothesis Hud : NoDup us.
Let extra := connections ins calls.
Let roles := all_roles ins outs calls.
Let ni := length ins.
Let no := length outs.

(** The state between two rounds: the state [k] after the last step, and the rounds
    that were refused since. *)
Record xinv (refused : list xturn) (prev handled : list message) (x : xstate) (k : nbackend) : Prop := mkXinv {
  xi_ready : nready extra projs0 us prev k;
  xi_else : elsewhere (nb_bus k) (nb_bus (x_net x));
  xi_pops : nb_pops (x_net x) = nb_pops k;
  xi_projs : nb_projs (x_net x) = learn_all (flat_map xt_learn refused) (nb_projs k);
  xi_step : nb_step (x_net x) = nb_step k;
  xi_route : b_route (nb_bus (x_net x)) = [];
  xi_looks : exists s e0, looks (nb_bus (x_net x)) roles s none e0 /\
    (forall j c, nth_error ins j = Some c -> s (S j) = flat_map (fun u => ic_send (fst c) (nb_step k) (xt_data u j)) refused) /\
    (forall i, ni < i <= ni + no -> s i = []) /\
    sends_of (S (ni + no)) (call_roles calls) s = handled }.

Lemma roles_split : roles = in_roles ins ++ out_roles outs ++ call_roles calls.
Proof. reflexivity. Qed.
Lemma len_in : length (in_roles ins) = ni.
Proof. apply map_length. Qed.
Lemma len_out : length (out_roles outs) = no.
Proof. apply map_length. Qed.

(** Sending the inputs, from such a state. *)
Lemma xinv_send refused prev handled x k u b : xinv refused prev handled x k ->
  send_inputs (nb_step (x_net x)) 0 ins (xt_data u) (nb_bus (x_net x)) = Ret b ->
  let x1 := mkX (with_net (x_net x) b (learn_all (xt_learn u) (nb_projs (x_net x)))) (x_buffers x) (x_done x) in
  xinv (refused ++ [u]) prev handled x1 k.
Proof.
  intros [R E P J S_ T (s & e0 & L & H1 & H2 & H3)] Hs x1. destruct (send_inputs_ok (nb_step (x_net x)) (xt_data u) ins [] (out_roles outs ++ call_roles calls) _ s none e0 L) as
    (b' & s' & E1 & L1 & R1 & K1 & K2). cbn [length] in *. rewrite Hs in E1. injection E1 as <-.
  split; unfold x1; cbn [x_net with_net nb_bus nb_pops nb_projs nb_step]; auto.
  - eapply else_trans; [exact E|]. eapply else_inputs; eauto.
  - rewrite flat_map_app, learn_all_app, J. cbn [flat_map]. now rewrite app_nil_r.
  - congruence.
  - exists s', e0. split; [exact L1|]. split; [|split].
    + intros j c Hc. pose proof (K2 j c Hc) as K. cbn [plus] in K. rewrite K, (H1 j c Hc), flat_map_app, S_. cbn [flat_map]. now rewrite app_nil_r.
    + intros i Hi. rewrite K1 by (right; fold ni; lia). now apply H2.
    + rewrite <- H3. apply sends_ext. intros k0 _. apply K1. right. fold ni. lia.
Qed.
Lemma xinv_pending refused prev handled x k : xinv refused prev handled x k ->
  pending (nb_bus (x_net x)) = inputs_for (nb_step k) 0 ins refused ++ handled.
Proof.
  intros [R (ops & tr & F & E) P J S_ T (s & e0 & L & H1 & H2 & H3)].
  pose proof (nrd_own _ _ _ _ _ (nready_outside _ _ _ _ _ _ _ _ [] R F E)) as Ho. cbn [nb_bus] in Ho. rewrite (looks_own _ _ _ _ _ L) in Ho.
  rewrite (looks_pending _ _ _ _ _ L), T, Ho. cbn [app]. rewrite roles_split, sends_app, sends_app, len_in, len_out. f_equal; [|f_equal].
  - now apply sends_inputs.
  - rewrite sends_none; [now replace (1 + ni + no) with (S (ni + no)) by lia|]. intros q Hq. rewrite len_out in Hq. apply H2. lia.
Qed.

(** What listeners hear in a step. *)
Definition told (r : record) : list message := sent_msgs (r_proj_out r) ++ sent_msgs (r_pop_out r) ++ r_ext r.
Lemma xstep refused prev handled x k u x' rec : xinv refused prev handled x k -> xt_go u = true ->
  executor_turn pow2f expf ins outs calls u x = Ret (x', Some rec) ->
  exists k2 ops tr b, forallb outside ops = true /\ run (nb_bus k) ops = Ret (b, tr) /\
    nbackend_step pow2f expf (pending b) (mkNB b (nb_pops k) (learn_all (flat_map xt_learn (refused ++ [u])) (nb_projs k)) (nb_step k)) = Ret (k2, xr_net rec) /\
    r_ext (nr_msgs (xr_net rec)) = inputs_for (nb_step k) 0 ins (refused ++ [u]) ++ handled /\
    xr_out rec = map (fun c => filter (wanted 0 (snd c)) (told (nr_msgs (xr_net rec)))) outs /\
    xr_handled rec = map (answer (x_done x) (add64 (nb_step k) 1) (told (nr_msgs (xr_net rec)))) (handlers calls) /\
    xr_observed rec = map (fun o => filter (wanted (fst o) (snd o)) (told (nr_msgs (xr_net rec)))) (observers calls) /\
    x_buffers x' = map (fun e => oc_update (snd e) (fst e)) (combine (x_buffers x) (xr_out rec)) /\
    x_done x' = S (x_done x) /\ nb_step k2 = add64 (nb_step k) 1 /\
    xinv [] (sent_msgs (r_proj_out (nr_msgs (xr_net rec)))) (flat_map snd (xr_handled rec)) x' k2.
Proof.
  intros X Hgo H. unfold executor_turn in H.
  destruct (send_inputs (nb_step (x_net x)) 0 ins (xt_data u) (nb_bus (x_net x))) as [b| |] eqn:Es; cbn [obind] in H; try discriminate.
  pose proof (xinv_send _ _ _ _ _ _ _ X Es) as X1. rewrite Hgo in H.
  set (k1 := with_net (x_net x) b (learn_all (xt_learn u) (nb_projs (x_net x)))) in *.
  pose proof (xinv_pending _ _ _ _ _ X1) as Hp. cbn [x_net] in Hp. change (nb_bus k1) with b in Hp.
  destruct X1 as [R (ops & tr & F & E) P J S_ T (s & e0 & L & H1 & H2 & H3)]. cbn [x_net] in *. change (nb_bus k1) with b in *.
  destruct (nbackend_step pow2f expf (pending b) k1) as [[k2 nrec]| |] eqn:En; cbn [obind fst snd] in H; try discriminate.
  assert (Hk1 : k1 = mkNB b (nb_pops k) (learn_all (flat_map xt_learn (refused ++ [u])) (nb_projs k)) (nb_step k)).
  { rewrite <- P, <- J, <- S_. reflexivity. }
  pose proof (nready_outside _ _ _ _ _ _ _ _ (flat_map xt_learn (refused ++ [u])) R F E) as R1. rewrite <- Hk1 in R1.
  assert (En' : nbackend_step pow2f expf (pending (nb_bus k1)) k1 = Ret (k2, nrec)) by exact En.
  destruct (nstep_looks pow2f expf extra projs0 us Hpd Hud prev k1 k2 nrec roles s none e0 R1 L En') as (e2 & L2 & T2).
  destruct (nstep_eq pow2f expf extra projs0 us Hpd Hud prev k1 k2 nrec R1 En') as (_ & R2 & Hext & _ & _ & _ & _ & Hst).
  change (nb_bus k1) with b in Hext. assert (Hst' : nb_step k2 = add64 (nb_step k) 1) by (rewrite Hst, S_; reflexivity).
  set (r2 := fun i => none i ++ filter (takes (nth (pred i) roles None)) (rev (r_ext (nr_msgs nrec))) ++
      filter (takes (nth (pred i) roles None)) (rev (sent_msgs (r_pop_out (nr_msgs nrec)))) ++
      filter (takes (nth (pred i) roles None)) (rev (sent_msgs (r_proj_out (nr_msgs nrec))))) in *.
  assert (Full : forall q ty v ss, nth_error roles q = Some (Some (ty, v, ss)) -> filter (wanted ty ss) (rev (r2 (S q))) = filter (wanted ty ss) (told (nr_msgs nrec))).
  { apply full_after. intros i. reflexivity. }
  (* outputs *)
  rewrite roles_split in L2.
  destruct (outputs_ok (told (nr_msgs nrec)) outs (in_roles ins) (call_roles calls) _ _ _ _ L2) as (b3 & r3 & E3 & L3 & T3 & K3 & K3').
  { intros q ty v ss Hq. rewrite len_in. replace (S ni + q) with (S (ni + q)) by lia. apply (Full _ ty v). rewrite roles_split, nth_error_app2 by (rewrite len_in; lia).
    rewrite len_in. replace (ni + q - ni) with q by lia. rewrite nth_error_app1; [exact Hq|]. apply nth_error_Some. congruence. }
  rewrite len_in in E3, K3, K3'. unfold ni in E3. fold no in K3, K3'. rewrite E3 in H. cbn [obind fst snd] in H.
  (* handlers *)
  rewrite app_assoc in L3.
  assert (Len : length (in_roles ins ++ out_roles outs) = ni + no) by (rewrite app_length, len_in, len_out; reflexivity).
  destruct (handlers_ok (x_done x) (nb_step k2) (told (nr_msgs nrec)) calls (in_roles ins ++ out_roles outs) _ _ _ _ L3) as (b4 & s4 & r4 & E4 & L4 & T4 & K4 & K4' & K4'').
  { intros q ty v ss Hq. rewrite Len. replace (S (ni + no) + q) with (S (ni + no + q)) by lia. rewrite K3 by lia. apply (Full _ ty v).
    rewrite roles_split, app_assoc, nth_error_app2 by (rewrite Len; lia). rewrite Len. now replace (ni + no + q - (ni + no)) with q by lia. }
  { reflexivity. }
  rewrite Len in E4, K4, K4', K4''. unfold ni, no in E4. change (S (length ins + length outs)) with (S (length ins) + length outs) in E4. rewrite E4 in H. cbn [obind fst snd] in H.
  (* observers *)
  destruct (observers_ok (told (nr_msgs nrec)) calls (in_roles ins ++ out_roles outs) _ _ _ _ L4) as (b5 & r5 & E5 & L5 & T5 & K5 & K5').
  { intros q ty v ss Hq. rewrite Len. replace (S (ni + no) + q) with (S (ni + no + q)) by lia. rewrite (K4' q _ Hq). cbn [is_handler]. rewrite K3 by lia. apply (Full _ ty v).
    rewrite roles_split, app_assoc, nth_error_app2 by (rewrite Len; lia). rewrite Len. replace (ni + no + q - (ni + no)) with q by lia.
    unfold call_roles. rewrite nth_error_map, Hq. reflexivity. }
  rewrite Len in E5, K5, K5'. unfold ni, no in E5. change (S (length ins + length outs)) with (S (length ins) + length outs) in E5. rewrite E5 in H. cbn [obind fst snd] in H.
  injection H as <- <-. cbn [xr_net xr_out xr_handled xr_observed x_buffers x_done].
  exists k2, ops, tr, b. rewrite <- Hk1. split; [exact F|]. split; [exact E|]. split; [exact En|]. split; [congruence|]. split; [reflexivity|].
  split; [now rewrite Hst'|]. do 4 (split; [reflexivity || exact Hst'|]).
  split; cbn [x_net with_net nb_bus nb_pops nb_projs nb_step]; auto.
  - eapply else_trans; [eapply else_outputs; [|exact E3]; lia|]. eapply else_trans; [eapply else_handlers; [|exact E4]; lia|].
    eapply else_observers; [|exact E5]; lia.
  - congruence.
  - exists s4, e2. split; [|split; [|split]].
    + rewrite <- app_assoc in L5. rewrite <- roles_split in L5. eapply looks_ext; [exact L5|]. intros i Hi. split; [reflexivity|]. unfold none.
      rewrite roles_split, !app_length, len_in, len_out in Hi.
      destruct (Nat.lt_ge_cases i (ni + no)) as [Hlt|Hge].
      * rewrite K5 by lia. rewrite (proj2 (K4 (S i) ltac:(lia))). destruct (Nat.lt_ge_cases i ni) as [Hl|Hg].
        -- rewrite K3 by lia. unfold r2, none. cbn [pred app].
           assert (N0 : nth i roles None = None).
           { rewrite roles_split, app_nth1 by (rewrite len_in; exact Hl). unfold in_roles. clear. revert i. induction ins as [|c t IH]; intros [|i]; cbn [map nth]; auto. }
           rewrite N0, !filter_takes_none. reflexivity.
        -- replace i with (ni + (i - ni)) by lia. apply K3'. lia.
      * destruct (nth_error calls (i - (ni + no))) as [c|] eqn:Ec.
        -- pose proof (K5' _ _ Ec) as Q. pose proof (K4' _ _ Ec) as Q'. replace (ni + no + (i - (ni + no))) with i in Q, Q' by lia. rewrite Q. destruct (is_handler c); [exact Q'|reflexivity].
        -- apply nth_error_None in Ec. unfold call_roles in Hi. rewrite map_length in Hi. lia.
    + intros j c Hc. assert (j < ni) by (apply nth_error_Some; congruence). rewrite (proj1 (K4 (S j) ltac:(lia))). reflexivity.
    + intros i Hi. rewrite (proj1 (K4 i ltac:(lia))). reflexivity.
    + exact K4''.
Qed.
Lemma xrefuse refused prev handled x k u x' o : xinv refused prev handled x k -> xt_go u = false ->
  executor_turn pow2f expf ins outs calls u x = Ret (x', o) ->
  o = None /\ x_buffers x' = x_buffers x /\ x_done x' = x_done x /\ xinv (refused ++ [u]) prev handled x' k.
Proof.
  intros X Hgo H. unfold executor_turn in H.
  destruct (send_inputs (nb_step (x_net x)) 0 ins (xt_data u) (nb_bus (x_net x))) as [b| |] eqn:Es; cbn [obind] in H; try discriminate.
  pose proof (xinv_send _ _ _ _ _ _ _ X Es) as X1. rewrite Hgo in H. injection H as <- <-. auto.
Qed.
Lemma turn_go u x x' o : executor_turn pow2f expf ins outs calls u x = Ret (x', o) -> xt_go u = true -> exists rec, o = Some rec.
Proof.
  intros H Hgo. unfold executor_turn in H. destruct (send_inputs _ _ _ _ _) as [b| |]; cbn [obind] in H; try discriminate. rewrite Hgo in H.
  destruct (nbackend_step _ _ _ _) as [[k2 nrec]| |]; cbn [obind fst snd] in H; try discriminate.
  destruct (update_outputs _ _ _) as [[b3 l3]| |]; cbn [obind fst snd] in H; try discriminate.
  destruct (update_handlers _ _ _ _ _) as [[b4 l4]| |]; cbn [obind fst snd] in H; try discriminate.
  destruct (update_observers _ _ _) as [[b5 l5]| |]; cbn [obind fst snd] in H; try discriminate. injection H as _ <-. eauto.
Qed.
Definition before_it (h : list message) (recs : list xrecord) (t : nat) : list message :=
  match t with 0 => h | S _ => handled_before recs t end.

Lemma xrun : forall turns refused prev handled x k x' recs, xinv refused prev handled x k -> (nb_step k < two64)%N ->
  executor_run pow2f expf ins outs calls turns x = Ret (x', recs) ->
  exists turns' k', Forall (fun u => forallb outside (tu_ops u) = true) turns' /\
    map tu_learn turns' = map (flat_map xt_learn) (rounds refused turns) /\
    nbackend_run pow2f expf turns' k = Ret (k', map xr_net recs) /\
    length recs = length (rounds refused turns) /\
    (forall t rec g, nth_error recs t = Some rec -> nth_error (rounds refused turns) t = Some g ->
      r_ext (nr_msgs (xr_net rec)) = inputs_for ((nb_step k + N.of_nat t) mod two64) 0 ins g ++ before_it handled recs t /\
      xr_out rec = map (fun c => filter (wanted 0 (snd c)) (told (nr_msgs (xr_net rec)))) outs /\
      xr_handled rec = map (answer (x_done x + t) ((nb_step k + N.of_nat (S t)) mod two64) (told (nr_msgs (xr_net rec)))) (handlers calls) /\
      xr_observed rec = map (fun o => filter (wanted (fst o) (snd o)) (told (nr_msgs (xr_net rec)))) (observers calls)) /\
    (length (x_buffers x) = no -> length (x_buffers x') = no /\
      forall j buf, nth_error (x_buffers x) j = Some buf -> nth_error (x_buffers x') j = Some (buf ++ flat_map (fun r => nth j (xr_out r) []) recs)) /\
    x_done x' = x_done x + length recs /\
    exists prev' handled', xinv (unfinished refused turns) prev' handled' x' k'.
Proof.
  induction turns as [|u turns IH]; intros refused prev handled x k x' recs X Hlt H; cbn [executor_run] in H.
  - injection H as <- <-. exists [], k. cbn [rounds map nbackend_run length unfinished]. split; [constructor|]. do 3 (split; [reflexivity|]).
    split; [intros [|t]; discriminate|]. split; [|split; [lia|eauto]]. intros Hb. split; [exact Hb|]. intros j buf Hj. cbn [flat_map]. now rewrite app_nil_r.
  - destruct (executor_turn pow2f expf ins outs calls u x) as [[x1 o]| |] eqn:Et; cbn [obind fst snd] in H; try discriminate.
    destruct (executor_run pow2f expf ins outs calls turns x1) as [[x2 recs1]| |] eqn:Er; cbn [obind fst snd] in H; try discriminate.
    cbn [rounds unfinished]. destruct (xt_go u) eqn:Hgo.
    + destruct (turn_go _ _ _ _ Et Hgo) as [rec ->]. cbn [obind fst snd] in H. injection H as <- <-.
      destruct (xstep _ _ _ _ _ _ _ _ X Hgo Et) as (k2 & ops & tr & b & F & E & En & C1 & C2 & C3 & C4 & C5 & C6 & C7 & X2).
      assert (Hlt2 : (nb_step k2 < two64)%N) by (rewrite C7; unfold add64, w64; apply N.mod_lt; discriminate).
      destruct (IH _ _ _ _ _ _ _ X2 Hlt2 Er) as (turns' & k' & I1 & I2 & I3 & I4 & I5 & I6 & I7 & I8).
      exists (mkTurn ops (flat_map xt_learn (refused ++ [u])) :: turns'), k'. split; [constructor; auto|]. split; [cbn [map tu_learn]; now rewrite I2|].
      split. { cbn [nbackend_run map tu_ops tu_learn]. rewrite E. cbn [obind fst snd]. rewrite En. cbn [obind fst snd]. rewrite I3. reflexivity. }
      split; [cbn [length]; now rewrite I4|].
      assert (Stp : forall t : nat, ((nb_step k2 + N.of_nat t) mod two64 = (nb_step k + N.of_nat (S t)) mod two64)%N).
      { intros t. rewrite C7. unfold add64, w64. rewrite N.add_mod_idemp_l by discriminate. f_equal. lia. }
      split; [|split; [|split; [cbn [length]; rewrite I7, C6; lia|exact I8]]].
      * intros [|t] rec0 g Ht Hg; cbn [nth_error] in Ht, Hg.
        -- injection Ht as <-. injection Hg as <-. cbn [N.of_nat before_it]. rewrite N.add_0_r, (N.mod_small _ _ Hlt), Nat.add_0_r.
           change (N.of_nat 1) with 1%N. auto.
        -- destruct (I5 t rec0 g Ht Hg) as (J1 & J2 & J3 & J4). rewrite !Stp in *. rewrite C6 in J3. replace (S (x_done x) + t) with (x_done x + S t) in J3 by lia.
           split; [|auto]. rewrite J1. f_equal. destruct t; reflexivity.
      * intros Hb. assert (Hlen : length (xr_out rec) = no) by (rewrite C2, map_length; reflexivity).
        assert (Hb1 : length (x_buffers x1) = no). { rewrite C5, map_length, combine_length, Hb, Hlen. apply Nat.min_id. }
        destruct (I6 Hb1) as (Q1 & Q2). split; [exact Q1|]. intros j buf Hj.
        assert (Hjl : j < no) by (rewrite <- Hb; apply nth_error_Some; congruence).
        destruct (nth_error (xr_out rec) j) as [ms|] eqn:Em; [|apply nth_error_None in Em; lia].
        assert (Hc : nth_error (combine (x_buffers x) (xr_out rec)) j = Some (buf, ms)).
        { clear - Hj Em. revert Hj Em. generalize (x_buffers x) (xr_out rec). induction j as [|j IH]; intros [|a l] [|c l']; cbn [nth_error combine]; try discriminate.
          - now intros [= ->] [= ->].
          - apply IH. }
        rewrite (Q2 j (buf ++ ms)).
        -- cbn [flat_map]. rewrite (nth_error_nth _ _ _ Em), <- app_assoc. reflexivity.
        -- rewrite C5, nth_error_map, Hc. reflexivity.
    + destruct (xrefuse _ _ _ _ _ _ _ _ X Hgo Et) as (-> & B1 & D1 & X1). cbn [obind fst snd] in H. injection H as <- <-.
      destruct (IH _ _ _ _ _ _ _ X1 Hlt Er) as (turns' & k' & I1 & I2 & I3 & I4 & I5 & I6 & I7 & I8). rewrite B1, D1 in *.
      exists turns', k'. auto 10.
Qed.
End Run.
