(** Property theorems C116: models never fail under the executor. *)
From Verif Require Import Base ListLemmas Messaging_Model Messaging_Spec Messaging_Proofs Messaging_Proofs2 Neuron_Model
  Pipeline_Model Pipeline_Spec Pipeline_Proofs Pipeline_Proofs2 Stdp_Model Additive_Model Train_Model Net_Model Net_Spec Net_Proofs Net_Proofs2 Net_Proofs3 Net_Proofs4
  Net_Proofs5 Props_Net Props_Net2 Framework_Model Safe_Spec Safe_Proofs Safe_Proofs2 Props_Safe Exec_Model Exec_Spec Exec_Proofs Exec_Proofs2 Exec_Proofs3 Exec_Proofs4 Exec_Proofs5 Exec_Proofs6 Props_Exec.

Definition is_spikes (l : list message) : Prop := Forall (fun m => msg_type m = 0) l.
Lemma inputs_spikes step g : forall ins j, is_spikes (inputs_for step j ins g).
Proof.
  intros ins. induction ins as [|[c ps] ins IH]; intros j; cbn [inputs_for]; [constructor|]. apply Forall_app. split; [|apply IH].
  apply Forall_flat_map. apply Forall_forall. intros u _. destruct (Nat.eqb _ _); repeat constructor.
Qed.
Lemma answers_spikes n step M hs : is_spikes (flat_map snd (map (answer n step M) hs)).
Proof.
  apply Forall_flat_map, Forall_map, Forall_forall. intros [[u ss] f] _. cbn [answer snd]. destruct (f n (filter (wanted 0 ss) M)); repeat constructor.
Qed.

Section Progress.
Variables pow2f expf : flt -> flt.
Variables (ins outs : list (uid * list uid)) (calls : list xcall) (pops0 : list (uid * npop)) (projs0 : list nproj).
Hypothesis Hsound : sound_network pops0 projs0.
Local Notation extra := (connections ins calls).
Hypothesis Hwired : wired extra pops0 projs0.
Local Notation roles := (all_roles ins outs calls).
Local Notation ni := (length ins).
Local Notation no := (length outs).

Lemma xprogress refused prev handled x k u : xinv ins outs calls projs0 (map fst pops0) refused prev handled x k ->
  safe extra pops0 projs0 prev k -> is_spikes handled ->
  exists x' o, executor_turn pow2f expf ins outs calls u x = Ret (x', o).
Proof.
  intros X Hsa Hsp. unfold executor_turn.
  assert (Es : exists b, send_inputs (nb_step (x_net x)) 0 ins (xt_data u) (nb_bus (x_net x)) = Ret b).
  { destruct (xi_looks _ _ _ _ _ _ _ _ _ _ X) as (s & e0 & L & _).
    destruct (send_inputs_ok (nb_step (x_net x)) (xt_data u) ins [] (out_roles outs ++ call_roles calls) _ s none e0 L) as (b' & s' & E1 & _). eauto. }
  destruct Es as (b & Es). rewrite Es. cbn [obind]. pose proof (xinv_send _ _ _ _ _ _ _ _ _ _ _ _ X Es) as X1. cbn zeta in X1.
  destruct (xt_go u) eqn:Hgo; [|eauto].
  set (k1 := with_net (x_net x) b (learn_all (xt_learn u) (nb_projs (x_net x)))) in *.
  pose proof (xinv_pending _ _ _ _ _ _ _ _ _ _ X1) as Hp. cbn [x_net] in Hp. change (nb_bus k1) with b in Hp.
  destruct X1 as [R (ops & tr & F & E) P J S_ T (s & e0 & L & H1 & H2 & H3)]. cbn [x_net] in *. change (nb_bus k1) with b in *.
  assert (Hk1 : k1 = mkNB b (nb_pops k) (learn_all (flat_map xt_learn (refused ++ [u])) (nb_projs k)) (nb_step k)).
  { rewrite <- P, <- J, <- S_. reflexivity. }
  assert (Hext : Forall (harmless extra pops0 projs0) (pending b)).
  { apply spikes_harmless. rewrite Hp. apply Forall_app. split; [apply inputs_spikes|exact Hsp]. }
  pose proof (safe_ops extra pops0 projs0 prev k ops b tr (flat_map xt_learn (refused ++ [u])) Hsa F E) as Hsa1. rewrite <- Hk1 in Hsa1.
  destruct (safe_step pow2f expf extra pops0 projs0 Hsound Hwired prev k1 Hsa1 Hext) as (k2 & nrec & En & _ & _). change (nb_bus k1) with b in En. rewrite En. cbn [obind fst snd].
  pose proof (nready_outside _ _ _ _ _ _ _ _ (flat_map xt_learn (refused ++ [u])) R F E) as R1. rewrite <- Hk1 in R1.
  assert (En' : nbackend_step pow2f expf (pending (nb_bus k1)) k1 = Ret (k2, nrec)) by exact En.
  destruct (nstep_looks pow2f expf extra projs0 _ (sn_projs _ _ Hsound) (sn_pops _ _ Hsound) prev k1 k2 nrec roles s none e0 R1 L En') as (e2 & L2 & T2).
  set (r2 := fun i => none i ++ filter (takes (nth (pred i) roles None)) (rev (r_ext (nr_msgs nrec))) ++
      filter (takes (nth (pred i) roles None)) (rev (sent_msgs (r_pop_out (nr_msgs nrec)))) ++
      filter (takes (nth (pred i) roles None)) (rev (sent_msgs (r_proj_out (nr_msgs nrec))))) in *.
  assert (Full : forall q ty v ss, nth_error roles q = Some (Some (ty, v, ss)) -> filter (wanted ty ss) (rev (r2 (S q))) = filter (wanted ty ss) (told (nr_msgs nrec))).
  { apply full_after. intros i. reflexivity. }
  assert (Li : length (in_roles ins) = ni) by apply map_length. assert (Lo : length (out_roles outs) = no) by apply map_length.
  unfold all_roles in L2.
  destruct (outputs_ok (told (nr_msgs nrec)) outs (in_roles ins) (call_roles calls) _ _ _ _ L2) as (b3 & r3 & E3 & L3 & T3 & K3 & K3').
  { intros q ty v ss Hq. rewrite Li. replace (S ni + q) with (S (ni + q)) by lia. apply (Full _ ty v). unfold all_roles. rewrite nth_error_app2 by (rewrite Li; lia).
    rewrite Li. replace (ni + q - ni) with q by lia. rewrite nth_error_app1; [exact Hq|]. apply nth_error_Some. congruence. }
  rewrite Li in E3, K3, K3'. rewrite E3. cbn [obind fst snd].
  rewrite app_assoc in L3.
  assert (Len : length (in_roles ins ++ out_roles outs) = ni + no) by (rewrite app_length, Li, Lo; reflexivity).
  destruct (handlers_ok (x_done x) (nb_step k2) (told (nr_msgs nrec)) calls (in_roles ins ++ out_roles outs) _ _ _ _ L3) as (b4 & s4 & r4 & E4 & L4 & T4 & K4 & K4' & K4'').
  { intros q ty v ss Hq. rewrite Len. replace (S (ni + no) + q) with (S (ni + no + q)) by lia. rewrite K3 by lia. apply (Full _ ty v).
    unfold all_roles. rewrite app_assoc, nth_error_app2 by (rewrite Len; lia). rewrite Len. now replace (ni + no + q - (ni + no)) with q by lia. }
  { reflexivity. }
  rewrite Len in E4, K4, K4', K4''. change (S (length ins + length outs)) with (S (length ins) + length outs) in E4. rewrite E4. cbn [obind fst snd].
  destruct (observers_ok (told (nr_msgs nrec)) calls (in_roles ins ++ out_roles outs) _ _ _ _ L4) as (b5 & r5 & E5 & L5 & T5 & K5 & K5').
  { intros q ty v ss Hq. rewrite Len. replace (S (ni + no) + q) with (S (ni + no + q)) by lia. rewrite (K4' q _ Hq). cbn [is_handler]. rewrite K3 by lia. apply (Full _ ty v).
    unfold all_roles. rewrite app_assoc, nth_error_app2 by (rewrite Len; lia). rewrite Len. replace (ni + no + q - (ni + no)) with q by lia.
    unfold call_roles. rewrite nth_error_map, Hq. reflexivity. }
  rewrite Len in E5, K5, K5'. change (S (length ins + length outs)) with (S (length ins) + length outs) in E5. rewrite E5. cbn [obind fst snd]. eauto.
Qed.
Lemma xgoes : forall turns refused prev handled x k, xinv ins outs calls projs0 (map fst pops0) refused prev handled x k ->
  safe extra pops0 projs0 prev k -> is_spikes handled -> exists x' recs, executor_run pow2f expf ins outs calls turns x = Ret (x', recs).
Proof.
  induction turns as [|u turns IH]; intros refused prev handled x k X Hsa Hsp; cbn [executor_run]; [eauto|].
  destruct (xprogress refused prev handled x k u X Hsa Hsp) as (x1 & o & E1). rewrite E1. cbn [obind fst snd].
  assert (G : exists x' recs, executor_run pow2f expf ins outs calls turns x1 = Ret (x', recs)).
  { destruct (xt_go u) eqn:Hgo.
    - destruct (turn_go pow2f expf ins outs calls u x x1 o E1 Hgo) as (rec & ->).
      destruct (xstep pow2f expf ins outs calls projs0 (map fst pops0) (sn_projs _ _ Hsound) (sn_pops _ _ Hsound) refused prev handled x k u x1 rec X Hgo E1)
        as (k2 & ops & tr & b & F & E & En & He & _ & Hh & _ & _ & _ & _ & X').
      pose proof (safe_ops extra pops0 projs0 prev k ops b tr (flat_map xt_learn (refused ++ [u])) Hsa F E) as Hsa1.
      set (k1 := mkNB b (nb_pops k) (learn_all (flat_map xt_learn (refused ++ [u])) (nb_projs k)) (nb_step k)) in *.
      assert (Hpe : pending b = inputs_for (nb_step k) 0 ins (refused ++ [u]) ++ handled).
      { rewrite <- He. destruct (nstep_eq pow2f expf extra projs0 (map fst pops0) (sn_projs _ _ Hsound) (sn_pops _ _ Hsound) prev k1 k2 (xr_net rec) (sa_ready _ _ _ _ _ Hsa1) En) as (_ & _ & Hx & _). now rewrite Hx. }
      destruct (safe_step pow2f expf extra pops0 projs0 Hsound Hwired prev k1 Hsa1) as (k2' & r' & En2 & Hsa2 & _).
      { change (nb_bus k1) with b. apply spikes_harmless. rewrite Hpe. apply Forall_app. split; [apply inputs_spikes|exact Hsp]. }
      change (nb_bus k1) with b in En2. rewrite En in En2. injection En2 as <- <-.
      eapply (IH _ _ _ x1 k2 X' Hsa2). rewrite Hh. apply answers_spikes.
    - destruct (xrefuse pow2f expf ins outs calls projs0 (map fst pops0) refused prev handled x k u x1 o X Hgo E1) as (_ & _ & _ & X'). eapply (IH _ _ _ x1 k X' Hsa Hsp). }
  destruct G as (x' & recs & E). rewrite E. cbn [obind fst snd]. eauto.
Qed.
End Progress.

(** *** C116 *)
(** A model whose input channels have their generators and whose network is wired (what the
    input channels and handlers feed included): every sequence of rounds, over any number of
    starts, with any data, any handlers, any predicate and any switching of learning, is
    carried out. *)
Theorem c116_never_fails pow2f expf gens ins outs calls pops projs turns :
  sound_network pops projs -> wired (connections ins calls) pops projs -> incl (map fst ins) gens ->
  exists x recs, executor_ran pow2f expf gens ins outs calls pops projs turns x recs.
Proof.
  intros Hs Hw Hg0.
  assert (Hg : forallb (fun c => mem (fst c) gens) ins = true).
  { apply forallb_forall. intros c Hc. apply mem_In, Hg0, in_map, Hc. }
  destruct (set_up gens ins outs calls pops projs Hg Hs) as (x0 & k0 & e0 & ops & tr & Ei & Ek & F & E & L & T & P & J & S_ & B & D).
  destruct (nbackend_init_ready (connections ins calls) pops projs Hs) as (k1 & Ek1 & K1 & K2 & K3 & R). rewrite Ek in Ek1. injection Ek1 as <-.
  assert (X : xinv ins outs calls projs (map fst pops) [] [] [] x0 k0).
  { split; [exact R|now exists ops, tr|congruence|unfold learn_all; cbn [flat_map fold_left]; congruence|congruence|exact T|].
    exists none, e0. split; [exact L|]. split; [reflexivity|]. split; [reflexivity|]. now apply sends_nil. }
  destruct (xgoes pow2f expf ins outs calls pops projs Hs Hw turns [] [] [] x0 k0 X (safe_init _ _ _ Hs Hw k0 Ek) ltac:(constructor)) as (x & recs & Er).
  exists x, recs, x0. auto.
Qed.
Print Assumptions c116_never_fails.
(** As many steps are made as there are rounds the predicate agreed to. *)
Theorem c116_steps pow2f expf gens ins outs calls pops projs turns :
  sound_network pops projs -> wired (connections ins calls) pops projs -> incl (map fst ins) gens ->
  exists x recs, executor_ran pow2f expf gens ins outs calls pops projs turns x recs /\ length recs = length (filter xt_go turns) /\ x_done x = length recs.
Proof.
  intros Hs Hw Hg. destruct (c116_never_fails pow2f expf gens ins outs calls pops projs turns Hs Hw Hg) as (x & recs & H). exists x, recs. split; [exact H|].
  destruct (ran_facts _ _ _ _ _ _ _ _ _ _ _ Hs H) as (turns' & k & _ & _ & _ & _ & _ & Hl & _ & _ & _ & Hd). split; [|exact Hd]. rewrite Hl.
  clear. generalize (@nil xturn). induction turns as [|u turns IH]; intros l; cbn [rounds filter]; [reflexivity|]. destruct (xt_go u); cbn [length]; now rewrite IH.
Qed.
Print Assumptions c116_steps.
(** A channel without a generator: the loader throws, whatever the network. *)
Theorem c116_no_generator gens ins outs calls pops projs : ~ incl (map fst ins) gens -> executor_init gens ins outs calls pops projs = Throw.
Proof.
  intros H. unfold executor_init. rewrite gen_inputs_throw; [reflexivity|]. destruct (forallb (fun c => mem (fst c) gens) ins) eqn:E; [|reflexivity].
  exfalso. apply H. intros u Hu. apply in_map_iff in Hu as (c & <- & Hc). rewrite forallb_forall in E. apply mem_In. now apply E.
Qed.
Print Assumptions c116_no_generator.

(** The model of Props_Exec (a channel, an output, a handler, two observers) meets the
    hypotheses. *)
Example c116_case : sound_network net_pops (net_projs 2) /\ wired (connections xe_ins xe_calls) net_pops (net_projs 2) /\ incl (map fst xe_ins) [9]%N.
Proof.
  split; [apply net_sound|]. split; [|intros u Hu; exact Hu]. split.
  - intros u a Hu. cbn [net_pops In] in Hu. intuition (match goal with H : (_, _) = (_, _) |- _ => injection H as <- <- end; exact I).
  - intros u a w s Hu Hw Hr Hs. cbn [net_pops net_projs In] in *.
    repeat match goal with H : _ \/ _ |- _ => destruct H as [H|H] | H : False |- _ => destruct H end;
    try (injection Hu as <- <-); subst w; cbn in Hs; destruct Hs as [<-|[]];
    (destruct Hr as [[_ Hr]|Hr]; [cbn in Hr; try discriminate Hr|discriminate Hr]); cbn; repeat split; auto; intros; discriminate.
Qed.
