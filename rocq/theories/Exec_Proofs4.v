(** Setting up the executor; its phases as calls from outside of the backend. *)
From Verif Require Import Base ListLemmas Messaging_Model Messaging_Spec Messaging_Proofs Messaging_Proofs2 Neuron_Model
  Pipeline_Model Pipeline_Spec Pipeline_Proofs Pipeline_Proofs2 Stdp_Model Additive_Model Train_Model Net_Model Net_Spec Net_Proofs Net_Proofs2 Net_Proofs3 Net_Proofs4
  Framework_Model Exec_Model Exec_Spec Exec_Proofs Exec_Proofs2 Exec_Proofs3.

Lemma own_kept b o b' x : ids_ok b -> (exists e, ep_find 0 b = Some e) -> setting o = true -> exec b o = Ret (b', x) ->
  ids_ok b' /\ exists e, ep_find 0 b' = Some e.
Proof.
  intros Hi [e0 H0] Hs E. split; [eapply ids_ok_exec; eauto|].
  destruct o as [| |i ty u ss| | | | | | | | | |]; try discriminate.
  - cbn [exec] in E. injection E as <- _. rewrite ep_find_create by exact Hi. destruct (Nat.eqb 0 (b_next b)); eauto.
  - cbn [exec] in E. unfold on_ep in E. destruct (ep_find i b) as [e|] eqn:Ei; [|discriminate E]. cbn [obind fst snd] in E. injection E as <- _.
    pose proof (ep_find_Some _ _ _ Ei) as (_ & Pi & Ai).
    rewrite (ep_find_put 0 b e (subscribe ty u ss e) Hi) by (rewrite ?sub_id, ?sub_alive, ?Pi; assumption).
    destruct (Nat.eqb 0 (e_id (subscribe ty u ss e))); eauto.
Qed.
Lemma swap_many o : setting o = true -> own_op o = false -> forall owns b b1 x c tr, ids_ok b -> (exists e, ep_find 0 b = Some e) ->
  forallb own_op owns = true -> exec b o = Ret (b1, x) -> run b1 owns = Ret (c, tr) ->
  exists d tr', run b owns = Ret (d, tr') /\ exec d o = Ret (c, x).
Proof.
  intros Hs Ho. induction owns as [|w owns IH]; intros b b1 x c tr Hi H0 Hw E R; cbn [run] in R |- *.
  - injection R as <- _. eauto.
  - cbn [forallb] in Hw. apply andb_prop in Hw as [Hw1 Hw2].
    destruct w as [| |[|i] ty u ss| | | | | | | | | |]; try discriminate.
    destruct (exec b1 (OSubscribe 0 ty u ss)) as [[b2 y]| |] eqn:E2; cbn [obind fst snd] in R; try discriminate.
    destruct (run b2 owns) as [[b3 tr3]| |] eqn:R3; cbn [obind fst snd] in R; try discriminate. injection R as <- _.
    destruct (swap_own _ _ _ _ _ _ _ _ _ Hi H0 Hs Ho E E2) as (d & D1 & D2). rewrite D1. cbn [obind fst snd].
    destruct (own_kept _ (OSubscribe 0 ty u ss) _ _ Hi H0 eq_refl D1) as [Hi' H0'].
    destruct (IH _ _ _ _ _ Hi' H0' Hw2 D2 R3) as (d' & tr' & D3 & D4). rewrite D3. cbn [obind fst snd]. eauto.
Qed.
Lemma filter_own_all l : forallb own_op (filter own_op l) = true.
Proof. induction l as [|o l IH]; cbn [filter]; [reflexivity|]. destruct (own_op o) eqn:E; cbn [forallb]; rewrite ?E; auto. Qed.
Lemma own_first : forall ops b c tr, ids_ok b -> (exists e, ep_find 0 b = Some e) -> forallb setting ops = true -> run b ops = Ret (c, tr) ->
  exists b' tr1 tr2, run b (filter own_op ops) = Ret (b', tr1) /\ run b' (filter (fun o => negb (own_op o)) ops) = Ret (c, tr2).
Proof.
  induction ops as [|o ops IH]; intros b c tr Hi H0 Hs R; cbn [run filter] in R |- *.
  - injection R as <- _. eauto.
  - cbn [forallb] in Hs. apply andb_prop in Hs as [Hs1 Hs2].
    destruct (exec b o) as [[b1 x]| |] eqn:E; cbn [obind fst snd] in R; try discriminate.
    destruct (run b1 ops) as [[b2 t2]| |] eqn:R2; cbn [obind fst snd] in R; try discriminate. injection R as <- _.
    destruct (own_kept _ _ _ _ Hi H0 Hs1 E) as [Hi' H0'].
    destruct (IH _ _ _ Hi' H0' Hs2 R2) as (b' & tr1 & tr2 & E1 & E2). destruct (own_op o) eqn:Eo; cbn [negb run].
    + rewrite E. cbn [obind fst snd]. rewrite E1. cbn [obind fst snd]. eauto.
    + destruct (swap_many o Hs1 Eo _ _ _ _ _ _ Hi H0 (filter_own_all ops) E E1) as (d & tr' & D1 & D2).
      rewrite D1. eexists _, _, _. split; [reflexivity|]. rewrite D2. cbn [obind fst snd]. rewrite E2. reflexivity.
Qed.

(** ** The calls that set up the bus *)
Definition conn_ops (rs : list uid) (u : uid) : list op := map (fun r => OSubscribe 0 0 r [u]) rs.
Lemma gen_inputs_ret gens : forall ins, forallb (fun c => mem (fst c) gens) ins = true ->
  gen_inputs gens ins = Ret (map fst ins, flat_map (fun c => OCreate :: conn_ops (snd c) (fst c)) ins).
Proof.
  induction ins as [|[c ps] t IH]; intros H; cbn [gen_inputs map flat_map fst snd]; [reflexivity|]. cbn [forallb fst] in H. apply andb_prop in H as [H1 H2].
  rewrite H1, IH by exact H2. reflexivity.
Qed.
Lemma gen_inputs_throw gens : forall ins, forallb (fun c => mem (fst c) gens) ins = false -> gen_inputs gens ins = Throw.
Proof.
  induction ins as [|[c ps] t IH]; intros H; cbn [gen_inputs]; [discriminate|]. cbn [forallb fst] in H. destruct (mem c gens); [|reflexivity].
  cbn [andb] in H. now rewrite IH.
Qed.
Lemma own_conn rs u : filter own_op (conn_ops rs u) = conn_ops rs u /\ filter (fun o => negb (own_op o)) (conn_ops rs u) = [] /\ forallb setting (conn_ops rs u) = true.
Proof.
  unfold conn_ops. induction rs as [|r t (H1 & H2 & H3)]; cbn [map filter own_op negb forallb setting andb]; [auto|]. now rewrite H1, H2, H3.
Qed.
Definition set_ins (ins : list (uid * list uid)) : list op := flat_map (fun c => OCreate :: conn_ops (snd c) (fst c)) ins.
Definition set_outs (id : nat) (outs : list (uid * list uid)) : list op := snd (gen_outputs id outs).
Lemma set_outs_cons id c ps t : set_outs id ((c, ps) :: t) = OCreate :: OSubscribe id 0 c ps :: set_outs (S id) t.
Proof. unfold set_outs. cbn [gen_outputs]. destruct (gen_outputs (S id) t). reflexivity. Qed.
Lemma forallb_app' {A} (p : A -> bool) a b : forallb p (a ++ b) = forallb p a && forallb p b.
Proof. apply forallb_app. Qed.
Lemma ins_parts ins : filter own_op (set_ins ins) = extra_ops (flat_map (fun c => map (fun p => mkSubscr 0 p [fst c]) (snd c)) ins) /\
  forallb outside (filter (fun o => negb (own_op o)) (set_ins ins)) = true /\ forallb setting (set_ins ins) = true.
Proof.
  unfold set_ins. induction ins as [|[c ps] t (H1 & H2 & H3)]; cbn [flat_map]; [auto|]. destruct (own_conn ps c) as (C1 & C2 & C3). cbn [fst snd app filter own_op negb].
  rewrite !filter_app, C1, C2, H1. cbn [app forallb setting outside]. rewrite forallb_app', C3, H2, H3. split; [|auto].
  unfold extra_ops, conn_ops. rewrite map_app, map_map. reflexivity.
Qed.
Lemma outs_parts : forall outs id, id <> 0 -> filter own_op (set_outs id outs) = [] /\
  forallb outside (filter (fun o => negb (own_op o)) (set_outs id outs)) = true /\ forallb setting (set_outs id outs) = true.
Proof.
  induction outs as [|[c ps] t IH]; intros id Hid; [auto|]. rewrite set_outs_cons. destruct (IH (S id) ltac:(lia)) as (H1 & H2 & H3).
  destruct id as [|id]; [congruence|]. cbn [filter own_op negb forallb outside setting Nat.eqb andb]. auto.
Qed.
Lemma calls_parts : forall calls id, id <> 0 ->
  filter own_op (call_ops id calls) = extra_ops (flat_map (fun c => match c with AddHandler u _ rs _ => map (fun p => mkSubscr 0 p [u]) rs | _ => [] end) calls) /\
  forallb outside (filter (fun o => negb (own_op o)) (call_ops id calls)) = true /\ forallb setting (call_ops id calls) = true.
Proof.
  induction calls as [|c t IH]; intros id Hid; [cbn; auto|]. destruct (IH (S id) ltac:(lia)) as (H1 & H2 & H3). destruct id as [|id]; [congruence|].
  destruct c as [u ss rs f|ty u ss]; cbn [call_ops flat_map].
  - destruct (own_conn rs u) as (C1 & C2 & C3). unfold conn_ops in *. cbn [filter own_op negb forallb outside setting Nat.eqb andb].
    rewrite !filter_app, C1, C2, H1. cbn [app]. rewrite forallb_app', C3, H2, H3. split; [|auto]. unfold extra_ops. rewrite map_app, map_map. reflexivity.
  - cbn [filter own_op negb forallb outside setting Nat.eqb andb app]. auto.
Qed.
Lemma ninit_parts projs : filter own_op (ninit_ops projs) = ninit_ops projs /\ filter (fun o => negb (own_op o)) (ninit_ops projs) = [] /\
  forallb setting (ninit_ops projs) = true.
Proof.
  pose proof (ninit_ops_subscribe projs) as H. induction H as [|o l (ty & r & ss & ->) H (H1 & H2 & H3)]; cbn [filter own_op negb forallb setting andb]; [auto|].
  now rewrite H1, H2, H3.
Qed.

(** ** What they make *)
Lemma own_subs_looks : forall ops b rs s r e0, Forall (fun o => exists ty u ss, o = OSubscribe 0 ty u ss) ops -> looks b rs s r e0 ->
  exists b' tr e0', run b ops = Ret (b', tr) /\ looks b' rs s r e0' /\ b_route b' = b_route b.
Proof.
  induction ops as [|o ops IH]; intros b rs s r e0 Hf L; cbn [run]; [eauto 7|]. apply Forall_cons_iff in Hf as [(ty & u & ss & ->) Hf].
  pose proof (looks_ids _ _ _ _ _ L) as Hi.
  assert (F : ep_find 0 b = Some e0).
  { apply ep_find_iff; [exact Hi|]. destruct L as [H1 H2 H3 H4]. rewrite H1. split; [now left|auto]. }
  destruct (exec b (OSubscribe 0 ty u ss)) as [[b1 x]| |] eqn:E.
  2,3: cbn [exec] in E; unfold on_ep in E; rewrite F in E; discriminate E.
  destruct (exec_own _ (OSubscribe 0 ty u ss) _ _ _ _ _ _ L eq_refl E) as (e1 & L1 & R1 & _).
  destruct (IH _ _ _ _ _ Hf L1) as (b2 & tr & e2 & E2 & L2 & R2). cbn [obind fst snd]. rewrite E2. cbn [obind fst snd].
  eexists _, _, e2. split; [reflexivity|]. split; [exact L2|congruence].
Qed.
Definition none : nat -> list message := fun _ => [].
Lemma conn_looks rs' u b rs e0 : looks b rs none none e0 ->
  exists b' tr e0', run b (conn_ops rs' u) = Ret (b', tr) /\ looks b' rs none none e0' /\ b_route b' = b_route b.
Proof. intros L. eapply own_subs_looks; [|exact L]. unfold conn_ops. apply Forall_map, Forall_forall. intros. eauto. Qed.
Lemma create_looks b rs e0 : looks b rs none none e0 ->
  exists b', exec b OCreate = Ret (b', OutUnit) /\ looks b' (rs ++ [None]) none none e0 /\ b_route b' = b_route b.
Proof. intros L. now apply exec_create. Qed.
Lemma listen_looks b rs ty u ss e0 : looks b (rs ++ [None]) none none e0 ->
  exists b', exec b (OSubscribe (S (length rs)) ty u ss) = Ret (b', OutUnit) /\ looks b' (rs ++ [Some (ty, u, ss)]) none none e0 /\ b_route b' = b_route b.
Proof.
  intros L. destruct (exec_other b (OSubscribe (S (length rs)) ty u ss) rs None [] none none e0 (Some (ty, u, ss)) [] [] OutUnit L eq_refl) as (b' & E & L' & R).
  { reflexivity. }
  exists b'. split; [exact E|]. split; [|exact R]. eapply looks_ext; [exact L'|]. intros k _. unfold put_at, none. destruct (Nat.eqb (S k) (S (length rs))); auto.
Qed.
Lemma set_ins_looks : forall ins b rs e0, looks b rs none none e0 ->
  exists b' tr e0', run b (set_ins ins) = Ret (b', tr) /\ looks b' (rs ++ in_roles ins) none none e0' /\ b_route b' = b_route b.
Proof.
  unfold set_ins. induction ins as [|[c ps] t IH]; intros b rs e0 L; cbn [flat_map].
  - exists b, [], e0. cbn [in_roles map]. rewrite app_nil_r. auto.
  - cbn [fst snd app run]. destruct (create_looks _ _ _ L) as (b1 & E1 & L1 & R1). rewrite E1. cbn [obind fst snd].
    destruct (conn_looks ps c _ _ _ L1) as (b2 & t2 & e2 & E2 & L2 & R2). rewrite run_app, E2. cbn [obind fst snd].
    destruct (IH _ _ _ L2) as (b3 & t3 & e3 & E3 & L3 & R3). rewrite E3. cbn [obind fst snd].
    eexists _, _, e3. split; [reflexivity|]. split; [cbn [in_roles map]; now rewrite mid|congruence].
Qed.
Lemma set_outs_looks : forall outs b rs e0, looks b rs none none e0 ->
  exists b' tr e0', run b (set_outs (S (length rs)) outs) = Ret (b', tr) /\ looks b' (rs ++ out_roles outs) none none e0' /\ b_route b' = b_route b.
Proof.
  induction outs as [|[c ps] t IH]; intros b rs e0 L.
  - exists b, [], e0. cbn [out_roles map]. rewrite app_nil_r. auto.
  - rewrite set_outs_cons. cbn [run]. destruct (create_looks _ _ _ L) as (b1 & E1 & L1 & R1). rewrite E1. cbn [obind fst snd].
    destruct (listen_looks _ _ 0 c ps _ L1) as (b2 & E2 & L2 & R2). rewrite E2. cbn [obind fst snd].
    destruct (IH _ _ _ L2) as (b3 & t3 & e3 & E3 & L3 & R3). rewrite len_1 in E3. rewrite E3. cbn [obind fst snd].
    eexists _, _, e3. split; [reflexivity|]. split; [cbn [out_roles map fst snd]; now rewrite mid|congruence].
Qed.
Lemma set_calls_looks : forall calls b rs e0, looks b rs none none e0 ->
  exists b' tr e0', run b (call_ops (S (length rs)) calls) = Ret (b', tr) /\ looks b' (rs ++ call_roles calls) none none e0' /\ b_route b' = b_route b.
Proof.
  induction calls as [|c t IH]; intros b rs e0 L.
  - exists b, [], e0. cbn [call_roles map]. rewrite app_nil_r. auto.
  - destruct c as [u ss rs' f|ty u ss]; cbn [call_ops run]; destruct (create_looks _ _ _ L) as (b1 & E1 & L1 & R1); rewrite E1; cbn [obind fst snd].
    + destruct (listen_looks _ _ 0 u ss _ L1) as (b2 & E2 & L2 & R2). rewrite E2. cbn [obind fst snd].
      destruct (conn_looks rs' u _ _ _ L2) as (b2' & t2 & e2 & E2' & L2' & R2'). unfold conn_ops in E2'. rewrite run_app, E2'. cbn [obind fst snd].
      destruct (IH _ _ _ L2') as (b3 & t3 & e3 & E3 & L3 & R3). rewrite len_1 in E3. rewrite E3. cbn [obind fst snd].
      eexists _, _, e3. split; [reflexivity|]. split; [cbn [call_roles map call_role]; now rewrite mid|congruence].
    + destruct (listen_looks _ _ ty u ss _ L1) as (b2 & E2 & L2 & R2). rewrite E2. cbn [obind fst snd].
      destruct (IH _ _ _ L2) as (b3 & t3 & e3 & E3 & L3 & R3). rewrite len_1 in E3. rewrite E3. cbn [obind fst snd].
      eexists _, _, e3. split; [reflexivity|]. split; [cbn [call_roles map call_role]; now rewrite mid|congruence].
Qed.

Definition all_roles (ins outs : list (uid * list uid)) (calls : list xcall) : list role := in_roles ins ++ out_roles outs ++ call_roles calls.
Lemma set_up gens ins outs calls pops projs : forallb (fun c => mem (fst c) gens) ins = true -> sound_network pops projs ->
  exists x0 k0 e0 ops tr, executor_init gens ins outs calls pops projs = Ret x0 /\
    nbackend_init (connections ins calls) pops projs = Ret k0 /\
    forallb outside ops = true /\ run (nb_bus k0) ops = Ret (nb_bus (x_net x0), tr) /\
    looks (nb_bus (x_net x0)) (all_roles ins outs calls) none none e0 /\ b_route (nb_bus (x_net x0)) = [] /\
    nb_pops (x_net x0) = pops /\ nb_projs (x_net x0) = projs /\ nb_step (x_net x0) = 0%N /\
    x_buffers x0 = map (fun _ => []) outs /\ x_done x0 = 0.
Proof.
  intros Hg Hs. unfold executor_init. rewrite gen_inputs_ret by exact Hg. cbn [obind snd].
  change (flat_map (fun c => OCreate :: conn_ops (snd c) (fst c)) ins) with (set_ins ins).
  change (snd (gen_outputs (S (length ins)) outs)) with (set_outs (S (length ins)) outs).
  assert (L0 : looks (create_endpoint bus_init) [] none none (mkEp 0 true [] [] [] [])) by (split; reflexivity).
  destruct (set_ins_looks ins _ _ _ L0) as (b1 & t1 & e1 & E1 & L1 & R1). cbn [app] in L1.
  destruct (set_outs_looks outs _ _ _ L1) as (b2 & t2 & e2 & E2 & L2 & R2). unfold in_roles in E2 at 1. rewrite map_length in E2.
  destruct (set_calls_looks calls _ _ _ L2) as (b3 & t3 & e3 & E3 & L3 & R3). unfold in_roles, out_roles in E3. rewrite app_length, !map_length in E3.
  destruct (own_subs_looks (ninit_ops projs) _ _ _ _ _ (ninit_ops_subscribe projs) L3) as (b4 & t4 & e4 & E4 & L4 & R4).
  assert (RR : exists tr, run (create_endpoint bus_init) (set_ins ins ++ set_outs (S (length ins)) outs ++ call_ops (S (length ins) + length outs) calls ++ ninit_ops projs) = Ret (b4, tr)).
  { rewrite run_app, E1. cbn [obind fst snd]. rewrite run_app, E2. cbn [obind fst snd].
    rewrite run_app. change (S (length ins) + length outs) with (S (length ins + length outs)). rewrite E3. cbn [obind fst snd]. rewrite E4. cbn [obind fst snd]. eauto. }
  destruct RR as [tr RR]. cbn [run exec obind fst snd]. rewrite RR. cbn [obind fst snd].
  destruct (nbackend_init_ready (connections ins calls) pops projs Hs) as (k0 & Ek & K1 & K2 & K3 & _).
  assert (Hset : forallb setting (set_ins ins ++ set_outs (S (length ins)) outs ++ call_ops (S (length ins) + length outs) calls ++ ninit_ops projs) = true).
  { rewrite !forallb_app'. destruct (ins_parts ins) as (_ & _ & ->). destruct (outs_parts outs (S (length ins)) ltac:(lia)) as (_ & _ & ->).
    destruct (calls_parts calls (S (length ins) + length outs) ltac:(lia)) as (_ & _ & ->). destruct (ninit_parts projs) as (_ & _ & ->). reflexivity. }
  destruct (own_first _ _ _ _ (ids_ok_exec bus_init OCreate _ _ ids_ok_init eq_refl) (ex_intro _ (mkEp 0 true [] [] [] []) eq_refl) Hset RR) as (b' & tr1 & tr2 & F1 & F2).
  rewrite !filter_app in F1, F2.
  destruct (ins_parts ins) as (A1 & A2 & _). destruct (outs_parts outs (S (length ins)) ltac:(lia)) as (B1 & B2 & _).
  destruct (calls_parts calls (S (length ins) + length outs) ltac:(lia)) as (C1 & C2 & _). destruct (ninit_parts projs) as (D1 & D2 & _).
  rewrite A1, B1, C1, D1 in F1. rewrite D2, app_nil_r in F2. cbn [app] in F1.
  exists (mkX (mkNB b4 pops projs 0) (map (fun _ => []) outs) 0), k0, e4,
    (filter (fun o => negb (own_op o)) (set_ins ins) ++ filter (fun o => negb (own_op o)) (set_outs (S (length ins)) outs) ++
     filter (fun o => negb (own_op o)) (call_ops (S (length ins) + length outs) calls)), tr2. split; [reflexivity|]. split; [exact Ek|].
  split; [|split; [|split; [|split; [|auto 10]]]].
  2: { cbn [x_net nb_bus]. assert (Eb : nb_bus k0 = b').
      { unfold nbackend_init in Ek. cbn [run exec obind fst snd] in Ek. unfold connections, extra_ops in Ek. rewrite map_app, <- app_assoc in Ek.
        unfold extra_ops in F1. rewrite F1 in Ek. cbn [obind fst snd] in Ek. now injection Ek as <-. }
      rewrite Eb. exact F2. }
  - rewrite !forallb_app', A2, B2, C2. reflexivity.
  - cbn [x_net nb_bus]. unfold all_roles. now rewrite app_assoc.
  - cbn [x_net nb_bus]. rewrite R4, R3, R2, R1. reflexivity.
Qed.

(** ** The phases are calls from outside *)
Definition elsewhere (b b' : bus) : Prop := exists ops tr, forallb outside ops = true /\ run b ops = Ret (b', tr).
Lemma else_refl b : elsewhere b b.
Proof. exists [], []. auto. Qed.
Lemma else_trans a b c : elsewhere a b -> elsewhere b c -> elsewhere a c.
Proof.
  intros (o1 & t1 & F1 & R1) (o2 & t2 & F2 & R2). exists (o1 ++ o2), (t1 ++ t2). rewrite forallb_app', F1, F2. split; [reflexivity|].
  rewrite run_app, R1. cbn [obind fst snd]. rewrite R2. reflexivity.
Qed.
Lemma else_exec b o b' x : outside o = true -> exec b o = Ret (b', x) -> elsewhere b b'.
Proof. intros H E. exists [o], [(o, x)]. cbn [forallb]. rewrite H. split; [reflexivity|]. cbn [run]. rewrite E. reflexivity. Qed.
Lemma else_sends id ms b b' tr : id <> 0 -> run b (map (OSend id) ms) = Ret (b', tr) -> elsewhere b b'.
Proof.
  intros Hid R. exists (map (OSend id) ms), tr. split; [|exact R]. clear R. destruct id as [|id]; [congruence|].
  induction ms as [|m t IH]; cbn [map forallb outside Nat.eqb negb andb]; auto.
Qed.
Lemma else_hear b id ty u b' l : id <> 0 -> hear b id ty u = Ret (b', l) -> elsewhere b b'.
Proof.
  intros Hid H. unfold hear in H. destruct (exec b (OReceiveAll id)) as [[b1 x]| |] eqn:E1; cbn [obind fst snd] in H; try discriminate.
  destruct (exec b1 (OUnload id ty u)) as [[b2 y]| |] eqn:E2; cbn [obind fst snd] in H; try discriminate.
  destruct y; try discriminate. injection H as <- _. destruct id as [|id]; [congruence|].
  eapply else_trans; [eapply (else_exec _ (OReceiveAll (S id)) _ _ eq_refl E1)|eapply (else_exec _ (OUnload (S id) ty u) _ _ eq_refl E2)].
Qed.
Lemma else_inputs step data : forall ins j b b', send_inputs step j ins data b = Ret b' -> elsewhere b b'.
Proof.
  induction ins as [|[c ps] t IH]; intros j b b' H; cbn [send_inputs] in H.
  - injection H as <-. apply else_refl.
  - destruct (run b (map (OSend (S j)) (ic_send c step (data j)))) as [[b1 tr]| |] eqn:E; cbn [obind fst snd] in H; try discriminate.
    eapply else_trans; [eapply else_sends; [|exact E]; lia|eauto].
Qed.
Lemma else_outputs : forall outs id b b' l, id <> 0 -> update_outputs id outs b = Ret (b', l) -> elsewhere b b'.
Proof.
  induction outs as [|[c ps] t IH]; intros id b b' l Hid H; cbn [update_outputs] in H.
  - injection H as <- _. apply else_refl.
  - destruct (hear b id 0 c) as [[b1 l1]| |] eqn:E; cbn [obind fst snd] in H; try discriminate.
    destruct (update_outputs (S id) t b1) as [[b2 l2]| |] eqn:E2; cbn [obind fst snd] in H; try discriminate. injection H as <- _.
    eapply else_trans; [eapply else_hear; eauto|eapply IH; [|eauto]; lia].
Qed.
Lemma else_handlers n step : forall calls id b b' l, id <> 0 -> update_handlers n step id calls b = Ret (b', l) -> elsewhere b b'.
Proof.
  induction calls as [|c t IH]; intros id b b' l Hid H; cbn [update_handlers] in H.
  - injection H as <- _. apply else_refl.
  - destruct c as [u ss rs f|ty u ss]; [|eapply IH; [|eauto]; lia].
    destruct (hear b id 0 u) as [[b1 l1]| |] eqn:E; cbn [obind fst snd] in H; try discriminate.
    match type of H with context [run b1 (map (OSend id) ?ms)] => destruct (run b1 (map (OSend id) ms)) as [[b2 t2]| |] eqn:E2 end; cbn [obind fst snd] in H; try discriminate.
    destruct (update_handlers n step (S id) t b2) as [[b3 l3]| |] eqn:E3; cbn [obind fst snd] in H; try discriminate. injection H as <- _.
    eapply else_trans; [eapply else_hear; eauto|]. eapply else_trans; [eapply else_sends; eauto|eapply IH; [|eauto]; lia].
Qed.
Lemma else_observers : forall calls id b b' l, id <> 0 -> update_observers id calls b = Ret (b', l) -> elsewhere b b'.
Proof.
  induction calls as [|c t IH]; intros id b b' l Hid H; cbn [update_observers] in H.
  - injection H as <- _. apply else_refl.
  - destruct c as [u ss rs f|ty u ss]; [eapply IH; [|eauto]; lia|].
    destruct (hear b id ty u) as [[b1 l1]| |] eqn:E; cbn [obind fst snd] in H; try discriminate.
    destruct (update_observers (S id) t b1) as [[b2 l2]| |] eqn:E2; cbn [obind fst snd] in H; try discriminate. injection H as <- _.
    eapply else_trans; [eapply else_hear; eauto|eapply IH; [|eauto]; lia].
Qed.
