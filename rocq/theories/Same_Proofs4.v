(** Proofs about runs on the two CPU backends, continued: the same calls from outside
    leave the same messages waiting. *)
From Verif Require Import Base ListLemmas Messaging_Model Messaging_Spec Messaging_Proofs Pipeline_Model Pipeline_Proofs2
  Net_Model Net_Spec Mt_Model MtNet_Model MtNet_Spec.

(** What of the bus decides which messages are waiting. *)
Definition outline (b : bus) : nat * list message * list (nat * bool * list message) :=
  (b_next b, b_route b, map (fun e => (e_id e, e_alive e, e_send e)) (b_eps b)).
Definition skeleton (b : bus) : nat * list (nat * bool) := (b_next b, map (fun e => (e_id e, e_alive e)) (b_eps b)).
Definition clean (b : bus) : Prop := b_route b = [] /\ Forall (fun e => e_send e = []) (b_eps b).

Lemma outline_pending b c : outline b = outline c -> pending b = pending c.
Proof.
  unfold outline, pending. destruct b as [l r n], c as [l' r' n']. cbn [b_eps b_route b_next]. intros [= _ -> H]. f_equal.
  revert l' H. induction l as [|e l IH]; intros [|e' l'] H; cbn [map] in H; try discriminate; [reflexivity|].
  injection H as _ Ha Hs H. cbn [filter]. rewrite Ha. destruct (e_alive e'); cbn [flat_map]; [rewrite Hs; f_equal|]; apply IH; exact H.
Qed.
Lemma outline_skeleton b c : outline b = outline c -> skeleton b = skeleton c.
Proof.
  unfold outline, skeleton. destruct b as [l r n], c as [l' r' n']. cbn [b_eps b_route b_next]. intros [= -> _ H]. f_equal.
  revert l' H. induction l as [|e l IH]; intros [|e' l'] H; cbn [map] in H; try discriminate; [reflexivity|].
  injection H as Hi Ha _ H. cbn [map]. rewrite Ha, Hi. f_equal. apply IH. exact H.
Qed.
Lemma clean_outline b c : clean b -> clean c -> skeleton b = skeleton c -> outline b = outline c.
Proof.
  unfold outline, skeleton, clean. destruct b as [l r n], c as [l' r' n']. cbn [b_eps b_route b_next]. intros [-> C1] [-> C2] [= -> H]. f_equal.
  revert l' C2 H. induction C1 as [|e l He _ IH]; intros [|e' l'] C2 H; cbn [map] in H; try discriminate; [reflexivity|].
  apply Forall_cons_iff in C2 as [He' C2]. injection H as Hi Ha H. cbn [map]. rewrite Ha, Hi, He, He'. f_equal. apply IH; auto.
Qed.

(** ** Calls from outside *)
Lemma found_outline id : forall l l', map (fun e => (e_id e, e_alive e, e_send e)) l = map (fun e => (e_id e, e_alive e, e_send e)) l' ->
  forall e e', find (fun e => Nat.eqb (e_id e) id && e_alive e) l = Some e -> find (fun e => Nat.eqb (e_id e) id && e_alive e) l' = Some e' -> e_send e = e_send e'.
Proof.
  induction l as [|x l IH]; intros [|x' l'] H e e' F F'; cbn [map find] in *; try discriminate. injection H as Hi Ha Hs H. rewrite <- Hi, <- Ha in F'.
  destruct (Nat.eqb (e_id x) id && e_alive x); [congruence|]. exact (IH l' H e e' F F').
Qed.
Lemma put_outline b c e e' : outline b = outline c -> e_id e = e_id e' -> e_alive e = e_alive e' -> e_send e = e_send e' -> outline (ep_put e b) = outline (ep_put e' c).
Proof.
  unfold outline, ep_put. destruct b as [l r n], c as [l' r' n']. cbn [b_eps b_route b_next]. intros [= -> -> H] Hi Ha Hs. f_equal. rewrite Hi.
  revert l' H. induction l as [|x l IH]; intros [|x' l'] H; cbn [map] in H; try discriminate; [reflexivity|]. injection H as Hi' Ha' Hs' H. cbn [map].
  rewrite Hi'. f_equal; [|apply IH; exact H]. destruct (Nat.eqb (e_id x') (e_id e')); congruence.
Qed.
Lemma effect_sends o e e' x : ep_effect o e = Ret (e', x) -> e_send e' = match o with OSend _ m => e_send e ++ [m] | _ => e_send e end.
Proof.
  destruct o; cbn [ep_effect]; try discriminate.
  - now intros [= <- _].
  - unfold unsubscribe. destruct (sub_find _ _); now intros [= <- _].
  - destruct (remove_receiver _ _) as [a| |] eqn:E; cbn [obind]; try discriminate. apply remove_receiver_Ret in E. subst a. now intros [= <- _].
  - unfold add_sender. destruct (sub_find _ _); cbn [obind]; try discriminate. now intros [= <- _].
  - unfold remove_sender. destruct (sub_find _ _); cbn [obind]; try discriminate. now intros [= <- _].
  - now intros [= <- _].
  - unfold receive_message. destruct (pop_back _) as [[? ?]|]; now intros [= <- _].
  - rewrite receive_all_eq. now intros [= <- _].
  - unfold unload_messages. destruct (sub_find _ _); now intros [= <- _].
Qed.
Lemma outline_exec b c o b' c' x y : outside o = true -> outline b = outline c -> exec b o = Ret (b', x) -> exec c o = Ret (c', y) -> outline b' = outline c'.
Proof.
  intros Ho H E F. destruct (op_id o) as [id|] eqn:Eo.
  - rewrite (exec_ep o id b Eo) in E. rewrite (exec_ep o id c Eo) in F.
    apply on_ep_inv in E as (e & e1 & E1 & E2 & ->). apply on_ep_inv in F as (g & g1 & F1 & F2 & ->).
    destruct (ep_effect_id _ _ _ _ E2) as [I1 A1], (ep_effect_id _ _ _ _ F2) as [I2 A2].
    destruct (ep_find_Some _ _ _ E1) as (_ & J1 & B1), (ep_find_Some _ _ _ F1) as (_ & J2 & B2).
    apply put_outline; [exact H|congruence|congruence|].
    rewrite (effect_sends _ _ _ _ E2), (effect_sends _ _ _ _ F2).
    assert (Hs : e_send e = e_send g).
    { unfold outline in H. injection H as _ _ H. exact (found_outline id _ _ H e g E1 F1). }
    destruct o; rewrite ?Hs; reflexivity.
  - destruct o; cbn [op_id] in Eo; try discriminate; cbn [outside] in Ho; try discriminate; cbn [exec] in E, F.
    + injection E as <- _. injection F as <- _. unfold outline, create_endpoint in *. cbn [b_eps b_route b_next]. injection H as -> -> H. rewrite !map_app, H. reflexivity.
    + destruct (ep_find id b); [|discriminate]. destruct (ep_find id c); [|discriminate]. injection E as <- _. injection F as <- _.
      unfold outline, destroy_endpoint in *. cbn [b_eps b_route b_next]. injection H as -> -> H. f_equal. revert H. generalize (b_eps b) (b_eps c).
      intros l. induction l as [|z l IH]; intros [|z' l'] H; cbn [map] in H; try discriminate; [reflexivity|]. injection H as Hi Ha Hs H. cbn [map]. rewrite Hi. f_equal; [|apply IH; exact H].
      destruct (Nat.eqb (e_id z') id); cbn [e_id e_alive e_send]; congruence.
Qed.
Lemma outline_run : forall ops b c b' c' x y, forallb outside ops = true -> outline b = outline c -> run b ops = Ret (b', x) -> run c ops = Ret (c', y) -> outline b' = outline c'.
Proof.
  induction ops as [|o ops IH]; intros b c b' c' x y Ho H E F; cbn [run forallb] in *.
  - injection E as <- _. injection F as <- _. exact H.
  - apply andb_true_iff in Ho as [Ho1 Ho2]. destruct (exec b o) as [[b1 p]| |] eqn:E1; cbn [obind fst] in E; try discriminate.
    destruct (exec c o) as [[c1 q]| |] eqn:F1; cbn [obind fst] in F; try discriminate.
    destruct (run b1 ops) as [[b2 p2]| |] eqn:E2; cbn [obind fst snd] in E; try discriminate. injection E as <- _.
    destruct (run c1 ops) as [[c2 q2]| |] eqn:F2; cbn [obind fst snd] in F; try discriminate. injection F as <- _.
    exact (IH _ _ _ _ _ _ Ho2 (outline_exec _ _ _ _ _ _ _ Ho1 H E1 F1) E2 F2).
Qed.

(** ** The steps *)
Definition stays (b b' : bus) : Prop := ids_ok b -> skeleton b' = skeleton b /\ ids_ok b'.
Lemma stays_refl b : stays b b.
Proof. intros H. auto. Qed.
Lemma stays_trans a b c : stays a b -> stays b c -> stays a c.
Proof. intros H1 H2 H. destruct (H1 H) as [E1 I1]. destruct (H2 I1) as [E2 I2]. split; [congruence|exact I2]. Qed.
Lemma stays_ep b o b' x id : op_id o = Some id -> exec b o = Ret (b', x) -> stays b b'.
Proof.
  intros Eo E OK. pose proof (ids_ok_exec _ _ _ _ OK E) as OK'. split; [|exact OK']. clear OK'.
  rewrite (exec_ep o id b Eo) in E. apply on_ep_inv in E as (e & e' & E1 & E2 & ->). destruct (ep_effect_id _ _ _ _ E2) as [I A]. destruct (ep_find_Some _ _ _ E1) as (Hin & J & B).
  unfold skeleton, ep_put. cbn [b_next b_eps]. f_equal. rewrite map_map. apply map_ext_in. intros y Hy.
  destruct (Nat.eqb_spec (e_id y) (e_id e')) as [Ey|Ey]; [|reflexivity]. destruct OK as [ND _].
  assert (y = e) by (eapply (NoDup_map_inj e_id); eauto; congruence). subst y. congruence.
Qed.
Lemma stays_unload b ty r x : unload_own b ty r = Ret x -> stays b (fst x).
Proof.
  unfold unload_own. destruct (exec b (OUnload 0 ty r)) as [[b1 y]| |] eqn:E; cbn [obind fst snd]; try discriminate. destruct y; try discriminate. intros [= <-]. cbn [fst].
  eapply stays_ep; [|exact E]. reflexivity.
Qed.
Lemma stays_send b o b' : send_own b o = Ret b' -> stays b b'.
Proof.
  destruct o as [m|]; cbn [send_own]; [|intros [= <-]; apply stays_refl]. destruct (exec b (OSend 0 m)) as [[b1 y]| |] eqn:E; cbn [obind fst]; try discriminate. intros [= <-].
  eapply stays_ep; [|exact E]. reflexivity.
Qed.
Lemma stays_unload_all ty : forall rs b x, unload_all ty rs b = Ret x -> stays b (fst x).
Proof.
  induction rs as [|r rs IH]; intros b x; cbn [unload_all]; [intros [= <-]; apply stays_refl|].
  destruct (unload_own b ty r) as [y| |] eqn:E; cbn [obind]; try discriminate. destruct (unload_all ty rs (fst y)) as [z| |] eqn:F; cbn [obind]; try discriminate. intros [= <-]. cbn [fst].
  eapply stays_trans; [exact (stays_unload _ _ _ _ E)|exact (IH _ _ F)].
Qed.
Lemma stays_send_all : forall l b b', send_all l b = Ret b' -> stays b b'.
Proof.
  induction l as [|o l IH]; intros b b'; cbn [send_all]; [intros [= <-]; apply stays_refl|]. destruct (send_own b o) as [b1| |] eqn:E; cbn [obind]; try discriminate. intros F.
  eapply stays_trans; [exact (stays_send _ _ _ E)|exact (IH _ _ F)].
Qed.
Lemma stays_pops pow2f step : forall pops projs b x, npops_phase pow2f step pops projs b = Ret x -> stays b (snd (fst (fst x))).
Proof.
  induction pops as [|[u a] pops IH]; intros projs b x; cbn [npops_phase]; [intros [= <-]; apply stays_refl|].
  destruct (unload_own b 1 u) as [x0| |] eqn:E1; cbn [obind]; try discriminate.
  destruct (npop_step pow2f u step (snd x0) a projs) as [[[a' p1] o]| |]; cbn [obind]; try discriminate.
  destruct (send_own (fst x0) o) as [b2| |] eqn:E2; cbn [obind]; try discriminate.
  destruct (npops_phase pow2f step pops p1 b2) as [[[[[t' p2] b3] ins] outs]| |] eqn:E; cbn [obind]; try discriminate.
  intros [= <-]. cbn [fst snd]. eapply stays_trans; [exact (stays_unload _ _ _ _ E1)|]. eapply stays_trans; [exact (stays_send _ _ _ E2)|exact (IH _ _ _ E)].
Qed.
Lemma stays_projs expf step : forall projs b x, nprojs_phase expf step projs b = Ret x -> stays b (snd (fst (fst x))).
Proof.
  induction projs as [|w projs IH]; intros b x; cbn [nprojs_phase]; [intros [= <-]; apply stays_refl|].
  destruct (unload_own b 0 (np_uid w)) as [x0| |] eqn:E1; cbn [obind]; try discriminate.
  destruct (nproj_step expf step (snd x0) w) as [y| |]; cbn [obind]; try discriminate.
  destruct (send_own (fst x0) (snd y)) as [b2| |] eqn:E2; cbn [obind]; try discriminate.
  destruct (nprojs_phase expf step projs b2) as [[[[t' b3] ins] outs]| |] eqn:E; cbn [obind]; try discriminate.
  intros [= <-]. cbn [fst snd]. eapply stays_trans; [exact (stays_unload _ _ _ _ E1)|]. eapply stays_trans; [exact (stays_send _ _ _ E2)|exact (IH _ _ E)].
Qed.
(** Routing drops the dead endpoints, and nothing is waiting afterwards. *)
Definition swept (b b' : bus) : Prop := ids_ok b -> skeleton b' = (fst (skeleton b), filter snd (snd (skeleton b))) /\ clean b' /\ ids_ok b'.
Lemma clean_receive b b' x : clean b -> exec b (OReceiveAll 0) = Ret (b', x) -> clean b'.
Proof.
  intros [C1 C2] E. rewrite (exec_ep (OReceiveAll 0) 0 b eq_refl) in E. apply on_ep_inv in E as (e & e' & E1 & E2 & ->). destruct (ep_find_Some _ _ _ E1) as (Hin & _).
  split; [exact C1|]. unfold ep_put. cbn [b_eps]. apply Forall_map. apply Forall_forall. intros y Hy. rewrite Forall_forall in C2.
  destruct (Nat.eqb _ _); [|auto]. rewrite (effect_sends _ _ _ _ E2). auto.
Qed.
Lemma swept_route b b' : route_receive_own b = Ret b' -> swept b b'.
Proof.
  unfold route_receive_own. destruct (exec b ORoute) as [[b1 x]| |] eqn:E; cbn [obind fst]; try discriminate.
  destruct (exec b1 (OReceiveAll 0)) as [[b2 y]| |] eqn:F; cbn [obind fst]; try discriminate. intros [= <-] OK.
  pose proof (ids_ok_exec _ _ _ _ OK E) as OK1. assert (ST : stays b1 b2) by (eapply stays_ep; [|exact F]; reflexivity). destruct (ST OK1) as [S2 OK2]. rewrite S2.
  cbn [exec] in E. rewrite route_eq in E. injection E as <- _.
  split; [|split; [|exact OK2]].
  - unfold skeleton. cbn [b_next b_eps fst snd]. f_equal. rewrite map_map. generalize (pending b) as q. intros q. clear. induction (b_eps b) as [|e l IH]; [reflexivity|]. cbn [filter map].
    cbn [snd]. destruct (e_alive e) eqn:A; cbn [map]; rewrite IH; reflexivity.
  - eapply clean_receive; [|exact F]. split; [reflexivity|]. cbn [b_eps]. apply Forall_map. apply Forall_forall. intros e _. unfold offered, clear_send. reflexivity.
Qed.
Lemma swept_stays a b c : stays a b -> swept b c -> swept a c.
Proof. intros H1 H2 H. destruct (H1 H) as [E I]. rewrite <- E. auto. Qed.
Lemma filter_twice {A} (f : A -> bool) l : filter f (filter f l) = filter f l.
Proof. induction l as [|x l IH]; [reflexivity|]. cbn [filter]. destruct (f x) eqn:E; cbn [filter]; rewrite ?E, IH; reflexivity. Qed.
Lemma swept_swept a b c : swept a b -> swept b c -> swept a c.
Proof. intros H1 H2 H. destruct (H1 H) as (E & _ & I). destruct (H2 I) as (E2 & C & I2). rewrite E2, E. cbn [fst snd]. rewrite filter_twice. auto. Qed.
Lemma step_swept pow2f expf ext k k' r : nbackend_step pow2f expf ext k = Ret (k', r) -> swept (nb_bus k) (nb_bus k') /\ r_ext (nr_msgs r) = ext.
Proof.
  unfold nbackend_step. destruct (route_receive_own (nb_bus k)) as [b1| |] eqn:E1; cbn [obind]; try discriminate.
  destruct (npops_phase pow2f _ _ _ b1) as [[[[[pops' projs1] b2] pin] pout]| |] eqn:E2; cbn [obind]; try discriminate.
  destruct (route_receive_own b2) as [b3| |] eqn:E3; cbn [obind]; try discriminate.
  destruct (nprojs_phase expf _ projs1 b3) as [[[[projs' b4] jin] jout]| |] eqn:E4; cbn [obind]; try discriminate.
  destruct (route_receive_own b4) as [b5| |] eqn:E5; cbn [obind]; try discriminate. intros [= <- <-]. cbn [nb_bus nr_msgs r_ext]. split; [|reflexivity].
  apply swept_route in E1, E3, E5. apply stays_pops in E2. apply stays_projs in E4. cbn [fst snd] in *.
  eapply swept_swept; [exact E1|]. eapply swept_stays; [exact E2|]. eapply swept_swept; [exact E3|]. eapply swept_stays; [exact E4|exact E5].
Qed.
Lemma mt_step_swept pow2f s ext k k' r : mt_nbackend_step pow2f s ext k = Ret (k', r) -> swept (nb_bus k) (nb_bus k') /\ r_ext (nr_msgs r) = ext.
Proof.
  unfold mt_nbackend_step. destruct (unload_all 1 _ _) as [x| |] eqn:E1; cbn [obind]; try discriminate. destruct (mt_fronts _ _ _ _) as [jobs| |]; cbn [obind]; try discriminate.
  destruct (train_at _ _ _ _ _) as [y| |]; cbn [obind]; try discriminate. destruct (send_all _ _) as [b1| |] eqn:E2; cbn [obind]; try discriminate.
  destruct (route_receive_own _) as [b2| |] eqn:E3; cbn [obind]; try discriminate. destruct (unload_all 0 _ _) as [z| |] eqn:E4; cbn [obind]; try discriminate.
  destruct (mt_nprojs _ _ _ _) as [v| |] eqn:Ev; cbn [obind]; try discriminate. destruct (send_all (snd v) _) as [b3| |] eqn:E5; cbn [obind]; try discriminate.
  destruct (route_receive_own b3) as [b4| |] eqn:E6; cbn [obind]; try discriminate. intros [= <- <-]. cbn [nb_bus nr_msgs r_ext]. split; [|reflexivity].
  apply stays_unload_all in E1, E4. apply stays_send_all in E2, E5. apply swept_route in E3, E6.
  eapply swept_stays; [exact E1|]. eapply swept_stays; [exact E2|]. eapply swept_swept; [exact E3|]. eapply swept_stays; [exact E4|]. eapply swept_stays; [exact E5|exact E6].
Qed.

(** ** Runs *)
Lemma outline_ids b c : outline b = outline c -> ids_ok b -> ids_ok c.
Proof.
  intros H. apply outline_skeleton in H. unfold skeleton in H. injection H as Hn H. unfold ids_ok.
  assert (G : map e_id (b_eps b) = map e_id (b_eps c)).
  { apply (f_equal (map fst)) in H. rewrite !map_map in H. exact H. }
  rewrite G. intros [ND F]. split; [exact ND|]. apply (proj1 (Forall_map e_id (fun i => i < b_next c) (b_eps c))). rewrite <- G, <- Hn. now apply Forall_map.
Qed.
Lemma ids_run : forall ops b b' x, ids_ok b -> run b ops = Ret (b', x) -> ids_ok b'.
Proof.
  induction ops as [|o ops IH]; intros b b' x OK E; cbn [run] in E; [injection E as <- _; exact OK|].
  destruct (exec b o) as [[b1 p]| |] eqn:E1; cbn [obind fst] in E; try discriminate.
  destruct (run b1 ops) as [[b2 p2]| |] eqn:E2; cbn [obind fst snd] in E; try discriminate. injection E as <- _.
  exact (IH _ _ _ (ids_ok_exec _ _ _ _ OK E1) E2).
Qed.
Lemma runs_ext pow2f expf : forall (turns : list (turn * nsched)) k c k' c' tr tr', ids_ok (nb_bus k) -> outline (nb_bus k) = outline (nb_bus c) ->
  Forall (fun e => forallb outside (tu_ops (fst e)) = true) turns ->
  nbackend_run pow2f expf (map fst turns) k = Ret (k', tr) -> mt_nbackend_run pow2f turns c = Ret (c', tr') ->
  map (fun r => r_ext (nr_msgs r)) tr' = map (fun r => r_ext (nr_msgs r)) tr.
Proof.
  induction turns as [|[u s] turns IH]; intros k c k' c' tr tr' OK Ho Hf E F; cbn [nbackend_run mt_nbackend_run map] in *.
  - injection E as _ <-. injection F as _ <-. reflexivity.
  - apply Forall_cons_iff in Hf as [Hu Hf]. cbn [fst] in *.
    destruct (run (nb_bus k) (tu_ops u)) as [[b xb]| |] eqn:E1; cbn [obind fst snd] in E; try discriminate.
    destruct (run (nb_bus c) (tu_ops u)) as [[d xd]| |] eqn:F1; cbn [obind fst snd] in F; try discriminate.
    destruct (nbackend_step pow2f expf _ _) as [[k1 r]| |] eqn:E2; cbn [obind fst snd] in E; try discriminate.
    destruct (mt_nbackend_step pow2f s _ _) as [[c1 r']| |] eqn:F2; cbn [obind fst snd] in F; try discriminate.
    destruct (nbackend_run pow2f expf (map fst turns) k1) as [[k2 tr2]| |] eqn:E3; cbn [obind fst snd] in E; try discriminate.
    destruct (mt_nbackend_run pow2f turns c1) as [[c2 tr2']| |] eqn:F3; cbn [obind fst snd] in F; try discriminate.
    injection E as _ <-. injection F as _ <-. cbn [map].
    pose proof (outline_run _ _ _ _ _ _ _ Hu Ho E1 F1) as Hb. pose proof (ids_run _ _ _ _ OK E1) as OKb. pose proof (outline_ids _ _ Hb OKb) as OKd.
    destruct (step_swept _ _ _ _ _ _ E2) as [W1 X1], (mt_step_swept _ _ _ _ _ _ F2) as [W2 X2]. cbn [nb_bus] in W1, W2.
    destruct (W1 OKb) as (S1 & C1 & I1), (W2 OKd) as (S2 & C2 & I2).
    f_equal; [rewrite X1, X2; symmetry; now apply outline_pending|].
    apply (IH k1 c1 k2 c2 tr2 tr2' I1); auto. apply clean_outline; auto. rewrite S1, S2. now rewrite (outline_skeleton _ _ Hb).
Qed.
Lemma same_ext pow2f expf extra pops projs (turns : list (turn * nsched)) k k' tr tr' :
  Forall (fun e => forallb outside (tu_ops (fst e)) = true) turns -> net_run pow2f expf extra pops projs (map fst turns) k tr -> mt_net_run pow2f extra pops projs turns k' tr' ->
  map (fun r => r_ext (nr_msgs r)) tr' = map (fun r => r_ext (nr_msgs r)) tr.
Proof.
  intros Hf (k0 & E & H) (k1 & E' & H'). rewrite E in E'. injection E' as <-.
  eapply (runs_ext pow2f expf turns k0 k0); eauto.
  unfold nbackend_init in E. destruct (run bus_init _) as [[b x]| |] eqn:R; cbn [obind fst] in E; try discriminate. injection E as <-. cbn [nb_bus].
  eapply ids_run; [|exact R]. split; constructor.
Qed.
