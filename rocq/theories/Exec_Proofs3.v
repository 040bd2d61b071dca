(** The steps of the backend as the other endpoints see them; the initial state. *)
From Verif Require Import Base ListLemmas Messaging_Model Messaging_Spec Messaging_Proofs Messaging_Proofs2 Neuron_Model
  Pipeline_Model Pipeline_Spec Pipeline_Proofs Pipeline_Proofs2 Stdp_Model Additive_Model Train_Model Net_Model Net_Spec Net_Proofs Net_Proofs2 Net_Proofs3 Net_Proofs4
  Framework_Model Exec_Model Exec_Spec Exec_Proofs Exec_Proofs2.

Section Own.
Variables (rs : list role) (s r : nat -> list message).
Lemma unload_own_looks b e0 ty u b' l : looks b rs s r e0 -> unload_own b ty u = Ret (b', l) ->
  exists e0', looks b' rs s r e0' /\ b_route b' = b_route b.
Proof.
  intros L H. unfold unload_own in H. destruct (exec b (OUnload 0 ty u)) as [[b1 x]| |] eqn:E; cbn [obind fst snd] in H; try discriminate.
  destruct x; try discriminate. injection H as <- _. destruct (exec_own _ (OUnload 0 ty u) _ _ _ _ _ _ L eq_refl E) as (e & H1 & H2 & _). eauto.
Qed.
Lemma send_own_looks b e0 o b' : looks b rs s r e0 -> send_own b o = Ret b' ->
  exists e0', looks b' rs s r e0' /\ b_route b' = b_route b.
Proof.
  intros L H. destruct o as [m|]; cbn [send_own] in H; [|injection H as <-; eauto].
  destruct (exec b (OSend 0 m)) as [[b1 x]| |] eqn:E; cbn [obind fst snd] in H; try discriminate. injection H as <-.
  destruct (exec_own _ (OSend 0 m) _ _ _ _ _ _ L eq_refl E) as (e & H1 & H2 & _). eauto.
Qed.
Lemma npops_looks pow2f step : forall pops projs b e0 res, looks b rs s r e0 -> npops_phase pow2f step pops projs b = Ret res ->
  exists e0', looks (snd (fst (fst res))) rs s r e0' /\ b_route (snd (fst (fst res))) = b_route b.
Proof.
  induction pops as [|[u a] pops IH]; intros projs b e0 res L H; cbn [npops_phase] in H.
  - injection H as <-. cbn [fst snd]. eauto.
  - destruct (unload_own b 1 u) as [[b1 l]| |] eqn:E1; cbn [obind fst snd] in H; try discriminate.
    destruct (unload_own_looks _ _ _ _ _ _ L E1) as (e1 & L1 & R1).
    destruct (npop_step pow2f u step l a projs) as [[[a' projs1] o]| |]; cbn [obind] in H; try discriminate.
    destruct (send_own b1 o) as [b2| |] eqn:E2; cbn [obind] in H; try discriminate.
    destruct (send_own_looks _ _ _ _ L1 E2) as (e2 & L2 & R2).
    destruct (npops_phase pow2f step pops projs1 b2) as [z| |] eqn:E3; cbn [obind] in H; try discriminate.
    destruct (IH _ _ _ _ L2 E3) as (e3 & L3 & R3). destruct z as [[[[t' projs2] b3] ins] outs]. injection H as <-. cbn [fst snd] in *.
    exists e3. split; [exact L3|congruence].
Qed.
Lemma nprojs_looks expf step : forall projs b e0 res, looks b rs s r e0 -> nprojs_phase expf step projs b = Ret res ->
  exists e0', looks (snd (fst (fst res))) rs s r e0' /\ b_route (snd (fst (fst res))) = b_route b.
Proof.
  induction projs as [|w projs IH]; intros b e0 res L H; cbn [nprojs_phase] in H.
  - injection H as <-. cbn [fst snd]. eauto.
  - destruct (unload_own b 0 (np_uid w)) as [[b1 l]| |] eqn:E1; cbn [obind fst snd] in H; try discriminate.
    destruct (unload_own_looks _ _ _ _ _ _ L E1) as (e1 & L1 & R1).
    destruct (nproj_step expf step l w) as [[w' o]| |]; cbn [obind fst snd] in H; try discriminate.
    destruct (send_own b1 o) as [b2| |] eqn:E2; cbn [obind] in H; try discriminate.
    destruct (send_own_looks _ _ _ _ L1 E2) as (e2 & L2 & R2).
    destruct (nprojs_phase expf step projs b2) as [z| |] eqn:E3; cbn [obind] in H; try discriminate.
    destruct (IH _ _ _ L2 E3) as (e3 & L3 & R3). destruct z as [[[t' b3] ins] outs]. injection H as <-. cbn [fst snd] in *.
    exists e3. split; [exact L3|congruence].
Qed.
End Own.
Lemma route_own_looks rs s r b e0 b' : looks b rs s r e0 -> route_receive_own b = Ret b' ->
  exists e0', looks b' rs (fun _ => []) (fun i => r i ++ filter (takes (nth (pred i) rs None)) (rev (pending b))) e0' /\ b_route b' = [].
Proof.
  intros L H. unfold route_receive_own in H. destruct (exec_route _ _ _ _ _ L) as (b1 & n & E & R & L1). rewrite E in H. cbn [obind fst] in H.
  destruct (exec b1 (OReceiveAll 0)) as [[b2 x]| |] eqn:E2; cbn [obind fst] in H; try discriminate. injection H as <-.
  destruct (exec_own _ (OReceiveAll 0) _ _ _ _ _ _ L1 eq_refl E2) as (e & H1 & H2 & _). exists e. split; [exact H1|congruence].
Qed.
Lemma looks_own b rs s r e0 : looks b rs s r e0 -> own_sent b = e_send e0.
Proof.
  intros L. pose proof (looks_ids _ _ _ _ _ L) as Hi. destruct L as [H1 H2 H3 H4]. unfold own_sent.
  assert (F : ep_find 0 b = Some e0). { apply ep_find_iff; [exact Hi|]. rewrite H1. split; [now left|auto]. } now rewrite F.
Qed.
Lemma sends_nil : forall rs i s, (forall k, s k = []) -> sends_of i rs s = [].
Proof. induction rs as [|x t IH]; intros i s H; cbn [sends_of]; [reflexivity|]. rewrite H. cbn [app]. auto. Qed.
Lemma looks_own_pending b rs r e0 : looks b rs (fun _ => []) r e0 -> b_route b = [] -> pending b = own_sent b.
Proof. intros L R. rewrite (looks_pending _ _ _ _ _ L), R, (looks_own _ _ _ _ _ L), sends_nil, app_nil_r by reflexivity. reflexivity. Qed.

Section Step.
Variables pow2f expf : flt -> flt.
Variables (extra : list subscr) (projs0 : list nproj) (us : list uid).
Hypothesis Hpd : NoDup (map np_uid projs0).
Hypothesis Hud : NoDup us.
Lemma nstep_looks prev k k' rec rs s r e0 : nready extra projs0 us prev k -> looks (nb_bus k) rs s r e0 ->
  nbackend_step pow2f expf (pending (nb_bus k)) k = Ret (k', rec) ->
  exists e0', looks (nb_bus k') rs (fun _ => [])
    (fun i => r i ++ filter (takes (nth (pred i) rs None)) (rev (r_ext (nr_msgs rec)))
                  ++ filter (takes (nth (pred i) rs None)) (rev (sent_msgs (r_pop_out (nr_msgs rec))))
                  ++ filter (takes (nth (pred i) rs None)) (rev (sent_msgs (r_proj_out (nr_msgs rec))))) e0' /\
    b_route (nb_bus k') = [].
Proof.
  intros R L H. destruct R as [G Ho Hus Hsz Hhs Hok W0 W1]. remember (pending (nb_bus k)) as ext eqn:Eext.
  unfold nbackend_step in H. set (S_ := nS0 extra projs0) in *.
  destruct (route_good S_ (nb_bus k) G) as (b1 & E1 & G1 & O1 & S1 & P1 & R1). rewrite E1 in H. cbn [obind] in H.
  destruct (route_own_looks _ _ _ _ _ _ L E1) as (e1 & L1 & T1). rewrite <- Eext in L1.
  assert (Hnd : NoDup (map fst (nb_pops k))) by (rewrite Hus; exact Hud).
  pose proof (npops_phase_eq pow2f S_ (nb_step k) (nb_pops k) (nb_projs k) b1 G1 O1 Hnd) as HP.
  destruct (npops_alone pow2f (nb_step k) (waiting b1 1) (nb_pops k) (nb_projs k)) as [[[pops' projs1] pout]| |] eqn:EP.
  2,3: rewrite HP in H; discriminate.
  destruct HP as (b2 & E2 & G2 & O2 & S2 & Z2 & Y2). rewrite E2 in H. cbn [obind] in H.
  destruct (npops_looks _ _ _ _ _ _ _ _ _ _ L1 E2) as (e2 & L2 & T2). cbn [fst snd] in L2, T2.
  pose proof (looks_own_pending _ _ _ _ L2 (eq_trans T2 T1)) as P2. rewrite S2, S1 in P2. cbn [app] in P2.
  destruct (route_good S_ b2 G2) as (b3 & E3 & G3 & O3 & S3 & P3 & R3). rewrite E3 in H. cbn [obind] in H.
  destruct (route_own_looks _ _ _ _ _ _ L2 E3) as (e3 & L3 & T3). rewrite P2 in L3.
  assert (Hkinds : kinds_ok (nb_projs k)) by (eapply Forall_impl; [|exact Hok]; intros w; apply proj1).
  destruct (npops_facts pow2f (nb_step k) (waiting b1 1) _ _ _ _ _ Hnd Hsz Hkinds EP) as (F1 & F2 & F2' & Hsp & F4 & F5 & _ & F7).
  pose proof (kept_all_fixed _ _ _ F5) as Hfx1. rewrite Hhs in Hfx1. destruct (map_fixed_uid _ _ Hfx1) as [Hu1 _].
  assert (Hnd' : NoDup (map np_uid projs1)) by (rewrite Hu1; exact Hpd).
  pose proof (nprojs_phase_eq expf S_ (nb_step k) projs1 b3 G3 O3 Hnd') as HQ.
  destruct (nprojs_alone expf (nb_step k) (fun w => waiting b3 0 (np_uid w)) projs1) as [[projs' jout]| |] eqn:EQ.
  2,3: rewrite HQ in H; discriminate.
  destruct HQ as (b4 & E4 & G4 & O4 & S4 & Z4 & Y4). rewrite E4 in H. cbn [obind] in H.
  destruct (nprojs_looks _ _ _ _ _ _ _ _ _ L3 E4) as (e4 & L4 & T4). cbn [fst snd] in L4, T4.
  pose proof (looks_own_pending _ _ _ _ L4 (eq_trans T4 T3)) as P4. rewrite S4, S3 in P4. cbn [app] in P4.
  destruct (route_receive_own b4) as [b5| |] eqn:E5; cbn [obind] in H; try discriminate.
  destruct (route_own_looks _ _ _ _ _ _ L4 E5) as (e5 & L5 & T5). rewrite P4 in L5.
  injection H as <- <-. cbn [nb_bus nr_msgs r_ext r_pop_out r_proj_out]. exists e5. split; [|exact T5].
  eapply looks_ext; [exact L5|]. intros i Hi. split; [reflexivity|]. now rewrite !app_assoc.
Qed.
Lemma nready_outside prev k ops b tr bs : nready extra projs0 us prev k -> forallb outside ops = true -> run (nb_bus k) ops = Ret (b, tr) ->
  nready extra projs0 us prev (mkNB b (nb_pops k) (learn_all bs (nb_projs k)) (nb_step k)).
Proof.
  intros R Hops Er. destruct R as [G Ho Hus Hsz Hhs Hok W0 W1]. destruct (outside_run (nS0 extra projs0) ops (nb_bus k) b tr G Hops Er) as (G' & W & S').
  split; cbn [nb_bus nb_pops nb_projs]; auto; try congruence.
  - now rewrite learn_all_fixed.
  - now apply learn_all_ok.
  - intros w Hw. rewrite W. auto.
  - intros v Hv. rewrite W. auto.
Qed.
End Step.
Lemma rev_filter_rev {A} (p : A -> bool) l : rev (filter p (rev l)) = filter p l.
Proof. now rewrite <- filter_rev, rev_involutive. Qed.
Lemma wanted_takes ty u ss l : filter (wanted ty ss) (filter (takes (Some (ty, u, ss))) l) = filter (wanted ty ss) l.
Proof.
  induction l as [|m l IH]; cbn [filter]; [reflexivity|]. cbn [takes] in *. unfold wanted at 2.
  destruct (mem (msg_sender m) ss) eqn:E; cbn [filter]; [|rewrite andb_false_r; exact IH].
  rewrite IH. unfold wanted at 1. rewrite E. reflexivity.
Qed.
Lemma full_after rs (a b c : list message) (r : nat -> list message) :
  (forall i, r (S i) = filter (takes (nth i rs None)) (rev a) ++ filter (takes (nth i rs None)) (rev b) ++ filter (takes (nth i rs None)) (rev c)) ->
  forall k ty u ss, nth_error rs k = Some (Some (ty, u, ss)) -> filter (wanted ty ss) (rev (r (S k))) = filter (wanted ty ss) (c ++ b ++ a).
Proof.
  intros Hr k ty u ss Hk. rewrite Hr. erewrite nth_error_nth by exact Hk. rewrite !rev_app_distr, !rev_filter_rev, !filter_app, !wanted_takes.
  now rewrite app_assoc.
Qed.

(** ** Setting up *)
Definition own_op (o : op) : bool := match o with OSubscribe 0 _ _ _ => true | _ => false end.
Definition setting (o : op) : bool := match o with OCreate | OSubscribe _ _ _ _ => true | _ => false end.
Lemma sub_id ty u ss e : e_id (subscribe ty u ss e) = e_id e.
Proof. unfold subscribe. destruct (sub_find (ty, u) (e_subs e)); reflexivity. Qed.
Lemma sub_alive ty u ss e : e_alive (subscribe ty u ss e) = e_alive e.
Proof. unfold subscribe. destruct (sub_find (ty, u) (e_subs e)); reflexivity. Qed.
Lemma swap_own b o ty u ss b1 x c y : ids_ok b -> (exists e, ep_find 0 b = Some e) -> setting o = true -> own_op o = false ->
  exec b o = Ret (b1, x) -> exec b1 (OSubscribe 0 ty u ss) = Ret (c, y) ->
  exists d, exec b (OSubscribe 0 ty u ss) = Ret (d, y) /\ exec d o = Ret (c, x).
Proof.
  intros Hi [e0 H0] Hs Ho E1 E2. cbn [exec] in *. unfold on_ep in *. rewrite H0. cbn [obind fst snd]. eexists.
  assert (Hn : b_next b <> 0).
  { apply ep_find_Some in H0 as (Hin & Hid & _). destruct Hi as [_ Hf]. rewrite Forall_forall in Hf. apply Hf in Hin. lia. }
  assert (P0 : e_id e0 = 0) by now apply ep_find_Some in H0 as (_ & Hid & _).
  destruct o as [| |[|i] ty' u' ss'| | | | | | | | | |]; try discriminate.
  - injection E1 as <- <-. rewrite ep_find_create in E2 by exact Hi.
    destruct (Nat.eqb_spec 0 (b_next b)); [congruence|]. rewrite H0 in E2. cbn [obind fst snd] in E2. injection E2 as <- <-.
    split; [reflexivity|]. cbn [exec]. do 2 f_equal. unfold create_endpoint, ep_put. cbn [b_eps b_route b_next]. rewrite map_app. cbn [map e_id].
    rewrite !sub_id, P0. destruct (Nat.eqb_spec (b_next b) 0); [congruence|reflexivity].
  - cbn [exec] in E1. unfold on_ep in E1. destruct (ep_find (S i) b) as [e|] eqn:Ei; [|discriminate E1]. cbn [obind fst snd] in E1. injection E1 as <- <-.
    assert (Pi : e_id e = S i) by now apply ep_find_Some in Ei as (_ & Hid & _).
    assert (Ai : e_alive e = true) by now apply ep_find_Some in Ei as (_ & _ & Ha).
    assert (A0 : e_alive e0 = true) by now apply ep_find_Some in H0 as (_ & _ & Ha).
    rewrite (ep_find_put 0 b e (subscribe ty' u' ss' e) Hi) in E2 by (rewrite ?sub_id, ?sub_alive, ?Pi; assumption).
    rewrite sub_id, Pi in E2. cbn [Nat.eqb] in E2. rewrite H0 in E2. cbn [obind fst snd] in E2. injection E2 as <- <-.
    split; [reflexivity|]. cbn [exec]. unfold on_ep.
    rewrite (ep_find_put (S i) b e0 (subscribe ty u ss e0) Hi) by (rewrite ?sub_id, ?sub_alive, ?P0; assumption).
    rewrite sub_id, P0. cbn [Nat.eqb]. rewrite Ei. cbn [obind fst snd]. do 2 f_equal. unfold ep_put. cbn [b_eps b_route b_next]. f_equal.
    rewrite !map_map. apply map_ext. intros v. rewrite !sub_id, P0, Pi.
    destruct (Nat.eqb_spec (e_id v) 0) as [Ev|Ev]; destruct (Nat.eqb_spec (e_id v) (S i)) as [Ew|Ew]; rewrite ?sub_id, ?P0, ?Pi, ?Ev, ?Ew, ?Nat.eqb_refl; cbn [Nat.eqb]; try reflexivity.
    + congruence.
    + destruct (Nat.eqb_spec (e_id v) 0); [congruence|]. destruct (Nat.eqb_spec (e_id v) (S i)); [congruence|reflexivity].
Qed.
