(** The bus under the executor: its endpoints one by one. *)
From Verif Require Import Base ListLemmas Messaging_Model Messaging_Spec Messaging_Proofs Messaging_Proofs2 Neuron_Model
  Pipeline_Model Pipeline_Spec Pipeline_Proofs Train_Model Net_Model Net_Spec Framework_Model Exec_Model Exec_Spec.

(** What an endpoint is for: an input channel ([None]) or a listener. *)
Notation role := (option (nat * uid * list uid)).
Definition ep (i : nat) (x : role) (s r : list message) : endpoint :=
  match x with
  | None => mkEp i true s r [] []
  | Some (ty, u, ss) => mkEp i true s r ss [((ty, u), mkSub ss [])]
  end.
Fixpoint eps_of (i : nat) (rs : list role) (s r : nat -> list message) : list endpoint :=
  match rs with [] => [] | x :: t => ep i x (s i) (r i) :: eps_of (S i) t s r end.
Fixpoint sends_of (i : nat) (rs : list role) (s : nat -> list message) : list message :=
  match rs with [] => [] | _ :: t => s i ++ sends_of (S i) t s end.
Definition put_at (f : nat -> list message) (i : nat) (v : list message) : nat -> list message := fun j => if Nat.eqb j i then v else f j.
Record looks (b : bus) (rs : list role) (s r : nat -> list message) (e0 : endpoint) : Prop := mkLooks {
  lk_eps : b_eps b = e0 :: eps_of 1 rs s r;
  lk_id : e_id e0 = 0;
  lk_alive : e_alive e0 = true;
  lk_next : b_next b = S (length rs) }.

Lemma ep_id i x s r : e_id (ep i x s r) = i.
Proof. destruct x as [[[ty u] ss]|]; reflexivity. Qed.
Lemma ep_alive i x s r : e_alive (ep i x s r) = true.
Proof. destruct x as [[[ty u] ss]|]; reflexivity. Qed.
Lemma ep_send i x s r : e_send (ep i x s r) = s.
Proof. destruct x as [[[ty u] ss]|]; reflexivity. Qed.
Lemma eps_app : forall rs1 rs2 i s r, eps_of i (rs1 ++ rs2) s r = eps_of i rs1 s r ++ eps_of (i + length rs1) rs2 s r.
Proof.
  induction rs1 as [|x t IH]; intros; cbn [eps_of app length]; [now rewrite Nat.add_0_r|]. now rewrite IH, Nat.add_succ_r.
Qed.
Lemma eps_ext : forall rs i s r s' r', (forall k, k < length rs -> s (i + k) = s' (i + k) /\ r (i + k) = r' (i + k)) ->
  eps_of i rs s r = eps_of i rs s' r'.
Proof.
  induction rs as [|x t IH]; intros i s r s' r' H; cbn [eps_of]; [reflexivity|].
  destruct (H 0 ltac:(cbn [length]; lia)) as [H1 H2]. rewrite Nat.add_0_r in H1, H2. rewrite H1, H2. f_equal. apply IH.
  intros k Hk. replace (S i + k) with (i + S k) by lia. apply H. cbn [length]. lia.
Qed.
Lemma eps_ids : forall rs i s r, map e_id (eps_of i rs s r) = seq i (length rs).
Proof. induction rs as [|x t IH]; intros; cbn [eps_of map length seq]; [reflexivity|]. now rewrite ep_id, IH. Qed.
Lemma eps_alive : forall rs i s r, filter e_alive (eps_of i rs s r) = eps_of i rs s r.
Proof. induction rs as [|x t IH]; intros; cbn [eps_of filter]; [reflexivity|]. now rewrite ep_alive, IH. Qed.
Lemma eps_sends : forall rs i s r, flat_map e_send (eps_of i rs s r) = sends_of i rs s.
Proof. induction rs as [|x t IH]; intros; cbn [eps_of flat_map sends_of]; [reflexivity|]. now rewrite ep_send, IH. Qed.
Lemma sends_app : forall rs1 rs2 i s, sends_of i (rs1 ++ rs2) s = sends_of i rs1 s ++ sends_of (i + length rs1) rs2 s.
Proof.
  induction rs1 as [|x t IH]; intros; cbn [sends_of app length]; [now rewrite Nat.add_0_r|]. now rewrite IH, <- app_assoc, Nat.add_succ_r.
Qed.
Lemma sends_ext : forall rs i s s', (forall k, k < length rs -> s (i + k) = s' (i + k)) -> sends_of i rs s = sends_of i rs s'.
Proof.
  induction rs as [|x t IH]; intros i s s' H; cbn [sends_of]; [reflexivity|].
  pose proof (H 0 ltac:(cbn [length]; lia)) as H1. rewrite Nat.add_0_r in H1. rewrite H1. f_equal. apply IH.
  intros k Hk. replace (S i + k) with (i + S k) by lia. apply H. cbn [length]. lia.
Qed.
Lemma looks_ext b rs s r e0 s' r' : looks b rs s r e0 -> (forall k, k < length rs -> s (S k) = s' (S k) /\ r (S k) = r' (S k)) ->
  looks b rs s' r' e0.
Proof. intros [H1 H2 H3 H4] H. split; auto. rewrite H1. f_equal. apply eps_ext. exact H. Qed.
Lemma looks_pending b rs s r e0 : looks b rs s r e0 -> pending b = b_route b ++ e_send e0 ++ sends_of 1 rs s.
Proof.
  intros [H1 H2 H3 H4]. unfold pending. rewrite H1. cbn [filter]. rewrite H3. cbn [flat_map]. now rewrite eps_alive, eps_sends.
Qed.
Lemma looks_ids b rs s r e0 : looks b rs s r e0 -> ids_ok b.
Proof.
  intros [H1 H2 H3 H4]. assert (E : map e_id (b_eps b) = seq 0 (S (length rs))).
  { rewrite H1. cbn [map seq]. now rewrite H2, eps_ids. }
  split; [rewrite E; apply seq_NoDup|]. apply Forall_forall. intros e He. apply (in_map e_id) in He. rewrite E in He.
  apply in_seq in He. lia.
Qed.

(** ** One call *)
Lemma exec_split b o l1 e l2 e' x : b_eps b = l1 ++ e :: l2 -> NoDup (map e_id (b_eps b)) -> e_alive e = true ->
  op_id o = Some (e_id e) -> ep_effect o e = Ret (e', x) ->
  exec b o = Ret (mkBus (l1 ++ e' :: l2) (b_route b) (b_next b), x).
Proof.
  intros H1 H2 H3 H4 H5. rewrite (exec_ep o _ b H4). unfold on_ep, ep_find.
  assert (F : find (fun e0 => Nat.eqb (e_id e0) (e_id e) && e_alive e0) (b_eps b) = Some e).
  { apply find_unique; auto. rewrite H1. apply in_or_app. right. now left. }
  rewrite F, H5. cbn [obind fst snd]. unfold ep_put. rewrite H1. destruct (ep_effect_id o e e' x H5) as [E _]. rewrite E.
  rewrite H1, map_app in H2. cbn [map] in H2. apply NoDup_remove in H2 as [_ H2].
  assert (K : forall l, ~ In (e_id e) (map e_id l) -> map (fun y => if Nat.eqb (e_id y) (e_id e) then e' else y) l = l).
  { clear. induction l as [|y l IH]; cbn [map]; [reflexivity|]. intros H. destruct (Nat.eqb_spec (e_id y) (e_id e)) as [E|E].
    - exfalso. apply H. now left.
    - f_equal. apply IH. intros H0. apply H. now right. }
  rewrite map_app. cbn [map]. rewrite Nat.eqb_refl, !K; [reflexivity| |]; intros H; apply H2; apply in_or_app; auto.
Qed.
(** On the backend's own endpoint. *)
Lemma exec_own b o rs s r e0 b' x : looks b rs s r e0 -> op_id o = Some 0 -> exec b o = Ret (b', x) ->
  exists e0', looks b' rs s r e0' /\ b_route b' = b_route b /\ ep_effect o e0 = Ret (e0', x).
Proof.
  intros L Ho Hx. pose proof (looks_ids _ _ _ _ _ L) as Hi. destruct L as [H1 H2 H3 H4].
  rewrite (exec_ep o 0 b Ho) in Hx. unfold on_ep in Hx.
  assert (F : ep_find 0 b = Some e0). { apply ep_find_iff; [exact Hi|]. rewrite H1. split; [now left|auto]. }
  rewrite F in Hx. destruct (ep_effect o e0) as [[e0' y]| |] eqn:E; cbn [obind fst snd] in Hx; try discriminate. injection Hx as <- <-.
  destruct (ep_effect_id _ _ _ _ E) as [E1 E2]. exists e0'. split; [|auto].
  split; cbn [ep_put b_eps b_next]; try congruence. rewrite H1. cbn [map]. rewrite E1, H2. cbn [Nat.eqb]. f_equal.
  destruct Hi as [Hn _]. rewrite H1 in Hn. cbn [map] in Hn. apply NoDup_cons_iff in Hn as [Hn _]. rewrite H2 in Hn.
  revert Hn. generalize (eps_of 1 rs s r). induction l as [|v l IH]; cbn [map]; [reflexivity|]. intros Hn.
  destruct (Nat.eqb_spec (e_id v) 0) as [Ey|Ey]; [exfalso; apply Hn; now left|]. f_equal. apply IH. intros H. apply Hn. now right.
Qed.
(** On another endpoint. *)
Lemma exec_other b o rs1 x rs2 s r e0 x' s' r' y : looks b (rs1 ++ x :: rs2) s r e0 -> op_id o = Some (S (length rs1)) ->
  ep_effect o (ep (S (length rs1)) x (s (S (length rs1))) (r (S (length rs1)))) = Ret (ep (S (length rs1)) x' s' r', y) ->
  exists b', exec b o = Ret (b', y) /\ looks b' (rs1 ++ x' :: rs2) (put_at s (S (length rs1)) s') (put_at r (S (length rs1)) r') e0 /\
    b_route b' = b_route b.
Proof.
  intros L Ho He. pose proof (looks_ids _ _ _ _ _ L) as [Hn _]. destruct L as [H1 H2 H3 H4].
  rewrite eps_app in H1. cbn [eps_of] in H1. change (1 + length rs1) with (S (length rs1)) in H1. set (i := S (length rs1)) in *.
  eexists. split.
  - eapply (exec_split b o (e0 :: eps_of 1 rs1 s r)); [exact H1|exact Hn|apply ep_alive|rewrite ep_id; exact Ho|exact He].
  - split; [|reflexivity]. split; cbn [b_eps b_next]; auto.
    + rewrite eps_app. cbn [eps_of]. change (1 + length rs1) with i. unfold put_at at 3 4. rewrite Nat.eqb_refl.
      cbn [app]. f_equal. f_equal; [|f_equal].
      * apply eps_ext. intros k Hk. unfold put_at. destruct (Nat.eqb_spec (1 + k) i); [unfold i in *; lia|auto].
      * apply eps_ext. intros k Hk. unfold put_at. destruct (Nat.eqb_spec (S i + k) i); [lia|auto].
    + rewrite H4, !app_length. reflexivity.
Qed.
Lemma exec_create b rs s r e0 : looks b rs s r e0 -> s (S (length rs)) = [] -> r (S (length rs)) = [] ->
  exists b', exec b OCreate = Ret (b', OutUnit) /\ looks b' (rs ++ [None]) s r e0 /\ b_route b' = b_route b.
Proof.
  intros [H1 H2 H3 H4] Hs Hr. eexists. split; [reflexivity|]. split; [|reflexivity]. split; cbn [create_endpoint b_eps b_next]; auto.
  - rewrite H1, eps_app. cbn [eps_of app ep length]. rewrite H4. change (1 + length rs) with (S (length rs)). now rewrite Hs, Hr.
  - rewrite H4, app_length. cbn [length]. lia.
Qed.
(** Routing. *)
Definition takes (x : role) (m : message) : bool := match x with Some (_, _, ss) => mem (msg_sender m) ss | None => false end.
Lemma eps_route ms : forall rs i s r (r' : nat -> list message), (forall k x, nth_error rs k = Some x -> r' (i + k) = r (i + k) ++ filter (takes x) ms) ->
  map (fun e => offered ms (clear_send e)) (eps_of i rs s r) = eps_of i rs (fun _ => []) r'.
Proof.
  induction rs as [|x t IH]; intros i s r r' H; cbn [eps_of map]; [reflexivity|]. f_equal.
  - pose proof (H 0 x eq_refl) as H0. rewrite Nat.add_0_r in H0. rewrite H0. destruct x as [[[ty u] ss]|]; reflexivity.
  - apply IH. intros k y Hk. replace (S i + k) with (i + S k) by lia. now apply H.
Qed.
Lemma exec_route b rs s r e0 : looks b rs s r e0 ->
  exists b' n, exec b ORoute = Ret (b', OutCount n) /\ b_route b' = [] /\
    looks b' rs (fun _ => []) (fun i => r i ++ filter (takes (nth (pred i) rs None)) (rev (pending b)))
      (offered (rev (pending b)) (clear_send e0)).
Proof.
  intros [H1 H2 H3 H4]. cbn [exec]. rewrite route_eq. eexists _, _. split; [reflexivity|]. split; [reflexivity|].
  split; cbn [b_eps b_next]; auto.
  - rewrite H1. cbn [filter]. rewrite H3, eps_alive. cbn [map]. f_equal. apply eps_route. intros k x Hk. cbn [plus pred].
    erewrite nth_error_nth; [|exact Hk]. reflexivity.
Qed.

(** ** Listening and sending *)
Lemma hear_ok b rs1 ty u ss rs2 s r e0 : looks b (rs1 ++ Some (ty, u, ss) :: rs2) s r e0 ->
  exists b', hear b (S (length rs1)) ty u = Ret (b', filter (wanted ty ss) (rev (r (S (length rs1))))) /\
    looks b' (rs1 ++ Some (ty, u, ss) :: rs2) s (put_at r (S (length rs1)) []) e0 /\ b_route b' = b_route b.
Proof.
  intros L. pose proof (looks_ids _ _ _ _ _ L) as [Hn _]. destruct L as [H1 H2 H3 H4].
  rewrite eps_app in H1. cbn [eps_of ep] in H1. change (1 + length rs1) with (S (length rs1)) in H1. set (i := S (length rs1)) in *.
  unfold hear.
  rewrite (exec_split b (OReceiveAll i) (e0 :: eps_of 1 rs1 s r) _ _
            (mkEp i true (s i) [] ss [((ty, u), mkSub ss (filter (wanted ty ss) (rev (r i))))]) (OutCount (length (r i))) H1 Hn eq_refl eq_refl).
  2:{ cbn [ep_effect]. rewrite receive_all_eq. reflexivity. }
  cbn [obind fst snd].
  rewrite (exec_split (mkBus ((e0 :: eps_of 1 rs1 s r) ++ mkEp i true (s i) [] ss [((ty, u), mkSub ss (filter (wanted ty ss) (rev (r i))))] :: eps_of (S i) rs2 s r)
                        (b_route b) (b_next b)) (OUnload i ty u) (e0 :: eps_of 1 rs1 s r) _ _ (ep i (Some (ty, u, ss)) (s i) [])
             (OutMsgs (filter (wanted ty ss) (rev (r i)))) eq_refl).
  - cbn [obind fst snd]. eexists. split; [reflexivity|]. split; [|reflexivity]. split; cbn [b_eps b_next]; auto.
    rewrite eps_app. cbn [eps_of]. change (1 + length rs1) with i. unfold put_at at 2. rewrite Nat.eqb_refl. cbn [app]. f_equal. f_equal; [|f_equal].
    + apply eps_ext. intros k Hk. unfold put_at. destruct (Nat.eqb_spec (1 + k) i); [unfold i in *; lia|auto].
    + apply eps_ext. intros k Hk. unfold put_at. destruct (Nat.eqb_spec (S i + k) i); [lia|auto].
  - cbn [b_eps]. rewrite H1 in Hn. cbn [map app] in Hn |- *. rewrite map_app in Hn |- *. exact Hn.
  - reflexivity.
  - reflexivity.
  - cbn [ep_effect]. unfold unload_messages. cbn [e_subs sub_find]. rewrite key_eqb_refl. cbn [s_msgs s_senders e_id e_alive e_send e_recv e_filter sub_set].
    rewrite key_eqb_refl. reflexivity.
Qed.
Lemma sends_ok : forall ms b rs1 x rs2 s r e0, looks b (rs1 ++ x :: rs2) s r e0 ->
  exists b' tr, run b (map (OSend (S (length rs1))) ms) = Ret (b', tr) /\
    looks b' (rs1 ++ x :: rs2) (put_at s (S (length rs1)) (s (S (length rs1)) ++ ms)) r e0 /\ b_route b' = b_route b.
Proof.
  induction ms as [|m ms IH]; intros b rs1 x rs2 s r e0 L; cbn [map run].
  - exists b, []. split; [reflexivity|]. split; [|reflexivity]. eapply looks_ext; [exact L|]. intros k Hk. rewrite app_nil_r. unfold put_at.
    destruct (Nat.eqb_spec (S k) (S (length rs1))) as [->|]; auto.
  - set (i := S (length rs1)) in *.
    destruct (exec_other b (OSend i m) rs1 x rs2 s r e0 x (s i ++ [m]) (r i) OutUnit L eq_refl) as (b1 & E1 & L1 & R1).
    { destruct x as [[[ty u] ss]|]; reflexivity. }
    rewrite E1. cbn [obind fst snd].
    destruct (IH b1 rs1 x rs2 _ _ e0 L1) as (b2 & tr & E2 & L2 & R2). fold i in E2, L2. rewrite E2. cbn [obind fst snd].
    exists b2, ((OSend i m, OutUnit) :: tr). split; [reflexivity|]. split; [|congruence]. eapply looks_ext; [exact L2|]. intros k Hk. unfold put_at.
    rewrite Nat.eqb_refl. destruct (Nat.eqb_spec (S k) i) as [->|]; [|auto]. now rewrite <- app_assoc.
Qed.
