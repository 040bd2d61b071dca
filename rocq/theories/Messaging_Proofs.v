From Verif Require Import Base ListLemmas Messaging_Model Messaging_Spec.
Arguments receive_all : simpl never.
Arguments route_messages : simpl never.
Arguments bus_step : simpl never.
Arguments unload_messages : simpl never.
Arguments subscribe : simpl never.

Lemma key_eqb_spec a b : reflect (a = b) (key_eqb a b).
Proof.
  destruct a as [a1 a2], b as [b1 b2]; unfold key_eqb; cbn.
  destruct (Nat.eqb_spec a1 b1), (N.eqb_spec a2 b2); cbn; constructor; congruence.
Qed.
Lemma key_eqb_refl a : key_eqb a a = true.
Proof. destruct (key_eqb_spec a a); congruence. Qed.

Lemma pop_back_cons {A} (x : A) t : t <> [] ->
  pop_back (x :: t) = match pop_back t with Some (t', y) => Some (x :: t', y) | None => None end.
Proof. destruct t; [congruence|reflexivity]. Qed.
Lemma pop_back_app {A} (l : list A) x : pop_back (l ++ [x]) = Some (l, x).
Proof.
  induction l as [|y l IH]; [reflexivity|].
  cbn [app]. rewrite pop_back_cons by (destruct l; discriminate). now rewrite IH.
Qed.
Lemma pop_back_nil_inv {A} (l : list A) : pop_back l = None -> l = [].
Proof.
  destruct l as [|x l] using rev_ind; [reflexivity|]. now rewrite pop_back_app.
Qed.

(** ** subscriptions as a map *)
Lemma sub_find_set k k' s l :
  sub_find k (sub_set k' s l) = if key_eqb k k' then Some s else sub_find k l.
Proof.
  induction l as [|[k2 s2] l IH]; cbn.
  - reflexivity.
  - destruct (key_eqb_spec k' k2) as [->|N1]; cbn.
    + now destruct (key_eqb_spec k k2).
    + destruct (key_eqb_spec k k2) as [->|N2].
      * destruct (key_eqb_spec k2 k') as [->|]; congruence.
      * exact IH.
Qed.
Lemma sub_find_erase k k' l :
  sub_find k (sub_erase k' l) = if key_eqb k k' then None else sub_find k l.
Proof.
  unfold sub_erase. induction l as [|[k2 s2] l IH]; cbn.
  - now destruct (key_eqb k k').
  - destruct (key_eqb_spec k' k2) as [->|N1]; cbn.
    + rewrite IH. now destruct (key_eqb_spec k k2).
    + destruct (key_eqb_spec k k2) as [->|N2]; [|exact IH].
      destruct (key_eqb_spec k2 k') as [->|]; congruence.
Qed.

(** ** receiving *)
Definition deliver_many (ms : list message) (p : key * sub) : key * sub :=
  (fst p, mkSub (s_senders (snd p))
                (s_msgs (snd p) ++ filter (wanted (fst (fst p)) (s_senders (snd p))) ms)).

Lemma deliver_to_many m p : deliver_to m p = deliver_many [m] p.
Proof.
  destruct p as [[ty r] [ss ms]]. unfold deliver_to, deliver_many, wanted; cbn.
  rewrite (Nat.eqb_sym (msg_type m) ty).
  destruct (Nat.eqb ty (msg_type m) && mem (msg_sender m) ss); [reflexivity|].
  now rewrite app_nil_r.
Qed.
Lemma deliver_many_app a b p : deliver_many b (deliver_many a p) = deliver_many (a ++ b) p.
Proof.
  destruct p as [[ty r] [ss ms]]. unfold deliver_many; cbn.
  now rewrite filter_app, app_assoc.
Qed.

Definition with_recv_subs (e : endpoint) (r : list message) (s : subs) : endpoint :=
  mkEp (e_id e) (e_alive e) (e_send e) r (e_filter e) s.

Lemma receive_all_fuel_eq e : forall r f s c,
  length r < f ->
  receive_all_fuel f (with_recv_subs e r s) c =
  (with_recv_subs e [] (map (deliver_many (rev r)) s), c + length r).
Proof.
  induction r as [|m r IH] using rev_ind; intros f s c Hf.
  - destruct f as [|f]; [cbn in Hf; lia|]. cbn.
    f_equal; [|lia]. unfold with_recv_subs. f_equal.
    symmetry. rewrite <- (map_id s) at 2. apply map_ext.
    intros [[ty rr] [ss ms]]. unfold deliver_many; cbn. now rewrite app_nil_r.
  - rewrite app_length in Hf; cbn in Hf.
    destruct f as [|f]; [lia|]. cbn [receive_all_fuel].
    unfold receive_message. cbn [with_recv_subs e_recv]. rewrite pop_back_app.
    change (mkEp (e_id (with_recv_subs e (r ++ [m]) s)) (e_alive (with_recv_subs e (r ++ [m]) s))
              (e_send (with_recv_subs e (r ++ [m]) s)) r (e_filter (with_recv_subs e (r ++ [m]) s))
              (map (deliver_to m) (e_subs (with_recv_subs e (r ++ [m]) s))))
      with (with_recv_subs e r (map (deliver_to m) s)).
    rewrite IH by lia. rewrite rev_app_distr, app_length. cbn [rev app length].
    f_equal; [|lia]. unfold with_recv_subs. f_equal.
    rewrite map_map. apply map_ext; intros p.
    rewrite deliver_to_many, deliver_many_app. reflexivity.
Qed.
Lemma receive_all_eq e :
  receive_all e = (with_recv_subs e [] (map (deliver_many (rev (e_recv e))) (e_subs e)),
                   length (e_recv e)).
Proof.
  unfold receive_all.
  replace e with (with_recv_subs e (e_recv e) (e_subs e)) at 2 by (destruct e; reflexivity).
  rewrite receive_all_fuel_eq by lia. reflexivity.
Qed.
Lemma sub_find_map_deliver k ms l :
  sub_find k (map (deliver_many ms) l) =
  match sub_find k l with
  | None => None
  | Some s => Some (mkSub (s_senders s) (s_msgs s ++ filter (wanted (fst k) (s_senders s)) ms))
  end.
Proof.
  induction l as [|[k2 s2] l IH]; cbn; [reflexivity|].
  destruct (key_eqb_spec k k2) as [->|]; [reflexivity|exact IH].
Qed.

(** ** routing *)
Definition offered (ms : list message) (e : endpoint) : endpoint :=
  if e_alive e then
    mkEp (e_id e) (e_alive e) (e_send e)
         (e_recv e ++ filter (fun m => mem (msg_sender m) (e_filter e)) ms) (e_filter e) (e_subs e)
  else e.
Lemma offer_offered m e : offer m e = offered [m] e.
Proof.
  unfold offer, offered. destruct e as [i a s r f sb]; cbn. destruct a; cbn; [|reflexivity].
  destruct (mem (msg_sender m) f); [reflexivity|now rewrite app_nil_r].
Qed.
Lemma offered_app a b e : offered b (offered a e) = offered (a ++ b) e.
Proof.
  unfold offered. destruct e as [i al s r f sb]; cbn. destruct al; cbn; [|reflexivity].
  now rewrite filter_app, app_assoc.
Qed.
Lemma offered_nil e : offered [] e = e.
Proof. destruct e as [i [] s r f sb]; unfold offered; cbn; now rewrite ?app_nil_r. Qed.

Lemma route_fuel_eq : forall r f eps nx c,
  length r < f ->
  route_fuel f (mkBus eps r nx) c = (mkBus (map (offered (rev r)) eps) [] nx, c + length r).
Proof.
  induction r as [|m r IH] using rev_ind; intros f eps nx c Hf.
  - destruct f as [|f]; [cbn in Hf; lia|]. cbn [route_fuel]. unfold bus_step. cbn. f_equal; [|lia]. f_equal.
    rewrite <- (map_id eps) at 1. apply map_ext. intros e. now rewrite offered_nil.
  - rewrite app_length in Hf; cbn in Hf.
    destruct f as [|f]; [lia|]. cbn [route_fuel]. unfold bus_step. cbn [b_route].
    rewrite pop_back_app. cbn [b_eps b_next].
    rewrite IH by lia. rewrite rev_app_distr, app_length. cbn [rev app length].
    f_equal; [|lia]. f_equal. rewrite map_map. apply map_ext; intros e.
    rewrite offer_offered, offered_app. reflexivity.
Qed.

Definition clear_send (e : endpoint) : endpoint :=
  mkEp (e_id e) true [] (e_recv e) (e_filter e) (e_subs e).
Lemma update_loop_eq : forall eps r,
  update_loop eps r =
  (map clear_send (filter e_alive eps), r ++ flat_map e_send (filter e_alive eps)).
Proof.
  induction eps as [|e eps IH]; intros r; cbn.
  - now rewrite app_nil_r.
  - destruct (e_alive e); cbn; rewrite IH; [|reflexivity].
    now rewrite app_assoc.
Qed.
Lemma bus_update_eq b :
  bus_update b = mkBus (map clear_send (filter e_alive (b_eps b))) (pending b) (b_next b).
Proof. unfold bus_update. now rewrite update_loop_eq. Qed.
Lemma route_eq b :
  route_messages b =
  (mkBus (map (fun e => offered (rev (pending b)) (clear_send e)) (filter e_alive (b_eps b))) []
         (b_next b), length (pending b)).
Proof.
  unfold route_messages. rewrite bus_update_eq. cbn [b_route].
  rewrite route_fuel_eq by lia. now rewrite map_map.
Qed.

(** ** endpoint table *)
Definition ids_ok (b : bus) : Prop :=
  NoDup (map e_id (b_eps b)) /\ Forall (fun e => e_id e < b_next b) (b_eps b).

Lemma ep_find_Some id b e :
  ep_find id b = Some e -> In e (b_eps b) /\ e_id e = id /\ e_alive e = true.
Proof.
  unfold ep_find. intros H. apply find_some in H as [H1 H2].
  apply andb_true_iff in H2 as [H2 H3]. apply Nat.eqb_eq in H2. auto.
Qed.
Lemma find_unique (l : list endpoint) e id :
  NoDup (map e_id l) -> In e l -> e_id e = id -> e_alive e = true ->
  find (fun e => Nat.eqb (e_id e) id && e_alive e) l = Some e.
Proof.
  induction l as [|x l IH]; cbn; [tauto|]. intros ND [->|Hin] Hid Ha.
  - now rewrite Hid, Nat.eqb_refl, Ha.
  - inversion ND as [|? ? Hni ND']; subst.
    destruct (Nat.eqb_spec (e_id x) (e_id e)) as [E|E]; cbn; [|now apply IH].
    exfalso. apply Hni. rewrite E. now apply in_map.
Qed.
Lemma ep_find_iff id b e : ids_ok b ->
  ep_find id b = Some e <-> In e (b_eps b) /\ e_id e = id /\ e_alive e = true.
Proof.
  intros [ND _]. split; [apply ep_find_Some|].
  intros (H1 & H2 & H3). now apply find_unique.
Qed.
Lemma ep_find_map_gen (f : endpoint -> endpoint) id b r :
  (forall e, e_id (f e) = e_id e /\ e_alive (f e) = e_alive e) ->
  ep_find id (mkBus (map f (b_eps b)) r (b_next b)) = option_map f (ep_find id b).
Proof.
  intros Hf. unfold ep_find; cbn. induction (b_eps b) as [|x l IH]; cbn; [reflexivity|].
  destruct (Hf x) as [-> ->]. now destruct (Nat.eqb (e_id x) id && e_alive x).
Qed.

Lemma put_ids (l : list endpoint) e' :
  map e_id (map (fun x => if Nat.eqb (e_id x) (e_id e') then e' else x) l) = map e_id l.
Proof.
  rewrite map_map. apply map_ext_in. intros x _.
  destruct (Nat.eqb_spec (e_id x) (e_id e')) as [E|E]; [now symmetry|reflexivity].
Qed.
Lemma ep_find_put id b e e' : ids_ok b ->
  ep_find (e_id e') b = Some e -> e_alive e' = true ->
  ep_find id (ep_put e' b) = if Nat.eqb id (e_id e') then Some e' else ep_find id b.
Proof.
  intros [ND HL] H Ha. apply ep_find_Some in H as (Hin & Hid & Hal).
  unfold ep_find, ep_put; cbn.
  destruct (Nat.eqb_spec id (e_id e')) as [->|Hne].
  - apply find_unique; auto.
    + now rewrite put_ids.
    + apply in_map_iff. exists e. rewrite Hid, Nat.eqb_refl. auto.
  - clear Hin. induction (b_eps b) as [|x l IH]; cbn; [reflexivity|].
    inversion ND; inversion HL; subst.
    destruct (Nat.eqb_spec (e_id x) (e_id e')) as [E|E].
    + rewrite E. destruct (Nat.eqb_spec (e_id e') id); [congruence|]. cbn. auto.
    + destruct (Nat.eqb (e_id x) id && e_alive x); [reflexivity|auto].
Qed.

Lemma ids_ok_init : ids_ok bus_init.
Proof. split; cbn; constructor. Qed.
Lemma ids_ok_put b e' : ids_ok b -> ids_ok (ep_put e' b) \/ ~ In (e_id e') (map e_id (b_eps b)).
Proof.
  intros [ND HL]. destruct (in_dec Nat.eq_dec (e_id e') (map e_id (b_eps b))) as [Hin|]; [left|now right].
  split; cbn; [now rewrite put_ids|].
  apply Forall_map. eapply Forall_impl; [|exact HL]. intros x Hx.
  destruct (Nat.eqb_spec (e_id x) (e_id e')); [|exact Hx]. now rewrite <- e.
Qed.

(** every endpoint method keeps identity and liveness *)
Definition ep_effect (o : op) (e : endpoint) : outcome (endpoint * out) :=
  match o with
  | OSubscribe _ ty r ss => Ret (subscribe ty r ss e, OutUnit)
  | OUnsubscribe _ ty r => let (e', x) := unsubscribe ty r e in Ret (e', OutBool x)
  | ORemoveReceiver _ r => obind (remove_receiver r e) (fun e' => Ret (e', OutUnit))
  | OAddSender _ ty r u => obind (add_sender ty r u e) (fun e' => Ret (e', OutUnit))
  | ORemoveSender _ ty r u => obind (remove_sender ty r u e) (fun e' => Ret (e', OutUnit))
  | OSend _ m => Ret (send_message m e, OutUnit)
  | OReceive _ => let (e', x) := receive_message e in Ret (e', OutBool x)
  | OReceiveAll _ => let (e', n) := receive_all e in Ret (e', OutCount n)
  | OUnload _ ty r => let (e', l) := unload_messages ty r e in Ret (e', OutMsgs l)
  | _ => UB
  end.
Definition op_id (o : op) : option nat :=
  match o with
  | OSubscribe i _ _ _ | OUnsubscribe i _ _ | ORemoveReceiver i _ | OAddSender i _ _ _
  | ORemoveSender i _ _ _ | OSend i _ | OReceive i | OReceiveAll i | OUnload i _ _ => Some i
  | _ => None
  end.
Lemma exec_ep o id b : op_id o = Some id -> exec b o = on_ep id b (ep_effect o).
Proof. destruct o; cbn; intros [= <-]; reflexivity. Qed.

Lemma remove_receiver_Ret r e e' : remove_receiver r e = Ret e' -> e' = e.
Proof. unfold remove_receiver. destruct (remove_receiver_loop r (e_subs e)); cbn; congruence. Qed.

Lemma ep_effect_id o e e' x :
  ep_effect o e = Ret (e', x) -> e_id e' = e_id e /\ e_alive e' = e_alive e.
Proof.
  destruct o; cbn [ep_effect]; try discriminate.
  - now intros [= <- _].
  - unfold unsubscribe. destruct (sub_find _ _); now intros [= <- _].
  - destruct (remove_receiver _ _) as [a| |] eqn:E; cbn; try discriminate.
    apply remove_receiver_Ret in E. subst a. now intros [= <- _].
  - unfold add_sender. destruct (sub_find _ _); cbn; try discriminate. now intros [= <- _].
  - unfold remove_sender. destruct (sub_find _ _); cbn; try discriminate. now intros [= <- _].
  - now intros [= <- _].
  - unfold receive_message. destruct (pop_back _) as [[? ?]|]; now intros [= <- _].
  - rewrite receive_all_eq. now intros [= <- _].
  - unfold unload_messages. destruct (sub_find _ _); now intros [= <- _].
Qed.

Lemma on_ep_inv id b f b' x :
  on_ep id b f = Ret (b', x) ->
  exists e e', ep_find id b = Some e /\ f e = Ret (e', x) /\ b' = ep_put e' b.
Proof.
  unfold on_ep. destruct (ep_find id b) as [e|]; [|discriminate].
  destruct (f e) as [[e' y]| |] eqn:E; cbn; try discriminate. intros [= <- <-].
  exists e, e'. auto.
Qed.

Lemma ids_ok_exec b o b' x : ids_ok b -> exec b o = Ret (b', x) -> ids_ok b'.
Proof.
  intros OK H. destruct (op_id o) as [id|] eqn:Eo.
  - rewrite (exec_ep o id b Eo) in H.
    apply on_ep_inv in H as (e & e' & Hf & Hef & ->).
    apply ep_effect_id in Hef as [Hid Hal]. apply ep_find_Some in Hf as (Hin & _ & _).
    destruct (ids_ok_put b e' OK) as [|Hn]; [assumption|].
    exfalso. apply Hn. rewrite Hid. now apply in_map.
  - destruct o; try discriminate Eo; cbn in H.
    + injection H as <- _. destruct OK as [ND HL]. split; cbn.
      * rewrite map_app; cbn. apply NoDup_app_intro; repeat split; auto.
        -- repeat constructor; auto.
        -- intros a Ha [<-|[]]. apply in_map_iff in Ha as (y & Hy & Hin).
           rewrite Forall_forall in HL. apply HL in Hin. lia.
      * apply Forall_app; split; [|repeat constructor].
        eapply Forall_impl; [|exact HL]. cbn; intros; lia.
    + destruct (ep_find id b); [|discriminate]. injection H as <- _.
      destruct OK as [ND HL]. split; cbn.
      * rewrite map_map. erewrite map_ext; [exact ND|].
        intros y. now destruct (Nat.eqb (e_id y) id).
      * apply Forall_map. eapply Forall_impl; [|exact HL]. intros y Hy.
        now destruct (Nat.eqb (e_id y) id).
    + unfold bus_step in H. destruct (pop_back (b_route b)) as [[r m]|]; injection H as <- _; auto.
      destruct OK as [ND HL]. split; cbn.
      * rewrite map_map. erewrite map_ext; [exact ND|].
        intros y. unfold offer. now destruct (e_alive y && _).
      * apply Forall_map. eapply Forall_impl; [|exact HL]. intros y Hy.
        unfold offer. now destruct (e_alive y && _).
    + rewrite route_eq in H. injection H as <- _. destruct OK as [ND HL]. split; cbn.
      * rewrite map_map. erewrite map_ext with (g := e_id).
        -- clear -ND. induction (b_eps b) as [|y l IH]; cbn in *; [constructor|].
           inversion ND as [|? ? Hni ND']; subst. destruct (e_alive y); cbn; auto.
           constructor; auto. intros Hin. apply Hni.
           apply in_map_iff in Hin as (z & Hz & Hin). apply filter_In in Hin as [Hin _].
           apply in_map_iff. eauto.
        -- intros y. unfold offered; cbn. reflexivity.
      * apply Forall_map. apply Forall_forall. intros y Hy. apply filter_In in Hy as [Hy _].
        rewrite Forall_forall in HL. cbn. now apply HL.
Qed.

(** ** operations on the table, seen through [ep_find] *)
Lemma ep_find_create id b : ids_ok b ->
  ep_find id (create_endpoint b) =
  if Nat.eqb id (b_next b) then Some (mkEp (b_next b) true [] [] [] []) else ep_find id b.
Proof.
  intros [ND HL]. unfold ep_find, create_endpoint; cbn.
  induction (b_eps b) as [|x l IH]; cbn.
  - rewrite (Nat.eqb_sym (b_next b) id), andb_true_r. now destruct (Nat.eqb id (b_next b)).
  - inversion HL as [|? ? Hx HL']; subst. inversion ND; subst.
    destruct (Nat.eqb_spec (e_id x) id) as [E|E]; cbn; [|now apply IH].
    destruct (e_alive x) eqn:Ea; [|now apply IH].
    destruct (Nat.eqb_spec id (b_next b)); [lia|reflexivity].
Qed.
Lemma ep_find_destroy id i b :
  ep_find id (destroy_endpoint i b) = if Nat.eqb id i then None else ep_find id b.
Proof.
  unfold ep_find, destroy_endpoint; cbn.
  induction (b_eps b) as [|x l IH]; cbn.
  - now destruct (Nat.eqb id i).
  - destruct (Nat.eqb_spec (e_id x) i) as [E|E]; cbn.
    + rewrite andb_false_r, IH. destruct (Nat.eqb_spec id i) as [E2|E2]; [reflexivity|].
      destruct (Nat.eqb_spec (e_id x) id); [congruence|reflexivity].
    + destruct (Nat.eqb_spec (e_id x) id) as [E2|E2]; cbn; [|exact IH].
      destruct (e_alive x); [|exact IH].
      destruct (Nat.eqb_spec id i); [congruence|reflexivity].
Qed.
Lemma ep_find_step id b b' n : bus_step b = (b', n) ->
  ep_find id b' = match pop_back (b_route b) with
                  | Some (_, m) => option_map (offer m) (ep_find id b)
                  | None => ep_find id b end.
Proof.
  unfold bus_step. destruct (pop_back (b_route b)) as [[r m]|]; intros [= <- _]; [|reflexivity].
  apply ep_find_map_gen. intros e. unfold offer. now destruct (e_alive e && _).
Qed.
Lemma ep_find_route id b b' n : route_messages b = (b', n) ->
  ep_find id b' = option_map (fun e => offered (rev (pending b)) (clear_send e)) (ep_find id b).
Proof.
  rewrite route_eq. intros [= <- _]. unfold ep_find; cbn.
  induction (b_eps b) as [|x l IH]; cbn; [reflexivity|].
  destruct (e_alive x) eqn:Ea; cbn.
  - rewrite !andb_true_r. destruct (Nat.eqb (e_id x) id); [reflexivity|exact IH].
  - rewrite andb_false_r. exact IH.
Qed.
Lemma ep_find_method o id b b' x : ids_ok b -> op_id o = Some id -> exec b o = Ret (b', x) ->
  exists e e', ep_find id b = Some e /\ ep_effect o e = Ret (e', x) /\
  e_id e' = id /\ b' = ep_put e' b /\
  forall i, ep_find i b' = if Nat.eqb i id then Some e' else ep_find i b.
Proof.
  intros OK Eo H. rewrite (exec_ep o id b Eo) in H.
  apply on_ep_inv in H as (e & e' & Hf & Hef & ->).
  exists e, e'. pose proof (ep_effect_id o e e' x Hef) as [Hid Hal].
  pose proof (ep_find_Some id b e Hf) as (_ & Hid2 & Hal2).
  assert (Ei : e_id e' = id) by congruence.
  repeat split; auto. intros i.
  rewrite (ep_find_put i b e e'); [now rewrite Ei|assumption|now rewrite Ei|congruence].
Qed.

(** ** senders of subscriptions follow the history *)
Definition senders_at (b : bus) (id ty : nat) (r : uid) : option (list uid) :=
  match ep_find id b with
  | Some e => option_map s_senders (sub_find (ty, r) (e_subs e))
  | None => None
  end.
Lemma op_id_match (i id ty ty' : nat) (r r' : uid) :
  Nat.eqb i id && Nat.eqb ty' ty && N.eqb r' r = Nat.eqb id i && key_eqb (ty, r) (ty', r').
Proof.
  unfold key_eqb; cbn. rewrite (Nat.eqb_sym i id), (Nat.eqb_sym ty' ty), (N.eqb_sym r' r).
  now rewrite andb_assoc.
Qed.
Lemma find_none_ge b id : ids_ok b -> b_next b <= id -> ep_find id b = None.
Proof.
  intros [_ HL] H. destruct (ep_find id b) as [e|] eqn:E; [|reflexivity].
  apply ep_find_Some in E as (Hin & Hid & _). rewrite Forall_forall in HL. apply HL in Hin. lia.
Qed.
Lemma senders_exec b o b' x id ty r : ids_ok b -> exec b o = Ret (b', x) ->
  senders_at b' id ty r = hist_step id ty r (senders_at b id ty r) o.
Proof.
  intros OK H. unfold senders_at. destruct (op_id o) as [i|] eqn:Eo.
  - destruct (ep_find_method o i b b' x OK Eo H) as (e & e' & Hf & Hef & _ & _ & Hfind).
    rewrite Hfind. destruct (Nat.eqb_spec id i) as [->|Hne].
    + rewrite Hf. destruct o; cbn [op_id] in Eo; try discriminate Eo; injection Eo as ->;
        cbn [ep_effect] in Hef; cbn [hist_step];
        rewrite ?op_id_match, ?Nat.eqb_refl; cbn [andb].
      * injection Hef as <- _. unfold subscribe. cbn [e_subs]. rewrite sub_find_set.
        destruct (key_eqb_spec (ty, r) (ty0, receiver)) as [E|E]; [|reflexivity].
        rewrite <- E. destruct (sub_find (ty, r) (e_subs e)); reflexivity.
      * unfold unsubscribe in Hef. destruct (sub_find (ty0, receiver) (e_subs e)) eqn:Es; injection Hef as <- _.
        -- cbn [e_subs]. rewrite sub_find_erase. now destruct (key_eqb (ty, r) (ty0, receiver)).
        -- destruct (key_eqb_spec (ty, r) (ty0, receiver)) as [E|E]; [|reflexivity].
           now rewrite E, Es.
      * destruct (remove_receiver _ e) as [a| |] eqn:E; cbn in Hef; try discriminate.
        apply remove_receiver_Ret in E; subst a. injection Hef as <- _. reflexivity.
      * unfold add_sender in Hef. destruct (sub_find (ty0, receiver) (e_subs e)) eqn:Es; cbn in Hef; [|discriminate].
        injection Hef as <- _. cbn [e_subs]. rewrite sub_find_set.
        destruct (key_eqb_spec (ty, r) (ty0, receiver)) as [E|E]; [|reflexivity].
        now rewrite E, Es.
      * unfold remove_sender in Hef. destruct (sub_find (ty0, receiver) (e_subs e)) eqn:Es; cbn in Hef; [|discriminate].
        injection Hef as <- _. cbn [e_subs]. rewrite sub_find_set.
        destruct (key_eqb_spec (ty, r) (ty0, receiver)) as [E|E]; [|reflexivity].
        now rewrite E, Es.
      * injection Hef as <- _. reflexivity.
      * unfold receive_message in Hef. destruct (pop_back _) as [[? m]|]; injection Hef as <- _; [|reflexivity].
        cbn [e_subs]. erewrite map_ext by (intros; apply deliver_to_many).
        rewrite sub_find_map_deliver. now destruct (sub_find _ _).
      * rewrite receive_all_eq in Hef. injection Hef as <- _. cbn [e_subs with_recv_subs].
        rewrite sub_find_map_deliver. now destruct (sub_find _ _).
      * unfold unload_messages in Hef. destruct (sub_find (ty0, receiver) (e_subs e)) eqn:Es;
          injection Hef as <- _; [|reflexivity].
        cbn [e_subs]. rewrite sub_find_set.
        destruct (key_eqb_spec (ty, r) (ty0, receiver)) as [E|E]; [|reflexivity].
        now rewrite E, Es.
    + destruct o; cbn [op_id] in Eo; try discriminate Eo; injection Eo as ->; cbn [hist_step];
        rewrite ?op_id_match; destruct (Nat.eqb_spec id i); try congruence; reflexivity.
  - destruct o; try discriminate Eo; cbn [exec hist_step] in H |- *.
    + injection H as <- _. rewrite ep_find_create by assumption.
      destruct (Nat.eqb_spec id (b_next b)) as [->|]; [|reflexivity].
      rewrite find_none_ge by (auto; lia). reflexivity.
    + destruct (ep_find id0 b); [|discriminate]. injection H as <- _.
      rewrite ep_find_destroy, (Nat.eqb_sym id0 id). now destruct (Nat.eqb id id0).
    + destruct (bus_step b) as [b1 n] eqn:Es. injection H as <- _.
      rewrite (ep_find_step id b b1 n Es). destruct (pop_back _) as [[? m]|]; [|reflexivity].
      destruct (ep_find id b) as [e|]; [|reflexivity]. cbn.
      unfold offer. now destruct (e_alive e && _).
    + destruct (route_messages b) as [b1 n] eqn:Es. injection H as <- _.
      rewrite (ep_find_route id b b1 n Es). now destruct (ep_find id b).
Qed.

Lemma run_snoc : forall ops b o b' tr,
  run b (ops ++ [o]) = Ret (b', tr) ->
  exists b1 tr1 x, run b ops = Ret (b1, tr1) /\ exec b1 o = Ret (b', x) /\ tr = tr1 ++ [(o, x)].
Proof.
  induction ops as [|o1 ops IH]; cbn [run app]; intros b o b' tr H.
  - destruct (exec b o) as [[b1 x]| |] eqn:E; cbn in H; try discriminate.
    injection H as <- <-. exists b, [], x. auto.
  - destruct (exec b o1) as [[b1 x1]| |] eqn:E; cbn in H; try discriminate.
    destruct (run b1 (ops ++ [o])) as [[b2 tr2]| |] eqn:E2; cbn in H; try discriminate.
    injection H as <- <-.
    apply IH in E2 as (b3 & tr3 & x & Hr & He & ->).
    exists b3, ((o1, x1) :: tr3), x. cbn. rewrite Hr. auto.
Qed.
Lemma run_inv_gen (P : bus -> Prop) (Q : op -> Prop) :
  (forall b o b' x, Q o -> P b -> exec b o = Ret (b', x) -> P b') ->
  forall ops b b' tr, Forall Q ops -> P b -> run b ops = Ret (b', tr) -> P b'.
Proof.
  intros Hstep ops. induction ops as [|o ops IH]; cbn; intros b b' tr HQ HP H.
  - now injection H as <- _.
  - inversion HQ; subst. destruct (exec b o) as [[b1 x]| |] eqn:E; cbn in H; try discriminate.
    destruct (run b1 ops) as [[b2 tr2]| |] eqn:E2; cbn in H; try discriminate.
    injection H as <- _. eapply IH; [eassumption| |exact E2]. eapply Hstep; eauto.
Qed.
Lemma Forall_true {A} (l : list A) : Forall (fun _ => True) l.
Proof. induction l; constructor; auto. Qed.
Lemma run_ids ops b' tr : run bus_init ops = Ret (b', tr) -> ids_ok b'.
Proof.
  intros H. refine (run_inv_gen ids_ok (fun _ => True) _ ops bus_init b' tr (Forall_true _) ids_ok_init H).
  intros; eapply ids_ok_exec; eauto.
Qed.

Lemma senders_run : forall ops b tr id ty r,
  run bus_init ops = Ret (b, tr) -> senders_at b id ty r = hist_senders ops id ty r.
Proof.
  induction ops as [|o ops IH] using rev_ind; intros b tr id ty r H.
  - cbn in H. injection H as <- _. reflexivity.
  - apply run_snoc in H as (b1 & tr1 & x & Hr & He & _).
    unfold hist_senders. rewrite fold_left_app. cbn [fold_left].
    rewrite <- (IH b1 tr1 id ty r Hr : _ = fold_left _ ops None).
    eapply senders_exec; eauto. eapply run_ids; eauto.
Qed.

(** ** the sender filter covers the subscriptions *)
Definition covered (e : endpoint) : Prop :=
  forall k s, sub_find k (e_subs e) = Some s -> incl (s_senders s) (e_filter e).
Definition all_covered (b : bus) : Prop := forall id e, ep_find id b = Some e -> covered e.

Lemma covered_effect o e e' x :
  is_add_sender o = false -> covered e -> ep_effect o e = Ret (e', x) -> covered e'.
Proof.
  intros Ha Hc H. unfold covered in *. destruct o; cbn [ep_effect] in H; try discriminate.
  - injection H as <- _. unfold subscribe; cbn [e_subs e_filter]. intros k s. rewrite sub_find_set.
    destruct (key_eqb_spec k (ty, receiver)) as [->|].
    + destruct (sub_find (ty, receiver) (e_subs e)) as [s0|] eqn:Es; intros [= <-]; cbn.
      * apply Hc in Es. intros u Hu. apply in_app_iff in Hu as [Hu|Hu]; apply in_app_iff; auto.
      * intros u Hu. apply in_app_iff; auto.
    + intros Hs. apply Hc in Hs. intros u Hu. apply in_app_iff; auto.
  - unfold unsubscribe in H. destruct (sub_find _ (e_subs e)); injection H as <- _; [|exact Hc].
    cbn. intros k s0. rewrite sub_find_erase. destruct (key_eqb k _); [discriminate|apply Hc].
  - destruct (remove_receiver _ e) as [a| |] eqn:E; cbn in H; try discriminate.
    apply remove_receiver_Ret in E; subst a. now injection H as <- _.
  - unfold remove_sender in H. destruct (sub_find _ (e_subs e)) as [s0|] eqn:Es; cbn in H; [|discriminate].
    injection H as <- _. cbn. intros k s. rewrite sub_find_set.
    destruct (key_eqb_spec k (ty, receiver)) as [->|]; [|apply Hc].
    intros [= <-]; cbn. intros v Hv. apply filter_In in Hv as [Hv _]. eapply Hc; eauto.
  - injection H as <- _. exact Hc.
  - unfold receive_message in H. destruct (pop_back _) as [[? m]|]; injection H as <- _; [|exact Hc].
    cbn [e_subs e_filter]. intros k s. erewrite map_ext by (intros; apply deliver_to_many).
    rewrite sub_find_map_deliver. destruct (sub_find k (e_subs e)) eqn:Es; intros [= <-].
    cbn. eapply Hc; eauto.
  - rewrite receive_all_eq in H. injection H as <- _. cbn [e_subs e_filter with_recv_subs].
    intros k s. rewrite sub_find_map_deliver. destruct (sub_find k (e_subs e)) eqn:Es; intros [= <-].
    cbn. eapply Hc; eauto.
  - unfold unload_messages in H. destruct (sub_find _ (e_subs e)) as [s0|] eqn:Es; injection H as <- _; [|exact Hc].
    cbn. intros k s. rewrite sub_find_set. destruct (key_eqb_spec k (ty, receiver)) as [->|]; [|apply Hc].
    intros [= <-]. cbn. eapply Hc; eauto.
Qed.
Lemma covered_exec b o b' x :
  is_add_sender o = false -> ids_ok b -> all_covered b -> exec b o = Ret (b', x) -> all_covered b'.
Proof.
  intros Ha OK Hc H. destruct (op_id o) as [i|] eqn:Eo.
  - destruct (ep_find_method o i b b' x OK Eo H) as (e & e' & Hf & Hef & _ & _ & Hfind).
    intros id y. rewrite Hfind. destruct (Nat.eqb id i); [|apply Hc].
    intros [= <-]. eapply covered_effect; eauto.
  - destruct o; try discriminate Eo; cbn [exec] in H; intros id' y.
    + injection H as <- _. rewrite ep_find_create by assumption.
      destruct (Nat.eqb id' (b_next b)); [|apply Hc]. intros [= <-]. intros k s. discriminate.
    + destruct (ep_find id b); [|discriminate]. injection H as <- _.
      rewrite ep_find_destroy. destruct (Nat.eqb id' id); [discriminate|apply Hc].
    + destruct (bus_step b) as [b1 n] eqn:Es. injection H as <- _.
      rewrite (ep_find_step id' b b1 n Es). destruct (pop_back _) as [[? m]|]; [|apply Hc].
      destruct (ep_find id' b) as [e|] eqn:Ef; [|discriminate]. cbn. intros [= <-].
      apply Hc in Ef. unfold offer. destruct (e_alive e && _); exact Ef.
    + destruct (route_messages b) as [b1 n] eqn:Es. injection H as <- _.
      rewrite (ep_find_route id' b b1 n Es). destruct (ep_find id' b) as [e|] eqn:Ef; [|discriminate].
      cbn. intros [= <-]. apply Hc in Ef. exact Ef.
Qed.
Lemma no_add_Forall ops : no_add_sender ops -> Forall (fun o => is_add_sender o = false) ops.
Proof.
  unfold no_add_sender. induction ops as [|o ops IH]; cbn; intros H; constructor.
  - now apply orb_false_iff in H.
  - apply IH. now apply orb_false_iff in H.
Qed.
Lemma covered_run ops b tr :
  no_add_sender ops -> run bus_init ops = Ret (b, tr) -> all_covered b.
Proof.
  intros Hn H.
  assert (HP : ids_ok b /\ all_covered b); [|apply HP].
  refine (run_inv_gen (fun b => ids_ok b /\ all_covered b) (fun o => is_add_sender o = false) _
            ops bus_init b tr (no_add_Forall ops Hn) _ H).
  - intros b0 o b1 x Ho [OK Hc] He. split; [eapply ids_ok_exec; eauto|eapply covered_exec; eauto].
  - split; [apply ids_ok_init|]. intros id e. discriminate.
Qed.

(** ** one routing round followed by receive_all *)
Lemma filter_wanted_filter ty ss fl ms : incl ss fl ->
  filter (wanted ty ss) (filter (fun m => mem (msg_sender m) fl) ms) = filter (wanted ty ss) ms.
Proof.
  intros Hi. induction ms as [|m ms IH]; cbn; [reflexivity|].
  destruct (mem (msg_sender m) fl) eqn:Em; cbn; rewrite IH; [reflexivity|].
  destruct (wanted ty ss m) eqn:Ew; [|reflexivity].
  unfold wanted in Ew. apply andb_true_iff in Ew as [_ Ew].
  apply mem_In in Ew. apply Hi in Ew. apply mem_In in Ew. congruence.
Qed.
Lemma filter_rev {A} (p : A -> bool) l : filter p (rev l) = rev (filter p l).
Proof.
  induction l as [|x l IH]; cbn; [reflexivity|].
  rewrite filter_app, IH. cbn. destruct (p x); cbn; [reflexivity|now rewrite app_nil_r].
Qed.

Lemma route_receive b id e : ids_ok b -> ep_find id b = Some e -> covered e ->
  exists b1 b2 e2,
    exec b ORoute = Ret (b1, OutCount (length (pending b))) /\
    exec b1 (OReceiveAll id) =
      Ret (b2, OutCount (length (e_recv e) +
                         length (filter (fun m => mem (msg_sender m) (e_filter e)) (pending b)))) /\
    ep_find id b2 = Some e2 /\ e_recv e2 = [] /\ e_send e2 = [] /\ b_route b2 = [] /\
    forall ty r,
      sub_find (ty, r) (e_subs e2) =
      match sub_find (ty, r) (e_subs e) with
      | None => None
      | Some s => Some (mkSub (s_senders s)
                   (s_msgs s ++ filter (wanted ty (s_senders s)) (pending b)
                             ++ filter (wanted ty (s_senders s)) (rev (e_recv e))))
      end.
Proof.
  intros OK Hf Hc.
  destruct (route_messages b) as [b1 n] eqn:Er.
  assert (En : n = length (pending b)) by (rewrite route_eq in Er; congruence).
  assert (H1 : exec b ORoute = Ret (b1, OutCount n)) by (cbn [exec]; now rewrite Er).
  pose proof (ids_ok_exec b ORoute b1 _ OK H1) as OK1.
  pose proof (ep_find_route id b b1 n Er) as Hf1. rewrite Hf in Hf1. cbn [option_map] in Hf1.
  pose proof (ep_find_Some id b e Hf) as (_ & Hid & Hal).
  set (e1 := offered (rev (pending b)) (clear_send e)) in *.
  destruct (receive_all e1) as [e2 n2] eqn:E2.
  assert (H2 : exec b1 (OReceiveAll id) = Ret (ep_put e2 b1, OutCount n2)).
  { cbn [exec]. unfold on_ep. rewrite Hf1. rewrite E2. reflexivity. }
  destruct (ep_find_method (OReceiveAll id) id b1 _ _ OK1 eq_refl H2) as (e1' & e2' & Hf1' & Hef & Hid2 & _ & Hfind).
  rewrite Hf1 in Hf1'. injection Hf1' as <-. cbn [ep_effect] in Hef. rewrite E2 in Hef.
  injection Hef as <-.
  exists b1, (ep_put e2 b1), e2. rewrite H1, H2, En.
  rewrite receive_all_eq in E2. injection E2 as <- <-.
  specialize (Hfind id). rewrite Nat.eqb_refl in Hfind.
  assert (Hrecv : e_recv e1 = e_recv e ++ filter (fun m => mem (msg_sender m) (e_filter e)) (rev (pending b)))
    by reflexivity.
  assert (Hlen : length (e_recv e1) = length (e_recv e) +
            length (filter (fun m => mem (msg_sender m) (e_filter e)) (pending b)))
    by (rewrite Hrecv, app_length, filter_rev, rev_length; reflexivity).
  rewrite <- Hlen.
  repeat split; auto.
  - cbn. rewrite route_eq in Er. injection Er as <- _. reflexivity.
  - intros ty r. cbn [e_subs with_recv_subs]. rewrite sub_find_map_deliver.
    change (e_subs e1) with (e_subs e).
    destruct (sub_find (ty, r) (e_subs e)) as [s|] eqn:Es; [|reflexivity].
    cbn [fst]. do 2 f_equal. rewrite rev_app_distr, filter_app, <- !filter_rev, rev_involutive.
    rewrite filter_wanted_filter by (eapply Hc; eauto). reflexivity.
Qed.
