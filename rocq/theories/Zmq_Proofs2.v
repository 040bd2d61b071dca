From Verif Require Import Base ListLemmas Messaging_Model Messaging_Spec Messaging_Proofs Zmq_Model Zmq_Spec Zmq_Proofs.

Section Round.
Variable c : zcfg.
Hypothesis sizes : forall m, 5 < packed_size c m.

(** The inbox of an endpoint after the messages [l] were published. *)
Fixpoint filled (alive : bool) (l q : list message) : list message :=
  match l with
  | [] => q
  | m :: l => filled alive l (if alive && negb (Nat.leb (in_limit c) (length q)) then q ++ [m] else q)
  end.
Lemma filled_all alive l q : alive = true -> length q + length l <= in_limit c -> filled alive l q = q ++ l.
Proof.
  intros ->. revert q. induction l as [|m l IH]; intros q L; cbn [filled length andb] in *; [now rewrite app_nil_r|].
  destruct (Nat.leb_spec (in_limit c) (length q)); cbn [negb]; [lia|]. rewrite IH by (rewrite app_length; cbn; lia). now rewrite <- app_assoc.
Qed.
Definition after_round (l : list message) (e e' : zep) : Prop :=
  z_alive e' = z_alive e /\ z_out e' = [] /\ z_subs e' = z_subs e /\ z_in e' = filled (z_alive e) l (z_in e).
Definition to_come (b : zbus) (l : list message) : Prop :=
  match z_half b with
  | None => interleaving (waiting_out b) l
  | Some (_, m) => exists r, l = m :: r /\ interleaving (waiting_out b) r
  end.
Definition half_n (b : zbus) : nat := match z_half b with None => 0 | Some _ => 1 end.
Definition pending_n (b : zbus) : nat := length (concat (waiting_out b)).

Lemma concat_split {A} (l1 : list (list A)) x l l2 : length (concat (l1 ++ (x :: l) :: l2)) = S (length (concat (l1 ++ l :: l2))).
Proof. rewrite !concat_app, !app_length. cbn [concat]. rewrite !app_length. cbn [length]. lia. Qed.
Lemma identity_split i e m rest eps : nth_error eps i = Some e -> z_out e = m :: rest ->
  exists l1 l2, eps = l1 ++ e :: l2 /\ length l1 = i /\
    map z_out eps = map z_out l1 ++ (m :: rest) :: map z_out l2 /\
    upd i (fun e => mkZ (z_alive e) rest (z_in e) (z_subs e)) eps = l1 ++ mkZ (z_alive e) rest (z_in e) (z_subs e) :: l2 /\
    map z_out (upd i (fun e => mkZ (z_alive e) rest (z_in e) (z_subs e)) eps) = map z_out l1 ++ rest :: map z_out l2.
Proof.
  intros E O. apply nth_error_split in E as (l1 & l2 & -> & <-). exists l1, l2. split; [reflexivity|]. split; [reflexivity|].
  rewrite upd_split, !map_app. cbn [map z_out]. rewrite O. auto.
Qed.
Lemma interleaving_length {A} (ls : list (list A)) l : interleaving ls l -> length l = length (concat ls).
Proof.
  intros H. induction H as [ls F|l1 x l l2 r H IH].
  - induction F as [|y ls -> F IH]; [reflexivity|exact IH].
  - rewrite concat_split, <- IH. reflexivity.
Qed.
Lemma idle_interleaving b : Forall (fun e => z_out e = []) (z_eps b) -> interleaving (waiting_out b) [].
Proof. intros F. apply il_nil. apply Forall_map. exact F. Qed.

Lemma route_ok b tr n b' : zroute c b tr n b' ->
  z_half b' = None /\ n = 2 * pending_n b + half_n b /\ to_come b (published tr) /\ Forall2 (after_round (published tr)) (z_eps b) (z_eps b').
Proof.
  intros H. induction H as [b a b' S R|b a b' tr n k b'' S R H (I1 & I2 & I3 & I4)].
  - destruct S as [b1|b1 i e E A|b1 i e ty r ss E A|b1 i e m E A L|b1 i e m rest Hh E O|b1 i m Hh N|b1 i m Hh N|b1 Hh F|b1 i e m rest E A O|b1 i e E A O|b1 i e ty r s E A F|b1 i e ty r E A F]; cbn [step_result] in R; try discriminate.
    + specialize (sizes m). destruct (Nat.eqb_spec (packed_size c m) 0); [lia|discriminate].
    + split; [exact Hh|]. unfold half_n, to_come. rewrite Hh. pose proof (idle_interleaving b1 F) as Il. split.
      * unfold pending_n. rewrite <- (interleaving_length _ _ Il). reflexivity.
      * split; [exact Il|]. change (published [ZIdle]) with (@nil message). clear - F. induction F as [|e l He F IH]; [constructor|]. constructor; [|exact IH]. repeat split. exact He.
  - destruct S as [b1|b1 i e E A|b1 i e ty r ss E A|b1 i e m E A L|b1 i e m rest Hh E O|b1 i m Hh N|b1 i m Hh N|b1 Hh F|b1 i e m rest E A O|b1 i e E A O|b1 i e ty r s E A F|b1 i e ty r E A F]; cbn [step_result] in R; try discriminate.
    + injection R as <-. destruct (identity_split i e m rest (z_eps b1) E O) as (l1 & l2 & Es & L & W & U & W').
      change (published (ZIdentity i :: tr)) with (published tr). cbn [z_half z_eps] in *. split; [exact I1|]. split; [|split].
      * subst n. unfold pending_n, half_n, waiting_out. cbn [z_eps z_half]. rewrite Hh, W, W', concat_split. lia.
      * unfold to_come in *. rewrite Hh. cbn [z_half] in I3. destruct I3 as (r & -> & I3). unfold waiting_out in *. cbn [z_eps] in I3. rewrite W. rewrite W' in I3. now constructor.
      * rewrite U in I4. rewrite Es. apply Forall2_app_inv_l in I4 as (k1 & k2 & F1 & F2 & ->). inversion F2 as [|? e' ? k3 A1 A2]; subst. apply Forall2_app; [exact F1|]. constructor; [exact A1|exact A2].
    + destruct (Nat.eqb_spec (packed_size c m) 0); [discriminate|]. injection R as <-. cbn [z_half z_eps] in *. split; [exact I1|].
      change (published (ZPublish i m (z_lost c 0 (z_eps b1)) :: tr)) with (m :: published tr).
      assert (W : waiting_out (mkZb (map (z_offer c m) (z_eps b1)) None) = waiting_out b1).
      { unfold waiting_out. cbn [z_eps]. rewrite map_map. apply map_ext. intros e. unfold z_offer. now destruct (z_alive e && negb (z_full c e)). }
      split; [|split].
      * subst n. unfold pending_n, half_n. cbn [z_half]. rewrite W, Hh. lia.
      * unfold to_come in *. rewrite Hh. cbn [z_half] in I3. rewrite W in I3. eauto.
      * clear - I4. revert I4. generalize (z_eps b''). induction (z_eps b1) as [|e l IH]; intros k F; inversion F as [|? e' ? k' A1 A2]; subst; [constructor|]. constructor; [|exact (IH k' A2)].
        destruct A1 as (B1 & B2 & B3 & B4). unfold after_round. cbn [filled]. unfold z_offer, z_full in B1, B3, B4. destruct (z_alive e) eqn:Al; cbn [andb] in *.
        -- destruct (Nat.leb (in_limit c) (length (z_in e))); cbn [negb z_alive z_subs z_in] in *; rewrite ?Al in *; auto.
        -- rewrite ?Al in *; auto.
    + specialize (sizes m). lia.
Qed.
(** A routing round always comes to an end, whatever the ROUTER picks. *)
Lemma route_ends : forall n b, 2 * pending_n b + half_n b <= n -> exists tr k b', zroute c b tr k b'.
Proof.
  induction n as [|n IH]; intros b L.
  - assert (P : pending_n b = 0 /\ half_n b = 0) by lia. destruct P as [P Hh].
    exists [ZIdle], 0, b. apply zr_stop; [|reflexivity]. constructor; [unfold half_n in Hh; destruct (z_half b); [discriminate|reflexivity]|].
    unfold pending_n, waiting_out in P. apply length_zero_iff_nil in P. clear - P. induction (z_eps b) as [|e l IH]; [constructor|]. cbn [map concat] in P. apply app_eq_nil in P as [P1 P2]. constructor; auto.
  - destruct (z_half b) as [[i m]|] eqn:Hh.
    + assert (W : waiting_out (mkZb (map (z_offer c m) (z_eps b)) None) = waiting_out b).
      { unfold waiting_out. cbn [z_eps]. rewrite map_map. apply map_ext. intros e. unfold z_offer. now destruct (z_alive e && negb (z_full c e)). }
      destruct (IH (mkZb (map (z_offer c m) (z_eps b)) None)) as (tr & k & b' & R).
      { unfold pending_n, half_n in *. rewrite Hh in L. cbn [z_half]. rewrite W. lia. }
      pose proof (sizes m). exists (ZPublish i m (z_lost c 0 (z_eps b)) :: tr), (1 + k), b'.
      eapply zr_more; [apply zs_publish; [exact Hh|lia]| |exact R]. cbn [step_result]. destruct (Nat.eqb_spec (packed_size c m) 0); [lia|reflexivity].
    + assert (D : Forall (fun e => z_out e = []) (z_eps b) \/ exists i e m rest, nth_error (z_eps b) i = Some e /\ z_out e = m :: rest).
      { clear. induction (z_eps b) as [|e l [IH|(i & e' & m & rest & E & O)]]; [left; constructor| |].
        - destruct (z_out e) as [|m rest] eqn:O; [left; now constructor|right; now exists 0, e, m, rest].
        - right. now exists (S i), e', m, rest. }
      destruct D as [F|(i & e & m & rest & E & O)].
      * exists [ZIdle], 0, b. apply zr_stop; [|reflexivity]. now constructor.
      * destruct (identity_split i e m rest (z_eps b) E O) as (l1 & l2 & Es & Ln & W & U & W').
        destruct (IH (mkZb (upd i (fun e => mkZ (z_alive e) rest (z_in e) (z_subs e)) (z_eps b)) (Some (i, m)))) as (tr & k & b' & R).
        { unfold pending_n, half_n, waiting_out in *. rewrite Hh in L. cbn [z_half z_eps]. rewrite W in L. rewrite W', concat_split in *. lia. }
        exists (ZIdentity i :: tr), (1 + k), b'. eapply zr_more; [eapply zs_identity; eassumption|reflexivity|exact R].
Qed.
End Round.

(** ** receive_all_messages *)
Lemma receive_all_ok c i : forall q b e, nth_error (z_eps b) i = Some e -> z_alive e = true -> z_in e = q ->
  exists b', zreceive_all c i b (length q) b'.
Proof.
  induction q as [|m q IH]; intros b e E A Q.
  - exists b. apply za_stop. now apply (zs_nothing c b i e).
  - assert (S : zstep c (ZReceive i m) b (mkZb (upd i (fun e => mkZ (z_alive e) (z_out e) q (map (deliver_to m) (z_subs e))) (z_eps b)) (z_half b))) by (eapply zs_receive; eauto).
    destruct (IH (mkZb (upd i (fun e => mkZ (z_alive e) (z_out e) q (map (deliver_to m) (z_subs e))) (z_eps b)) (z_half b)) (mkZ (z_alive e) (z_out e) q (map (deliver_to m) (z_subs e)))) as [b' R]; [|exact A|reflexivity|].
    2:{ exists b'. eapply za_more; [exact S|exact R]. }
    cbn [z_eps]. rewrite nth_upd, Nat.eqb_refl, E. reflexivity.
Qed.
Lemma receive_all_subs c i b n b' : zreceive_all c i b n b' -> forall e, nth_error (z_eps b) i = Some e ->
  n = length (z_in e) /\ exists e', nth_error (z_eps b') i = Some e' /\ z_in e' = [] /\ z_out e' = z_out e /\ z_subs e' = map (deliver_many (z_in e)) (z_subs e).
Proof.
  intros H. induction H as [b b' S|b m b' n b'' S H IH]; intros e E.
  - inversion S as [| | | | | | | | |b1 i1 e1 E1 A1 Q1| |]; subst. assert (e1 = e) as -> by congruence. rewrite Q1. split; [reflexivity|]. exists e. repeat split; auto.
    rewrite <- (map_id (z_subs e)) at 1. apply map_ext. intros [k [ss ms]]. unfold deliver_many. cbn. now rewrite app_nil_r.
  - inversion S as [| | | | | | | |b1 i1 e1 m1 rest E1 A1 Q1| | |]; subst. assert (e1 = e) as -> by congruence.
    cbn [z_eps] in IH. destruct (IH (mkZ (z_alive e) (z_out e) rest (map (deliver_to m) (z_subs e)))) as (-> & e' & E2 & I2 & O2 & S2); [rewrite nth_upd, Nat.eqb_refl, E; reflexivity|].
    cbn [z_in z_out z_subs] in *. rewrite Q1. split; [reflexivity|]. exists e'. repeat split; auto. rewrite S2, map_map. apply map_ext. intros p.
    now rewrite deliver_to_many, deliver_many_app.
Qed.
