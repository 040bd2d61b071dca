From Verif Require Import Base ListLemmas Messaging_Model Messaging_Spec Zmq_Model Zmq_Spec.

Lemma nth_upd {A} i f (l : list A) j : nth_error (upd i f l) j = if Nat.eqb j i then option_map f (nth_error l j) else nth_error l j.
Proof.
  revert i j. induction l as [|x l IH]; intros [|i] [|j]; cbn [upd nth_error option_map Nat.eqb]; try reflexivity; [now destruct (Nat.eqb j i)|apply IH].
Qed.
Lemma length_upd {A} i f (l : list A) : length (upd i f l) = length l.
Proof. revert i. induction l as [|x l IH]; intros [|i]; cbn; auto. Qed.
Lemma upd_split {A} (l1 : list A) x l2 f : upd (length l1) f (l1 ++ x :: l2) = l1 ++ f x :: l2.
Proof. induction l1 as [|y l1 IH]; cbn; [reflexivity|now rewrite IH]. Qed.
Lemma z_lost_in c i k eps : In i (z_lost c k eps) <-> exists e, nth_error eps (i - k) = Some e /\ z_full c e = true /\ k <= i.
Proof.
  revert k. induction eps as [|e eps IH]; intros k; cbn [z_lost].
  - split; [intros []|]. intros (e & E & _). destruct (i - k); discriminate.
  - assert (R : (exists e0, nth_error (e :: eps) (i - k) = Some e0 /\ z_full c e0 = true /\ k <= i) <->
        ((i = k /\ z_full c e = true) \/ exists e0, nth_error eps (i - S k) = Some e0 /\ z_full c e0 = true /\ S k <= i)).
    { split.
      - intros (e0 & E & F & L). destruct (Nat.eq_dec i k) as [->|N]; [rewrite Nat.sub_diag in E; cbn in E; left; split; congruence|].
        right. exists e0. replace (i - k) with (S (i - S k)) in E by lia. cbn in E. repeat split; auto. lia.
      - intros [[-> F]|(e0 & E & F & L)]; [exists e; rewrite Nat.sub_diag; auto|]. exists e0. replace (i - k) with (S (i - S k)) by lia. repeat split; auto. lia. }
    rewrite R. destruct (z_full c e) eqn:F; cbn [In]; rewrite IH; [|intuition discriminate]. intuition.
Qed.
Lemma since_snoc i tr a : (In (ZCreate i) tr -> since i (tr ++ [a]) = since i tr ++ [a]) /\
  (~ In (ZCreate i) tr -> since i (tr ++ [a]) = []).
Proof.
  induction tr as [|x tr [IH1 IH2]].
  - split; [intros []|]. intros _. cbn [app since]. destruct a as [j| | | | | | | | | |]; try reflexivity. now destruct (Nat.eqb j i).
  - assert (D : (exists j, x = ZCreate j /\ j = i) \/ (since i (x :: tr) = since i tr /\ since i ((x :: tr) ++ [a]) = since i (tr ++ [a]) /\ x <> ZCreate i)).
    { cbn [app since]. destruct x as [j| | | | | | | | | |]; try (right; repeat split; discriminate).
      destruct (Nat.eqb_spec j i) as [->|N]; [left; eauto|right]. repeat split. congruence. }
    destruct D as [(j & -> & ->)|(D1 & D2 & D3)].
    + cbn [app since]. rewrite Nat.eqb_refl. split; [reflexivity|]. intros H. elim H. now left.
    + rewrite D1, D2. split; [intros [E|H]; [congruence|auto]|]. intros H. apply IH2. intros K. apply H. now right.
Qed.
Lemma published_app a b : published (a ++ b) = published a ++ published b. Proof. apply flat_map_app. Qed.

(** ** The order of one sender *)
Lemma sent_eq c tr b : zexecution c zinit tr b -> forall i,
  sent_by i tr = routed_from i tr ++ (match z_half b with Some (j, m) => if Nat.eqb j i then [m] else [] | None => [] end) ++
                 (match nth_error (z_eps b) i with Some e => z_out e | None => [] end).
Proof.
  intros H i. remember zinit as b0 eqn:E0. induction H as [b|b tr b' a b'' H IH S].
  - subst. cbn. now destruct i.
  - specialize (IH E0). unfold sent_by, routed_from in *. rewrite !flat_map_app, IH. cbn [flat_map]. rewrite ?app_nil_r.
    destruct S as [b1|b1 j e E A|b1 j e ty r ss E A|b1 j e m E A L|b1 j e m rest Hh E O|b1 j m Hh N|b1 j m Hh N|b1 Hh F|b1 j e m rest E A O|b1 j e E A O|b1 j e ty r s E A F|b1 j e ty r E A F];
    cbn [z_eps z_half]; rewrite ?app_nil_r; try reflexivity.
    + f_equal. f_equal. destruct (Nat.lt_trichotomy i (length (z_eps b1))) as [L|[->|L]].
      * now rewrite nth_error_app1.
      * rewrite nth_error_app2, Nat.sub_diag by lia. rewrite (proj2 (nth_error_None _ _)) by lia. reflexivity.
      * rewrite nth_error_app2 by lia. rewrite (proj2 (nth_error_None _ _)) by lia. replace (i - length (z_eps b1)) with (S (i - length (z_eps b1) - 1)) by lia. cbn. now destruct (_ - 1).
    + f_equal. f_equal. rewrite nth_upd. destruct (Nat.eqb_spec i j) as [->|Ne]; [rewrite E; reflexivity|reflexivity].
    + f_equal. f_equal. rewrite nth_upd. destruct (Nat.eqb_spec i j) as [->|Ne]; [rewrite E; reflexivity|reflexivity].
    + rewrite nth_upd, (Nat.eqb_sym j i). destruct (Nat.eqb_spec i j) as [->|Ne]; [rewrite E; cbn [option_map z_out]; now rewrite <- !app_assoc|now rewrite app_nil_r].
    + rewrite Hh, nth_upd, (Nat.eqb_sym j i). destruct (Nat.eqb_spec i j) as [->|Ne]; [rewrite E; cbn [option_map z_out]; rewrite O; now rewrite app_nil_l|now rewrite app_nil_l].
    + rewrite Hh, nth_error_map. rewrite <- app_assoc. f_equal. rewrite app_nil_l. f_equal. destruct (nth_error (z_eps b1) i) as [e|]; [|reflexivity]. cbn [option_map].
      unfold z_offer. now destruct (z_alive e && negb (z_full c e)).
    + rewrite Hh. now rewrite <- app_assoc.
    + f_equal. f_equal. rewrite nth_upd. destruct (Nat.eqb_spec i j) as [->|Ne]; [rewrite E; reflexivity|reflexivity].
    + f_equal. f_equal. rewrite nth_upd. destruct (Nat.eqb_spec i j) as [->|Ne]; [rewrite E; reflexivity|reflexivity].
Qed.

(** ** What an endpoint receives *)
Lemma subsequence_app {A} (a b l : list A) : subsequence a b -> subsequence a (b ++ l).
Proof. intros H. induction H; cbn; constructor; auto. Qed.
Lemma subsequence_snoc {A} (a b : list A) x : subsequence a b -> subsequence (a ++ [x]) (b ++ [x]).
Proof.
  intros H. induction H as [l|y l l' H IH|y l l' H IH]; cbn [app].
  - induction l as [|y l IH]; cbn; [repeat constructor|now constructor].
  - now constructor.
  - now constructor.
Qed.
Lemma create_seen c tr b i e : zexecution c zinit tr b -> nth_error (z_eps b) i = Some e -> In (ZCreate i) tr.
Proof.
  intros H. remember zinit as b0 eqn:E0. revert i e. induction H as [b|b tr b' a b'' H IH S]; intros i e E.
  - subst. destruct i; discriminate.
  - specialize (IH E0). assert (D : (exists e', nth_error (z_eps b') i = Some e') \/ a = ZCreate i).
    { destruct S as [b1|b1 j e1 E1 A|b1 j e1 ty r ss E1 A|b1 j e1 m E1 A L|b1 j e1 m rest Hh E1 O|b1 j m Hh N|b1 j m Hh N|b1 Hh F|b1 j e1 m rest E1 A O|b1 j e1 E1 A O|b1 j e1 ty r s E1 A F|b1 j e1 ty r E1 A F]; cbn [z_eps] in E;
      try (left; eauto; fail);
      try (left; rewrite nth_upd in E; destruct (Nat.eqb i j); [destruct (nth_error (z_eps b1) i); [eauto|discriminate]|eauto]; fail).
      - destruct (Nat.lt_ge_cases i (length (z_eps b1))) as [L|L]; [left; rewrite nth_error_app1 in E by lia; eauto|right].
        rewrite nth_error_app2 in E by lia. destruct (i - length (z_eps b1)) as [|k] eqn:D; [f_equal; lia|destruct k; discriminate].
      - left. rewrite nth_error_map in E. destruct (nth_error (z_eps b1) i); [eauto|discriminate]. }
    apply in_or_app. destruct D as [[e' D]| ->]; [left; eauto|right; now left].
Qed.
Lemma create_fresh c tr b i : zexecution c zinit tr b -> nth_error (z_eps b) i = None -> ~ In (ZCreate i) tr.
Proof.
  intros H. remember zinit as b0 eqn:E0. revert i. induction H as [b|b tr b' a b'' H IH S]; intros i E; [intros []|].
  specialize (IH E0). intros K. apply in_app_or in K.
  assert (M : length (z_eps b') <= length (z_eps b'')) by (destruct S; cbn [z_eps]; rewrite ?length_upd, ?map_length, ?app_length; cbn [length]; lia).
  apply nth_error_None in E. destruct K as [K|[->|[]]].
  - apply (IH i); [apply nth_error_None; lia|exact K].
  - inversion S; subst. cbn [z_eps] in E. rewrite app_length in E. cbn [length] in E. lia.
Qed.
(** [d]: nothing was lost, so equality. *)
Lemma got_eq c tr b : zexecution c zinit tr b -> forall i e, nth_error (z_eps b) i = Some e -> z_alive e = true ->
  subsequence (received_by i tr ++ z_in e) (published (since i tr)) /\
  (nothing_lost i tr -> received_by i tr ++ z_in e = published (since i tr)).
Proof.
  intros H. remember zinit as b0 eqn:E0. induction H as [b|b tr b' a b'' H IH S]; intros i e E A.
  - subst. destruct i; discriminate.
  - specialize (IH E0). rewrite E0 in H.
    assert (R : forall i, received_by i (tr ++ [a]) = received_by i tr ++ received_by i [a]) by (intros; apply flat_map_app).
    assert (NL : forall i, nothing_lost i (tr ++ [a]) -> nothing_lost i tr /\ nothing_lost i [a]) by (intros k; apply Forall_app).
    destruct (nth_error (z_eps b') i) as [e0|] eqn:E1.
    2:{ (* created now *)
      assert (a = ZCreate i /\ e = mkZ true [] [] []) as [-> ->].
      { destruct S as [b1|b1 j e1 E2 A1|b1 j e1 ty r ss E2 A1|b1 j e1 m E2 A1 L|b1 j e1 m rest Hh E2 O|b1 j m Hh N|b1 j m Hh N|b1 Hh F|b1 j e1 m rest E2 A1 O|b1 j e1 E2 A1 O|b1 j e1 ty r s E2 A1 F|b1 j e1 ty r E2 A1 F]; cbn [z_eps] in E;
        try congruence; try (rewrite nth_upd in E; destruct (Nat.eqb i j); rewrite E1 in E; discriminate).
        - rewrite nth_error_app2 in E by (apply nth_error_None in E1; lia). apply nth_error_None in E1. destruct (i - length (z_eps b1)) as [|k] eqn:D; [|destruct k; discriminate].
          cbn in E. injection E as <-. split; [f_equal; lia|reflexivity].
        - rewrite nth_error_map, E1 in E. discriminate. }
      pose proof (create_fresh c tr b' i H E1) as F. destruct (since_snoc i tr (ZCreate i)) as [_ X]. rewrite (X F).
      assert (Z : received_by i tr = []).
      { clear - H F E1. remember zinit as b0 eqn:E0. revert F E1. induction H as [b|b tr b' a b'' H IH S]; intros F E1; [reflexivity|].
        assert (F' : ~ In (ZCreate i) tr) by (intros K; apply F; apply in_or_app; now left).
        assert (E' : nth_error (z_eps b') i = None).
        { apply nth_error_None. apply nth_error_None in E1. destruct S; cbn [z_eps] in E1; rewrite ?length_upd, ?map_length, ?app_length in E1; cbn [length] in E1; lia. }
        unfold received_by in *. rewrite flat_map_app, (IH E0 F' E'). cbn [flat_map app]. rewrite app_nil_r. destruct a as [| | | | | | | |j m| |]; try reflexivity.
        destruct (Nat.eqb_spec j i) as [->|]; [|reflexivity]. inversion S; subst. congruence. }
      rewrite R, Z. cbn. split; [constructor|reflexivity]. }
    pose proof (create_seen c tr b' i e0 H E1) as Cr. destruct (since_snoc i tr a) as [X _]. rewrite (X Cr), published_app, R.
    assert (Same : z_alive e0 = true -> z_in e = z_in e0 -> received_by i [a] = [] -> published [a] = [] ->
      subsequence ((received_by i tr ++ received_by i [a]) ++ z_in e) (published (since i tr) ++ published [a]) /\
      (nothing_lost i (tr ++ [a]) -> (received_by i tr ++ received_by i [a]) ++ z_in e = published (since i tr) ++ published [a])).
    { intros A0 Zi Zr Zp. rewrite Zi, Zr, Zp, !app_nil_r. destruct (IH i e0 E1 A0) as [I1 I2]. split; [exact I1|]. intros K. apply I2. now apply NL in K. }
    destruct S as [b1|b1 j e1 E2 A1|b1 j e1 ty r ss E2 A1|b1 j e1 m E2 A1 L|b1 j e1 m rest Hh E2 O|b1 j m Hh N|b1 j m Hh N|b1 Hh F|b1 j e1 m rest E2 A1 O|b1 j e1 E2 A1 O|b1 j e1 ty r s E2 A1 F|b1 j e1 ty r E2 A1 F]; cbn [z_eps] in E;
    try (rewrite nth_upd in E; destruct (Nat.eqb_spec i j) as [->|Ne]; rewrite E1 in E; cbn [option_map] in E; injection E as <-; cbn [z_alive z_in] in * );
    try (apply Same; [assumption|reflexivity|reflexivity|reflexivity]; fail);
    try (rewrite E1 in E; injection E as <-; apply Same; [assumption|reflexivity|reflexivity|reflexivity]; fail).
    + rewrite nth_error_app1 in E by (apply nth_error_Some; congruence). rewrite E1 in E. injection E as <-. apply Same; auto.
    + discriminate.
    + rewrite nth_error_map, E1 in E. cbn [option_map] in E. injection E as <-. 
      assert (A0 : z_alive e0 = true) by (unfold z_offer in A; destruct (z_alive e0 && negb (z_full c e0)); exact A).
      destruct (IH i e0 E1 A0) as [I1 I2]. change (received_by i [ZPublish j m (z_lost c 0 (z_eps b1))]) with (@nil message). rewrite app_nil_r.
      change (published [ZPublish j m (z_lost c 0 (z_eps b1))]) with [m]. unfold z_offer. rewrite A0. cbn [andb].
      destruct (z_full c e0) eqn:Fu; cbn [negb z_in].
      * split; [now apply subsequence_app|]. intros K. apply NL in K as [_ K]. inversion K as [|? ? K1 _]; subst. elim K1.
        apply z_lost_in. exists e0. rewrite Nat.sub_0_r. auto with arith.
      * rewrite app_assoc. split; [now apply subsequence_snoc|]. intros K. apply NL in K as [K _]. now rewrite (I2 K).
    + assert (e1 = e0) as -> by congruence. destruct (IH j e0 E1 A) as [I1 I2]. rewrite O in I1, I2.
      assert (Q : received_by j [ZReceive j m] = [m]) by (cbn; now rewrite Nat.eqb_refl). rewrite Q. change (published [ZReceive j m]) with (@nil message). rewrite app_nil_r, <- app_assoc. cbn [app].
      split; [exact I1|]. intros K. apply I2. now apply NL in K.
    + apply Same; auto. unfold received_by. cbn [flat_map]. destruct (Nat.eqb_spec j i); [congruence|reflexivity].
Qed.
