From Coq Require Import ZifyBool ZifyNat ZifyN.
From Verif Require Import Base ListLemmas Messaging_Model Codec_Model Codec_Spec.
Local Ltac Zify.zify_post_hook ::= Z.div_mod_to_equations.
Local Open Scope N_scope.
Arguments N.of_nat : simpl never.
Arguments N.to_nat : simpl never.

(** ** big-endian bytes *)
Lemma of_be_app l x : of_be (l ++ [x]) = 256 * of_be l + x.
Proof. unfold of_be. now rewrite fold_left_app. Qed.
Lemma be_round n : forall x, x < 256 ^ N.of_nat n -> of_be (be_bytes n x) = x.
Proof.
  induction n as [|n IH]; intros x Hx; cbn [be_bytes].
  - cbn in *. lia.
  - rewrite of_be_app, IH; [lia|].
    rewrite Nat2N.inj_succ, N.pow_succ_r' in Hx. apply N.div_lt_upper_bound; lia.
Qed.
Lemma be_length n : forall x, length (be_bytes n x) = n.
Proof. induction n as [|n IH]; intros x; cbn [be_bytes]; [reflexivity|]. rewrite app_length, IH. cbn. lia. Qed.
Lemma be_byte n : forall x, Forall (fun b => b < 256) (be_bytes n x).
Proof.
  induction n as [|n IH]; intros x; cbn [be_bytes]; [constructor|].
  apply Forall_app; split; [apply IH|]. constructor; [|constructor]. apply N.mod_lt. lia.
Qed.
Lemma of_be_bound l : Forall (fun b => b < 256) l -> of_be l < 256 ^ N.of_nat (length l).
Proof.
  induction l as [|x l IH] using rev_ind; intros H; [cbn; lia|].
  apply Forall_app in H as [H1 H2]. inversion H2; subst. apply IH in H1.
  rewrite of_be_app, app_length. cbn [length]. rewrite Nat.add_1_r, Nat2N.inj_succ, N.pow_succ_r'. lia.
Qed.
Lemma of_be_inj : forall l l', length l = length l' ->
  Forall (fun b => b < 256) l -> Forall (fun b => b < 256) l' -> of_be l = of_be l' -> l = l'.
Proof.
  induction l as [|x l IH] using rev_ind; intros l' HL H H' E.
  - destruct l'; [reflexivity|discriminate].
  - destruct l' as [|y l' _] using rev_ind; [rewrite app_length in HL; cbn in HL; lia|].
    rewrite !app_length in HL. cbn in HL.
    apply Forall_app in H as [H1 H2]. apply Forall_app in H' as [H1' H2'].
    inversion H2; inversion H2'; subst.
    rewrite !of_be_app in E. assert (x = y /\ of_be l = of_be l') as [-> E'] by lia.
    f_equal. apply IH; auto. lia.
Qed.

(** ** generator *)
Lemma counter_bytes_length n c : length (counter_bytes n c) = n.
Proof. revert c; induction n; intros c; cbn; auto. Qed.
Lemma counter_bytes_byte n : forall c, Forall (fun b => b < 256) (counter_bytes n c).
Proof. induction n; intros c; cbn; constructor; auto. apply N.mod_lt. lia. Qed.
Lemma counter_bytes_inj n : forall c c', c < 256 ^ N.of_nat n -> c' < 256 ^ N.of_nat n ->
  counter_bytes n c = counter_bytes n c' -> c = c'.
Proof.
  induction n as [|n IH]; intros c c' H H' E; [cbn in *; lia|].
  cbn in E. injection E as E1 E2. rewrite Nat2N.inj_succ, N.pow_succ_r' in H, H'.
  apply IH in E2; [lia| |]; apply N.div_lt_upper_bound; lia.
Qed.
Lemma uid_of_counter_inj c c' : c < 2 ^ 64 -> c' < 2 ^ 64 -> uid_of_counter c = uid_of_counter c' -> c = c'.
Proof.
  unfold uid_of_counter. intros H H' E.
  apply of_be_inj in E.
  - apply app_inv_tail in E. apply (counter_bytes_inj 8); assumption.
  - rewrite !app_length, !counter_bytes_length. reflexivity.
  - apply Forall_app; split; [apply counter_bytes_byte|repeat constructor].
  - apply Forall_app; split; [apply counter_bytes_byte|repeat constructor].
Qed.
Lemma uid_of_counter_bound c : uid_of_counter c < 2 ^ 128.
Proof.
  unfold uid_of_counter. eapply N.lt_le_trans; [apply of_be_bound|].
  - apply Forall_app; split; [apply counter_bytes_byte|repeat constructor].
  - rewrite app_length, counter_bytes_length. cbn. lia.
Qed.
Lemma w64_lt x : w64 x < 2 ^ 64.
Proof. apply N.mod_lt. discriminate. Qed.
Lemma generated_inj start i j : i < 2 ^ 64 -> j < 2 ^ 64 -> generated start i = generated start j -> i = j.
Proof.
  unfold generated. intros Hi Hj E. apply uid_of_counter_inj in E; try apply w64_lt.
  unfold w64, two64 in E. change (2 ^ 64) with 18446744073709551616 in *. lia.
Qed.
Lemma generated_nil start i : generated start i = 0 <-> w64 (start + i) = 0.
Proof.
  unfold generated. split; intros E.
  - apply uid_of_counter_inj; [apply w64_lt|lia|]. rewrite E. reflexivity.
  - rewrite E. reflexivity.
Qed.

(** ** order *)
Lemma lex_ltb_irrefl l : lex_ltb l l = false.
Proof. induction l as [|x l IH]; cbn; [reflexivity|]. rewrite IH, N.ltb_irrefl, andb_false_r. reflexivity. Qed.
Lemma lex_ltb_app : forall a b x y, length a = length b ->
  lex_ltb (a ++ [x]) (b ++ [y]) = lex_ltb a b || (bytes_eqb a b && (x <? y)).
Proof.
  induction a as [|c a IH]; intros [|d b] x y HL; try discriminate HL; cbn.
  - now rewrite andb_false_r, orb_false_r.
  - rewrite IH by (cbn in HL; lia). destruct (c <? d), (c =? d); cbn; auto.
Qed.
Lemma bytes_eqb_eq : forall a b, bytes_eqb a b = true <-> a = b.
Proof.
  induction a as [|x a IH]; intros [|y b]; cbn; split; intros H; try discriminate; auto.
  - apply andb_true_iff in H as [H1 H2]. apply N.eqb_eq in H1. apply IH in H2. now subst.
  - injection H as -> ->. rewrite N.eqb_refl. now apply IH.
Qed.
Lemma lex_be n : forall a b, a < 256 ^ N.of_nat n -> b < 256 ^ N.of_nat n ->
  lex_ltb (be_bytes n a) (be_bytes n b) = (a <? b) /\ bytes_eqb (be_bytes n a) (be_bytes n b) = (a =? b).
Proof.
  induction n as [|n IH]; intros a b Ha Hb.
  - cbn in Ha, Hb. assert (a = 0) by lia. assert (b = 0) by lia. subst. split; reflexivity.
  - rewrite Nat2N.inj_succ, N.pow_succ_r' in Ha, Hb. cbn [be_bytes].
    destruct (IH (a / 256) (b / 256)) as [E1 E2]; try (apply N.div_lt_upper_bound; lia).
    rewrite lex_ltb_app by (now rewrite !be_length). rewrite E1, E2. split; [lia|].
    apply eq_true_iff_eq. rewrite bytes_eqb_eq, N.eqb_eq. split; intros E; [|now subst].
    apply app_inj_tail in E as [E E']. apply bytes_eqb_eq in E. rewrite E2 in E. lia.
Qed.
Lemma uid_lt_spec a b : a < 2 ^ 128 -> b < 2 ^ 128 -> uid_lt a b = (b <? a).
Proof. intros Ha Hb. apply lex_be; assumption. Qed.
Lemma uid_eqb_spec a b : a < 2 ^ 128 -> b < 2 ^ 128 -> uid_eqb a b = (a =? b).
Proof. intros Ha Hb. unfold uid_eqb, uuid_bytes. rewrite (N.eqb_sym a b). apply (lex_be 16 b a); assumption. Qed.

(** ** decimal *)
Definition dvalue (l : list N) : N := fold_left (fun a d => 10 * a + d) l 0.
Lemma digits_value : forall f n, n < 2 ^ N.of_nat f -> dvalue (digits (S f) n) = n.
Proof.
  induction f as [|f IH]; intros n Hn.
  - cbn in Hn. assert (n = 0) by lia. subst. reflexivity.
  - cbn [digits]. destruct (N.ltb_spec n 10); [reflexivity|].
    rewrite Nat2N.inj_succ, N.pow_succ_r' in Hn.
    specialize (IH (n / 10)). cbn [digits] in IH. unfold dvalue in *. rewrite fold_left_app. cbn [fold_left].
    rewrite IH; [lia|]. apply N.div_lt_upper_bound; lia.
Qed.
Lemma digits_small : forall f n, Forall (fun d => d < 10) (digits f n).
Proof.
  induction f as [|f IH]; intros n; cbn [digits]; [constructor|].
  destruct (N.ltb_spec n 10); [repeat constructor; assumption|].
  apply Forall_app; split; [apply IH|]. repeat constructor. apply N.mod_lt. lia.
Qed.
Lemma digits_nonempty f n : exists d l, digits (S f) n = d :: l.
Proof.
  cbn [digits]. destruct (n <? 10); [eauto|]. destruct (digits f (n / 10)); cbn; eauto.
Qed.
Lemma digit_char d : d < 10 -> is_digit (48 + d) = true.
Proof. unfold is_digit. lia. Qed.
Lemma read_digits_app : forall ds rest acc, Forall (fun d => d < 10) ds -> stops rest ->
  read_digits acc (map (fun d => 48 + d) ds ++ rest) = (fold_left (fun a d => 10 * a + d) ds acc, rest).
Proof.
  induction ds as [|d ds IH]; intros rest acc H Hs; cbn [map app fold_left].
  - destruct rest as [|c rest]; [reflexivity|]. cbn [read_digits]. cbn in Hs. now rewrite Hs.
  - inversion H; subst. cbn [read_digits]. rewrite digit_char by assumption.
    rewrite IH by assumption. do 2 f_equal. lia.
Qed.
Lemma size_bound n : n < 2 ^ N.of_nat (N.size_nat n).
Proof.
  destruct n as [|p]; [cbn; lia|]. cbn [N.size_nat].
  assert (H : N.pos p < 2 ^ N.size (N.pos p)) by apply N.size_gt.
  replace (N.of_nat (Pos.size_nat p)) with (N.size (N.pos p)); [assumption|].
  clear. induction p as [p IH|p IH|]; [| |reflexivity]; cbn [Pos.size_nat];
    rewrite Nat2N.inj_succ, <- IH; reflexivity.
Qed.
Lemma digit_not_space c : is_digit c = true -> is_space c = false.
Proof. unfold is_digit, is_space. lia. Qed.
Lemma show_N_head n : exists c l, show_N n = c :: l /\ is_digit c = true.
Proof.
  unfold show_N. destruct (digits_nonempty (N.size_nat n) n) as (d & l & E). rewrite E. cbn [map].
  eexists _, _. split; [reflexivity|]. apply digit_char.
  pose proof (digits_small (S (N.size_nat n)) n) as H. rewrite E in H. now inversion H.
Qed.
Lemma read_show_N bound n rest : n < bound -> stops rest ->
  read_N bound (show_N n ++ rest) = Some (n, rest).
Proof.
  intros Hn Hs. destruct (show_N_head n) as (c & l & E & Hc). unfold read_N.
  assert (E2 : skip_spaces (show_N n ++ rest) = show_N n ++ rest).
  { rewrite E. cbn. now rewrite digit_not_space. }
  rewrite E2. rewrite E at 1. cbn [app]. rewrite Hc.
  change (c :: l ++ rest) with ((c :: l) ++ rest). rewrite <- E.
  unfold show_N. rewrite read_digits_app by (auto using digits_small).
  pose proof (digits_value _ _ (size_bound n)) as HD. unfold dvalue in HD. rewrite HD.
  apply N.ltb_lt in Hn. now rewrite Hn.
Qed.
Lemma skip_space l : skip_spaces (space :: l) = skip_spaces l.
Proof. reflexivity. Qed.
Lemma read_N_space bound l : read_N bound (space :: l) = read_N bound l.
Proof. reflexivity. Qed.

(** ** hexadecimal *)
Lemma hex_round d : d < 16 -> hex_value (hex_char d) = Some d.
Proof.
  intros H. unfold hex_value, hex_char, is_digit. destruct (N.ltb_spec d 10).
  - destruct (N.leb_spec 48 (48 + d)), (N.leb_spec (48 + d) 57); cbn; try lia. f_equal. lia.
  - destruct (N.leb_spec 48 (87 + d)), (N.leb_spec (87 + d) 57); cbn; try lia;
    destruct (N.leb_spec 97 (87 + d)), (N.leb_spec (87 + d) 102); cbn; try lia; f_equal; lia.
Qed.
Lemma read_show_bytes : forall bs i rest, Forall (fun b => b < 256) bs ->
  read_bytes (length bs) i (show_bytes i bs ++ rest) = Some (bs, rest).
Proof.
  induction bs as [|b bs IH]; intros i rest H; [reflexivity|].
  inversion H; subst. cbn [length show_bytes show_byte read_bytes app].
  rewrite !hex_round by (try (apply N.div_lt_upper_bound; lia); apply N.mod_lt; lia).
  assert (Eb : 16 * (b / 16) + b mod 16 = b) by lia.
  assert (K : forall t, (match read_bytes (length bs) (S i) (show_bytes (S i) bs ++ t) with
              | Some (bs0, r) => Some (16 * (b / 16) + b mod 16 :: bs0, r) | None => None end)
              = Some (b :: bs, t)).
  { intros t. rewrite IH by assumption. now rewrite Eb. }
  do 10 (destruct i as [|i]; [cbn [app]; rewrite ?N.eqb_refl; apply K|]).
  cbn [app]. apply K.
Qed.
Lemma hex_not_space d : d < 16 -> is_space (hex_char d) = false.
Proof. unfold hex_char, is_space. intros H. destruct (N.ltb_spec d 10); lia. Qed.
Lemma read_show_uid u rest : u < 2 ^ 128 -> read_uid (show_uid u ++ rest) = Some (u, rest).
Proof.
  intros H. unfold read_uid, show_uid.
  assert (E : skip_spaces (show_bytes 0 (uuid_bytes u) ++ rest) = show_bytes 0 (uuid_bytes u) ++ rest).
  { pose proof (be_byte 16 u) as HB. unfold uuid_bytes. pose proof (be_length 16 u) as HL.
    destruct (be_bytes 16 u) as [|b bs]; [discriminate|]. inversion HB; subst.
    cbn [show_bytes show_byte app skip_spaces]. rewrite hex_not_space; [reflexivity|].
    apply N.div_lt_upper_bound; lia. }
  rewrite E. pose proof (read_show_bytes (uuid_bytes u) 0 rest (be_byte 16 u)) as R.
  unfold uuid_bytes in R at 1. rewrite be_length in R. rewrite R.
  now rewrite (be_round 16) by assumption.
Qed.
Lemma read_uid_space l : read_uid (space :: l) = read_uid l.
Proof. reflexivity. Qed.

(** ** lists *)
Lemma read_many_show {A} (rd : list N -> option (A * list N)) (sh : A -> list N) (ok : A -> Prop) :
  (forall x rest, ok x -> stops rest -> rd (space :: sh x ++ rest) = Some (x, rest)) ->
  forall l rest, Forall ok l -> stops rest ->
  read_many rd (length l) (flat_map (fun x => [space] ++ sh x) l ++ rest) = Some (l, rest).
Proof.
  intros Hrd. induction l as [|x l IH]; intros rest H Hs; [reflexivity|].
  inversion H; subst. cbn [length read_many flat_map app]. rewrite <- app_assoc.
  rewrite Hrd; [|assumption|].
  - cbn [rbind]. rewrite IH by assumption. reflexivity.
  - destruct l; [exact Hs|reflexivity].
Qed.
Lemma stops_flat {A} (sh : A -> list N) l rest : stops rest -> stops (flat_map (fun x => [space] ++ sh x) l ++ rest).
Proof. destruct l; intros; [assumption|reflexivity]. Qed.

Lemma read_show_spike s t idx old rest :
  fits (SpikeMsg s t idx) -> (idx <> [] \/ old = []) -> stops rest ->
  read_spike old (show_message (SpikeMsg s t idx) ++ rest) = Some (SpikeMsg s t idx, rest).
Proof.
  intros ((Hs & Ht) & Hl & Hi) Hold Hst. unfold read_spike, show_message.
  rewrite <- !app_assoc. cbn [app]. rewrite read_uid_space, read_show_uid by assumption. cbn [rbind].
  rewrite read_N_space, read_show_N by (auto; reflexivity). cbn [rbind].
  rewrite read_N_space, read_show_N by (auto; now apply stops_flat). cbn [rbind].
  destruct (N.eqb_spec (N.of_nat (length idx)) 0) as [E|E].
  - destruct idx as [|x idx]; [|cbn [length] in E; lia]. destruct Hold as [Hold | ->]; [congruence|]. reflexivity.
  - rewrite Nat2N.id.
    change (flat_map (fun n => space :: show_N n) idx) with (flat_map (fun n => [space] ++ show_N n) idx).
    erewrite (read_many_show (read_N two32) show_N (fun n => n < 2 ^ 32)); auto.
    intros x r Hx Hr. rewrite read_N_space. apply read_show_N; assumption.
Qed.

(** ** floats *)
Definition no_space (l : list N) : Prop := Forall (fun c => is_space c = false) l.
Lemma digits_no_space l : Forall (fun d => d < 10) l -> no_space (map (fun d => 48 + d) l).
Proof.
  induction 1; cbn; constructor; auto. apply digit_not_space, digit_char. assumption.
Qed.
Lemma no_space_app a b : no_space a -> no_space b -> no_space (a ++ b).
Proof. intros; apply Forall_app; auto. Qed.
Lemma Forall_firstn_skipn {A} (P : A -> Prop) n l : Forall P l -> Forall P (firstn n l) /\ Forall P (skipn n l).
Proof. intros H. rewrite <- (firstn_skipn n l) in H. now apply Forall_app in H. Qed.
Lemma strip_trailing_sub P l : Forall P l -> Forall P (strip_trailing l).
Proof.
  unfold strip_trailing. intros H. apply Forall_rev. apply Forall_rev in H.
  induction H as [|x r Hx Hr IH]; [constructor|].
  assert (D : x = 48 \/ x <> 48) by lia. destruct D as [-> | D]; [exact IH|].
  replace ((fix go (l : list N) : list N := match l with 48 :: t => go t | _ => l end) (x :: r)) with (x :: r).
  - now constructor.
  - cbn. repeat (match goal with |- context [match ?y with _ => _ end] => is_var y; destruct y end; try reflexivity).
    congruence.
Qed.
Lemma with_point_no_space a b : no_space a -> no_space b -> no_space (with_point a b).
Proof.
  intros Ha Hb. unfold with_point. apply strip_trailing_sub in Hb.
  destruct (strip_trailing b); [assumption|]. apply no_space_app; [assumption|].
  apply no_space_app; [|assumption]. repeat constructor.
Qed.
Lemma show_exp_no_space k : no_space (show_exp k).
Proof.
  unfold show_exp. apply no_space_app; [destruct (k <? 0)%Z; repeat constructor|].
  apply no_space_app; [destruct (_ <? 10); repeat constructor|].
  apply digits_no_space, digits_small.
Qed.
Lemma show_float_no_space v : no_space (show_float v).
Proof.
  destruct v as [s|s| |s m e]; cbn [show_float].
  - destruct s; repeat constructor.
  - destruct s; repeat constructor.
  - repeat constructor.
  - destruct (ten_pow _) as [a b].
    set (num := if (0 <=? e)%Z then _ else _). set (den := if (0 <=? e)%Z then _ else _).
    set (k0 := dec_exp _ _ _ _). set (d0 := round_half_even _ _).
    destruct (if (d0 =? 1000000)%Z then _ else _) as [d k].
    assert (HD : no_space (six_digits d)) by (apply digits_no_space, digits_small).
    apply no_space_app; [destruct s; repeat constructor|].
    destruct ((k <? -4) || (6 <=? k))%Z.
    + apply no_space_app; [|apply show_exp_no_space].
      apply with_point_no_space; eapply Forall_firstn_skipn in HD; apply HD.
    + destruct (0 <=? k)%Z; (apply with_point_no_space;
        [try (eapply Forall_firstn_skipn in HD; apply HD); repeat constructor|]).
      * eapply Forall_firstn_skipn in HD; apply HD.
      * apply no_space_app; [|assumption]. apply Forall_forall. intros x Hx. apply repeat_spec in Hx. now subst.
Qed.
Lemma token_app a rest : no_space a -> (rest = [] \/ exists r, rest = space :: r) -> token (a ++ rest) = (a, rest).
Proof.
  intros H Hr. induction H as [|c a Hc Ha IH]; cbn [app token].
  - destruct Hr as [-> | [r ->]]; reflexivity.
  - rewrite Hc, IH. reflexivity.
Qed.
Lemma show_float_nonempty v : show_float v = [] -> False.
Proof.
  destruct v as [s|s| |s m e]; cbn [show_float]; try (destruct s; discriminate); try discriminate.
  destruct (ten_pow _) as [a b].
  set (num := if (0 <=? e)%Z then _ else _). set (den := if (0 <=? e)%Z then _ else _).
  set (k0 := dec_exp _ _ _ _). set (d0 := round_half_even _ _).
  destruct (if (d0 =? 1000000)%Z then _ else _) as [d k].
  destruct s; [discriminate|]. cbn [app].
  assert (W : forall x a b, with_point (x :: a) b <> []).
  { intros x a' b'. unfold with_point. destruct (strip_trailing b'); discriminate. }
  unfold six_digits. destruct (digits_nonempty 5 (Z.to_N d)) as (d1 & l & E). rewrite E. cbn [map].
  destruct ((k <? -4) || (6 <=? k))%Z; cbn [firstn].
  - intros H. apply app_eq_nil in H as [H _]. now apply W in H.
  - destruct (0 <=? k)%Z; intros H; now apply W in H.
Qed.
Lemma read_show_float strtof v rest :
  strtof (show_float v) = Some v -> (rest = [] \/ exists r, rest = space :: r) ->
  read_float strtof (show_float v ++ rest) = Some (v, rest).
Proof.
  intros Hv Hr. unfold read_float.
  assert (E : skip_spaces (show_float v ++ rest) = show_float v ++ rest).
  { pose proof (show_float_no_space v) as H. pose proof (show_float_nonempty v) as Hn.
    destruct (show_float v) as [|c l]; [now exfalso; apply Hn|]. inversion H; subst. cbn. now rewrite H2. }
  rewrite E, token_app by auto using show_float_no_space. now rewrite Hv.
Qed.
Lemma read_float_space strtof l : read_float strtof (space :: l) = read_float strtof l.
Proof. reflexivity. Qed.

Lemma type_code_round t : type_of_code (type_code t) = Some t.
Proof. destruct t; reflexivity. Qed.
Lemma type_code_small t : type_code t < 5.
Proof. destruct t; cbn; lia. Qed.

Lemma read_show_impact strtof i rest :
  impact_fits i -> strtof (show_float (i_value i)) = Some (i_value i) -> stops rest ->
  read_impact strtof (space :: show_impact i ++ rest) = Some (i, rest).
Proof.
  intros (Hc & Hpre & Hpost) Hv Hs. unfold read_impact, show_impact. rewrite <- !app_assoc. cbn [app].
  rewrite read_N_space, read_show_N by (auto; reflexivity). cbn [rbind].
  rewrite read_float_space, read_show_float by (auto; right; eauto). cbn [rbind].
  rewrite read_N_space, read_show_N.
  2:{ eapply N.lt_trans; [apply type_code_small|reflexivity]. } 2:{ reflexivity. }
  cbn [rbind]. rewrite read_N_space, read_show_N by (auto; reflexivity). cbn [rbind].
  rewrite read_N_space, read_show_N by (auto; reflexivity). cbn [rbind].
  rewrite type_code_round. destruct i; reflexivity.
Qed.
Lemma read_show_impacts strtof s t pre post f ims old rest :
  fits (ImpactMsg s t pre post f ims) -> values_survive strtof ims ->
  (ims <> [] \/ old = []) -> stops rest ->
  read_impacts strtof old (show_message (ImpactMsg s t pre post f ims) ++ rest) =
    Some (ImpactMsg s t pre post f ims, rest).
Proof.
  intros ((Hs & Ht & Hpre & Hpost) & Hl & Hi) Hv Hold Hst. unfold read_impacts, show_message.
  rewrite <- !app_assoc. cbn [app]. rewrite read_show_uid by assumption. cbn [rbind].
  rewrite read_N_space, read_show_N by (auto; reflexivity). cbn [rbind].
  rewrite read_uid_space, read_show_uid by assumption. cbn [rbind].
  rewrite read_uid_space, read_show_uid by assumption. cbn [rbind].
  rewrite read_N_space, read_show_N by (destruct f; reflexivity). cbn [rbind].
  rewrite read_N_space, read_show_N by (auto; now apply stops_flat). cbn [rbind].
  assert (Ef : negb ((if f then 1 else 0) =? 0) = f) by (destruct f; reflexivity). rewrite Ef.
  destruct (N.eqb_spec (N.of_nat (length ims)) 0) as [E|E].
  - destruct ims as [|x ims]; [|cbn [length] in E; lia]. destruct Hold as [Hold | ->]; [congruence|]. reflexivity.
  - rewrite Nat2N.id.
    change (flat_map (fun i => space :: show_impact i) ims) with (flat_map (fun i => [space] ++ show_impact i) ims).
    erewrite (read_many_show (read_impact strtof) show_impact
                (fun i => impact_fits i /\ strtof (show_float (i_value i)) = Some (i_value i))); auto.
    + intros x r [Hx Hxv] Hr. apply read_show_impact; assumption.
    + apply Forall_forall. intros x Hx. split.
      * rewrite Forall_forall in Hi. auto.
      * unfold values_survive in Hv. rewrite Forall_forall in Hv. auto.
Qed.

(** ** envelope *)
Lemma unpack_pack_impacts ims :
  unpack_impacts (map (fun i => mkFbImpact (i_conn i) (i_value i) (type_code (i_type i)) (i_pre i) (i_post i)) ims)
  = Some ims.
Proof.
  induction ims as [|i ims IH]; cbn [map unpack_impacts]; [reflexivity|].
  cbn [fi_output_type]. rewrite type_code_round, IH. destruct i; reflexivity.
Qed.
Lemma envelope_round m : fits m -> extract_from_envelope (pack_to_envelope m) = Ret m.
Proof.
  destruct m as [s t idx|s t pre post f ims]; intros H; unfold pack_to_envelope, extract_from_envelope;
    cbn [pack_internal fe_message fe_message_type msg_type].
  - change (N.of_nat (0 + 1) =? 1) with true. cbn iota. cbn [fh_sender_uid fh_send_time].
    destruct H as ((Hs & _) & _). unfold uuid_bytes. now rewrite (be_round 16).
  - change (N.of_nat (1 + 1) =? 1) with false. change (N.of_nat (1 + 1) =? 2) with true. cbn iota.
    rewrite unpack_pack_impacts. cbn [fh_sender_uid fh_send_time].
    destruct H as ((Hs & _ & Hpre & Hpost) & _). unfold uuid_bytes. now rewrite !(be_round 16).
Qed.
Lemma envelope_unknown e :
  fe_message_type e <> 1 -> fe_message_type e <> 2 -> extract_from_envelope e = Throw.
Proof.
  intros H1 H2. unfold extract_from_envelope.
  apply N.eqb_neq in H1, H2. now rewrite H1, H2.
Qed.
Lemma order_laws a b c :
  a < 2 ^ 128 -> b < 2 ^ 128 -> c < 2 ^ 128 ->
  uid_lt a a = false /\
  (uid_lt a b = true -> uid_lt b c = true -> uid_lt a c = true) /\
  (uid_lt a b = true \/ uid_eqb a b = true \/ uid_lt b a = true) /\
  (uid_eqb a b = true <-> a = b) /\
  uid_lt a b = (b <? a).
Proof.
  intros Ha Hb Hc. rewrite !uid_lt_spec, uid_eqb_spec by assumption.
  repeat split; lia.
Qed.
