(** The phases of a round. *)
From Verif Require Import Base ListLemmas Messaging_Model Messaging_Spec Messaging_Proofs Messaging_Proofs2 Neuron_Model
  Pipeline_Model Pipeline_Spec Pipeline_Proofs Train_Model Net_Model Net_Spec Framework_Model Exec_Model Exec_Spec Exec_Proofs.

Definition in_roles (ins : list (uid * list uid)) : list role := map (fun _ => None) ins.
Definition out_roles (outs : list (uid * list uid)) : list role := map (fun c => Some (0, fst c, snd c)) outs.
Definition call_role (c : xcall) : role := match c with AddHandler u ss _ _ => Some (0, u, ss) | AddObserver ty u ss => Some (ty, u, ss) end.
Definition call_roles (calls : list xcall) : list role := map call_role calls.
Definition is_handler (c : xcall) : bool := match c with AddHandler _ _ _ _ => true | _ => false end.
(** What lies in the listeners' buffers comes from [M], for the endpoints from number
    [i] on. *)
Definition full (r : nat -> list message) (i : nat) (xs : list role) (M : list message) : Prop :=
  forall k ty u ss, nth_error xs k = Some (Some (ty, u, ss)) -> filter (wanted ty ss) (rev (r (i + k))) = filter (wanted ty ss) M.
Lemma full_cons r i x xs M : full r i (x :: xs) M -> full r (S i) xs M.
Proof. intros H k ty u ss Hk. replace (S i + k) with (i + S k) by lia. now apply (H (S k) ty u). Qed.
Lemma full_ext r r' i xs M : full r i xs M -> (forall k, r' (i + k) = r (i + k)) -> full r' i xs M.
Proof. intros H E k ty u ss Hk. rewrite E. eapply H; eauto. Qed.
Lemma S_len (rs1 : list role) x : S (length rs1 + 1) = S (length (rs1 ++ [x])).
Proof. rewrite app_length. reflexivity. Qed.
Lemma len_1 (rs1 : list role) x : length (rs1 ++ [x]) = S (length rs1).
Proof. rewrite app_length. cbn [length]. lia. Qed.
Lemma mid {A} (a : list A) x b : a ++ x :: b = (a ++ [x]) ++ b.
Proof. now rewrite <- app_assoc. Qed.
Lemma put_other f i v j : j <> i -> put_at f i v j = f j.
Proof. intros H. unfold put_at. destruct (Nat.eqb_spec j i); congruence. Qed.
Lemma put_same f i v : put_at f i v i = v.
Proof. unfold put_at. now rewrite Nat.eqb_refl. Qed.

Lemma send_inputs_ok step data : forall ins rs1 rs2 b s r e0,
  looks b (rs1 ++ in_roles ins ++ rs2) s r e0 ->
  exists b' s', send_inputs step (length rs1) ins data b = Ret b' /\
    looks b' (rs1 ++ in_roles ins ++ rs2) s' r e0 /\ b_route b' = b_route b /\
    (forall i, i <= length rs1 \/ length rs1 + length ins < i -> s' i = s i) /\
    (forall k c, nth_error ins k = Some c -> s' (S (length rs1 + k)) = s (S (length rs1 + k)) ++ ic_send (fst c) step (data (length rs1 + k))).
Proof.
  induction ins as [|[c ps] ins IH]; intros rs1 rs2 b s r e0 L; cbn [send_inputs].
  - exists b, s. repeat split; auto; try apply L. intros [|k] c Hc; discriminate.
  - cbn [in_roles map app] in L. destruct (sends_ok (ic_send c step (data (length rs1))) _ _ _ _ _ _ _ L) as (b1 & tr & E1 & L1 & R1).
    rewrite E1. cbn [obind fst]. rewrite mid in L1. destruct (IH _ _ _ _ _ _ L1) as (b2 & s2 & E2 & L2 & R2 & K1 & K2). rewrite len_1 in *.
    rewrite E2. exists b2, s2. split; [reflexivity|]. split; [cbn [in_roles map app]; now rewrite mid|]. split; [congruence|]. split.
    + intros i Hi. cbn [length] in Hi. rewrite K1 by lia. apply put_other. lia.
    + intros [|k] d Hd; cbn [nth_error] in Hd.
      * injection Hd as <-. cbn [fst]. rewrite Nat.add_0_r, K1 by lia. now rewrite put_same.
      * replace (length rs1 + S k) with (S (length rs1) + k) by lia. rewrite (K2 k d Hd). f_equal. apply put_other. lia.
Qed.
Lemma outputs_ok M : forall outs rs1 rs2 b s r e0,
  looks b (rs1 ++ out_roles outs ++ rs2) s r e0 -> full r (S (length rs1)) (out_roles outs) M ->
  exists b' r', update_outputs (S (length rs1)) outs b = Ret (b', map (fun c => filter (wanted 0 (snd c)) M) outs) /\
    looks b' (rs1 ++ out_roles outs ++ rs2) s r' e0 /\ b_route b' = b_route b /\
    (forall i, i <= length rs1 \/ length rs1 + length outs < i -> r' i = r i) /\
    (forall k, k < length outs -> r' (S (length rs1 + k)) = []).
Proof.
  induction outs as [|[c ps] outs IH]; intros rs1 rs2 b s r e0 L F; cbn [update_outputs map].
  - exists b, r. repeat split; auto; try apply L. cbn [length]. lia.
  - cbn [out_roles map app fst snd] in L, F. destruct (hear_ok _ _ _ _ _ _ _ _ _ L) as (b1 & E1 & L1 & R1).
    rewrite E1. cbn [obind fst snd]. pose proof (F 0 _ _ _ eq_refl) as F0. rewrite Nat.add_0_r in F0. rewrite F0.
    rewrite mid in L1. destruct (IH _ _ _ _ _ _ L1) as (b2 & r2 & E2 & L2 & R2 & K1 & K2).
    { rewrite len_1. eapply full_ext; [eapply full_cons; exact F|]. intros k. apply put_other. lia. }
    rewrite len_1 in *. rewrite E2. cbn [obind fst snd]. exists b2, r2. split; [reflexivity|].
    split; [cbn [out_roles map app fst snd]; now rewrite mid|]. split; [congruence|]. cbn [length]. split.
    + intros i Hi. rewrite K1 by lia. apply put_other. lia.
    + intros [|k] Hk.
      * rewrite Nat.add_0_r, K1 by lia. apply put_same.
      * replace (length rs1 + S k) with (S (length rs1) + k) by lia. apply K2. lia.
Qed.

Definition answer (n : nat) (step : N) (M : list message) (h : uid * list uid * (nat -> list message -> list N)) : list message * list message :=
  let '(u, ss, f) := h in
  let got := filter (wanted 0 ss) M in (got, match f n got with [] => [] | d => [SpikeMsg u step d] end).
Lemma handlers_ok n step M : forall calls rs1 b s r e0,
  looks b (rs1 ++ call_roles calls) s r e0 -> full r (S (length rs1)) (call_roles calls) M ->
  (forall k, k < length calls -> s (S (length rs1 + k)) = []) ->
  exists b' s' r', update_handlers n step (S (length rs1)) calls b = Ret (b', map (answer n step M) (handlers calls)) /\
    looks b' (rs1 ++ call_roles calls) s' r' e0 /\ b_route b' = b_route b /\
    (forall i, i <= length rs1 -> s' i = s i /\ r' i = r i) /\
    (forall k c, nth_error calls k = Some c -> r' (S (length rs1 + k)) = if is_handler c then [] else r (S (length rs1 + k))) /\
    sends_of (S (length rs1)) (call_roles calls) s' = flat_map snd (map (answer n step M) (handlers calls)).
Proof.
  induction calls as [|c calls IH]; intros rs1 b s r e0 L F Hs; cbn [update_handlers].
  - exists b, s, r. repeat split; auto; try apply L. intros [|k] c Hc; discriminate.
  - cbn [call_roles map] in L, F. destruct c as [u ss rs f|ty u ss]; cbn [call_role] in L, F.
    + destruct (hear_ok _ _ _ _ _ _ _ _ _ L) as (b1 & E1 & L1 & R1).
      rewrite E1. cbn [obind fst snd]. pose proof (F 0 _ _ _ eq_refl) as F0. rewrite Nat.add_0_r in F0. rewrite F0.
      set (sent := match f n (filter (wanted 0 ss) M) with [] => [] | d => [SpikeMsg u step d] end).
      destruct (sends_ok sent _ _ _ _ _ _ _ L1) as (b2 & tr & E2 & L2 & R2).
      rewrite E2. cbn [obind fst snd].
      rewrite mid in L2. destruct (IH _ _ _ _ _ L2) as (b3 & s3 & r3 & E3 & L3 & R3 & K1 & K2 & K3).
      { rewrite len_1. eapply full_ext; [eapply full_cons; exact F|]. intros k. apply put_other. lia. }
      { intros k Hk. rewrite len_1. rewrite put_other by lia. replace (S (length rs1) + k) with (length rs1 + S k) by lia. apply Hs. cbn [length]. lia. }
      rewrite len_1 in *. rewrite E3. cbn [obind fst snd]. exists b3, s3, r3. split; [reflexivity|].
      split; [cbn [call_roles map call_role]; now rewrite mid|]. split; [congruence|]. split; [|split].
      * intros i Hi. destruct (K1 i ltac:(lia)) as [-> ->]. split; apply put_other; lia.
      * intros [|k] d Hd; cbn [nth_error] in Hd.
        -- injection Hd as <-. rewrite Nat.add_0_r. rewrite (proj2 (K1 _ (Nat.le_refl _))). cbn [is_handler]. apply put_same.
        -- replace (length rs1 + S k) with (S (length rs1) + k) by lia. rewrite (K2 k d Hd). destruct (is_handler d); [reflexivity|]. apply put_other. lia.
      * cbn [call_roles map sends_of]. fold (call_roles calls). rewrite K3. rewrite (proj1 (K1 _ (Nat.le_refl _))), put_same.
        pose proof (Hs 0 ltac:(cbn [length]; lia)) as Hs0. rewrite Nat.add_0_r in Hs0. rewrite Hs0. reflexivity.
    + rewrite mid in L. destruct (IH _ _ _ _ _ L) as (b3 & s3 & r3 & E3 & L3 & R3 & K1 & K2 & K3).
      { rewrite len_1. eapply full_cons; exact F. }
      { intros k Hk. rewrite len_1. replace (S (length rs1) + k) with (length rs1 + S k) by lia. apply Hs. cbn [length]. lia. }
      rewrite len_1 in *. rewrite E3. exists b3, s3, r3. split; [reflexivity|].
      split; [cbn [call_roles map call_role]; now rewrite mid|]. split; [exact R3|]. split; [|split].
      * intros i Hi. apply K1. lia.
      * intros [|k] d Hd; cbn [nth_error] in Hd.
        -- injection Hd as <-. rewrite Nat.add_0_r. rewrite (proj2 (K1 _ (Nat.le_refl _))). reflexivity.
        -- replace (length rs1 + S k) with (S (length rs1) + k) by lia. rewrite (K2 k d Hd). reflexivity.
      * cbn [call_roles map sends_of]. fold (call_roles calls). rewrite K3. rewrite (proj1 (K1 _ (Nat.le_refl _))).
        pose proof (Hs 0 ltac:(cbn [length]; lia)) as Hs0. rewrite Nat.add_0_r in Hs0. rewrite Hs0. reflexivity.
Qed.
(** What lies in the observers' buffers comes from [M]. *)
Definition full_observers (r : nat -> list message) (i : nat) (calls : list xcall) (M : list message) : Prop :=
  forall k ty u ss, nth_error calls k = Some (AddObserver ty u ss) -> filter (wanted ty ss) (rev (r (i + k))) = filter (wanted ty ss) M.
Lemma observers_ok M : forall calls rs1 b s r e0,
  looks b (rs1 ++ call_roles calls) s r e0 -> full_observers r (S (length rs1)) calls M ->
  exists b' r', update_observers (S (length rs1)) calls b = Ret (b', map (fun o => filter (wanted (fst o) (snd o)) M) (observers calls)) /\
    looks b' (rs1 ++ call_roles calls) s r' e0 /\ b_route b' = b_route b /\
    (forall i, i <= length rs1 -> r' i = r i) /\
    (forall k c, nth_error calls k = Some c -> r' (S (length rs1 + k)) = if is_handler c then r (S (length rs1 + k)) else []).
Proof.
  induction calls as [|c calls IH]; intros rs1 b s r e0 L F; cbn [update_observers].
  - exists b, r. repeat split; auto; try apply L. intros [|k] c Hc; discriminate.
  - assert (F' : forall r', (forall k, r' (S (S (length rs1)) + k) = r (S (S (length rs1)) + k)) -> full_observers r' (S (S (length rs1))) calls M).
    { intros r' E k ty u ss Hk. rewrite E. replace (S (S (length rs1)) + k) with (S (length rs1) + S k) by lia. now apply (F (S k) ty u). }
    cbn [call_roles map] in L. destruct c as [u ss rs f|ty u ss]; cbn [call_role] in L.
    + rewrite mid in L. destruct (IH _ _ _ _ _ L) as (b3 & r3 & E3 & L3 & R3 & K1 & K2).
      { rewrite len_1. now apply F'. }
      rewrite len_1 in *. rewrite E3. exists b3, r3. split; [reflexivity|].
      split; [cbn [call_roles map call_role]; now rewrite mid|]. split; [exact R3|]. split.
      * intros i Hi. apply K1. lia.
      * intros [|k] d Hd; cbn [nth_error] in Hd.
        -- injection Hd as <-. rewrite Nat.add_0_r. rewrite (K1 _ (Nat.le_refl _)). reflexivity.
        -- replace (length rs1 + S k) with (S (length rs1) + k) by lia. apply (K2 k d Hd).
    + destruct (hear_ok _ _ _ _ _ _ _ _ _ L) as (b1 & E1 & L1 & R1).
      rewrite E1. cbn [obind fst snd]. pose proof (F 0 _ _ _ eq_refl) as F0. rewrite Nat.add_0_r in F0. rewrite F0.
      rewrite mid in L1. destruct (IH _ _ _ _ _ L1) as (b3 & r3 & E3 & L3 & R3 & K1 & K2).
      { rewrite len_1. apply F'. intros k. apply put_other. lia. }
      rewrite len_1 in *. rewrite E3. cbn [obind fst snd]. exists b3, r3. split; [reflexivity|].
      split; [cbn [call_roles map call_role]; now rewrite mid|]. split; [congruence|]. split.
      * intros i Hi. rewrite K1 by lia. apply put_other. lia.
      * intros [|k] d Hd; cbn [nth_error] in Hd.
        -- injection Hd as <-. rewrite Nat.add_0_r. rewrite (K1 _ (Nat.le_refl _)). cbn [is_handler]. apply put_same.
        -- replace (length rs1 + S k) with (S (length rs1) + k) by lia. rewrite (K2 k d Hd). destruct (is_handler d); [|reflexivity]. apply put_other. lia.
Qed.
