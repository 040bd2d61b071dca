(** Kernels reach every element once. *)
From Verif Require Import Base ListLemmas Gpu_Model Gpu_Spec.

Lemma numbers_S b : numbers (N.succ b) = numbers b ++ [b].
Proof.
  unfold numbers. rewrite N2Nat.inj_succ, seq_S, map_app. cbn [map Nat.add].
  now rewrite N2Nat.id.
Qed.
Lemma seq_plus b : forall a, seq a b = map (Nat.add a) (seq 0 b).
Proof.
  induction b as [|b IH]; intros a; [reflexivity|]. cbn [seq map]. f_equal; [lia|].
  rewrite (IH (S a)), (IH 1), map_map. apply map_ext. intros. lia.
Qed.
Lemma numbers_add a b : numbers (a + b) = numbers a ++ map (N.add a) (numbers b).
Proof.
  unfold numbers. rewrite N2Nat.inj_add, seq_app, map_app. f_equal.
  rewrite map_map. cbn [Nat.add]. rewrite seq_plus, map_map. apply map_ext. intros. lia.
Qed.
Lemma numbers_In n i : In i (numbers n) <-> (i < n)%N.
Proof.
  unfold numbers. rewrite in_map_iff. split.
  - intros [x [<- H]]. apply in_seq in H. lia.
  - intros H. exists (N.to_nat i). split; [lia|]. apply in_seq. lia.
Qed.
Lemma numbers_NoDup n : NoDup (numbers n).
Proof.
  unfold numbers. apply FinFun.Injective_map_NoDup; [|apply seq_NoDup].
  intros x y H. lia.
Qed.
Lemma numbers_nat n : map N.to_nat (numbers (N.of_nat n)) = seq 0 n.
Proof.
  unfold numbers. rewrite map_map, Nat2N.id. rewrite <- (map_id (seq 0 n)) at 2.
  apply map_ext. intros. lia.
Qed.

Lemma grid_S b th : grid (N.succ b, th) = grid (b, th) ++ map (pair b) (numbers th).
Proof.
  unfold grid. cbn [fst snd]. rewrite numbers_S, flat_map_app. cbn [flat_map]. now rewrite app_nil_r.
Qed.
Lemma grid_In b th t : In t (grid (b, th)) <-> (fst t < b /\ snd t < th)%N.
Proof.
  unfold grid. rewrite in_flat_map. cbn [fst snd]. split.
  - intros [x [Hx H]]. apply numbers_In in Hx. apply in_map_iff in H. destruct H as [y [<- Hy]].
    apply numbers_In in Hy. auto.
  - intros [H1 H2]. exists (fst t). split; [now apply numbers_In|]. apply in_map_iff.
    exists (snd t). split; [now destruct t|now apply numbers_In].
Qed.

Lemma grid_indexes b th : (b * th <= limit)%N ->
  map (thread_index th) (grid (b, th)) = numbers (b * th).
Proof.
  induction b as [|b IH] using N.peano_ind; intros H.
  - reflexivity.
  - rewrite grid_S, map_app, IH by lia.
    rewrite N.mul_succ_l, numbers_add. f_equal. rewrite map_map.
    apply map_ext_in. intros t Ht. apply numbers_In in Ht.
    unfold thread_index, w32. cbn [fst snd].
    change two32 with limit. rewrite (N.mod_small (b * th)) by nia.
    apply N.mod_small. nia.
Qed.

Lemma config_small n : (n <= limit)%N ->
  (let (b, th) := blocks_config n 256 in
   n <= b * th /\ b * th <= limit /\ (n = 0 -> b = 0) /\ th <= 256)%N.
Proof.
  intros H. change limit with 4294967296%N in *. unfold blocks_config, w64.
  change two64 with 18446744073709551616%N.
  rewrite N.mod_small by lia.
  pose proof (N.div_mod (n + 256 - 1) 256 ltac:(lia)) as D.
  pose proof (N.mod_lt (n + 256 - 1) 256 ltac:(lia)) as M.
  set (q := ((n + 256 - 1) / 256)%N) in *. set (r := ((n + 256 - 1) mod 256)%N) in *.
  destruct (N.min_spec n 256) as [[Hl ->]|[Hl ->]].
  - assert (n = 0 \/ q = 1)%N as [->|Hq] by lia; [|rewrite Hq].
    + replace q with 0%N by lia. lia.
    + lia.
  - repeat split; try lia.
Qed.

Lemma filter_numbers n m : (n <= m)%N -> filter (fun i => (i <? n)%N) (numbers m) = numbers n.
Proof.
  intros H. replace m with (n + (m - n))%N by lia. rewrite numbers_add, filter_app.
  assert (F1 : forall l, (forall i, In i l -> (i < n)%N) -> filter (fun i => (i <? n)%N) l = l).
  { induction l as [|x l IH]; intros Hl; [reflexivity|]. cbn [filter].
    destruct (N.ltb_spec x n); [|specialize (Hl x (or_introl eq_refl)); lia].
    f_equal. apply IH. intros. apply Hl. now right. }
  assert (F2 : forall l, (forall i, In i l -> (n <= i)%N) -> filter (fun i => (i <? n)%N) l = []).
  { induction l as [|x l IH]; intros Hl; [reflexivity|]. cbn [filter].
    destruct (N.ltb_spec x n); [specialize (Hl x (or_introl eq_refl)); lia|].
    apply IH. intros. apply Hl. now right. }
  rewrite F1 by (intros i Hi; now apply numbers_In).
  rewrite F2; [apply app_nil_r|]. intros i Hi. apply in_map_iff in Hi. destruct Hi as [x [<- _]]. lia.
Qed.

Lemma Permutation_filter_N (f : N -> bool) l l' : Permutation l l' -> Permutation (filter f l) (filter f l').
Proof.
  induction 1; cbn [filter]; try reflexivity.
  - now destruct (f x); [constructor|].
  - destruct (f x), (f y); try reflexivity. constructor.
  - etransitivity; eassumption.
Qed.

Lemma touched_once n order : (n <= limit)%N -> any_order_of (blocks_config n 256) order ->
  Permutation (touched order (snd (blocks_config n 256)) n) (numbers n).
Proof.
  intros H P. unfold touched, any_order_of in *.
  rewrite (Permutation_filter_N _ _ _ (Permutation_map (thread_index (snd (blocks_config n 256))) P)).
  pose proof (config_small n H) as C. destruct (blocks_config n 256) as [b th]. cbn [snd] in *.
  rewrite grid_indexes by lia. now rewrite filter_numbers by lia.
Qed.

(** ** A launch as a fold over the indexes *)
Fixpoint ofold {T} (body : nat -> T -> outcome T) (l : list nat) (s : T) : outcome T :=
  match l with [] => Ret s | i :: r => obind (body i s) (ofold body r) end.

Lemma run_threads_ofold {T} (body : nat -> T -> outcome T) th n order s :
  run_threads order th n body s = ofold body (map N.to_nat (touched order th (N.of_nat n))) s.
Proof.
  revert s. induction order as [|t o IH]; intros s; [reflexivity|].
  unfold touched. cbn [run_threads map filter].
  destruct (thread_index th t <? N.of_nat n)%N; cbn [map ofold].
  - destruct (body _ s); cbn [obind]; [apply IH|reflexivity|reflexivity].
  - apply IH.
Qed.
Lemma launch_visits {T} ord k n (body : nat -> T -> outcome T) s :
  any_orders ord -> (N.of_nat n <= limit)%N ->
  exists l, Permutation l (seq 0 n) /\ launch ord k n body s = ofold body l s.
Proof.
  intros O H. unfold launch. rewrite run_threads_ofold. eexists. split; [|reflexivity].
  rewrite <- numbers_nat. apply Permutation_map. apply touched_once; [assumption|apply O].
Qed.

(** ** Cells *)
Definition upd {A} (m : list A) (i : nat) (c : A) : list A := firstn i m ++ c :: skipn (S i) m.
Lemma put_cell_upd {A} (m : list (cell A)) i c : i < length m -> put_cell m i c = Some (upd m i c).
Proof.
  revert i. induction m as [|x m IH]; intros i H; cbn [length] in H; [lia|].
  destruct i; cbn [put_cell]; [reflexivity|]. rewrite IH by lia. reflexivity.
Qed.
Lemma write_upd {A} (m : list (cell A)) i c : i < length m -> write m i c = Ret (upd m i c).
Proof. intros H. unfold write. now rewrite put_cell_upd. Qed.
Lemma nth_upd_cell {A} (m : list A) i c j : i < length m ->
  nth_error (upd m i c) j = if j =? i then Some c else nth_error m j.
Proof.
  intros H. unfold upd. destruct (Nat.eqb_spec j i) as [->|Hn].
  - rewrite nth_error_app2; rewrite firstn_length_le by lia; [|lia]. now rewrite Nat.sub_diag.
  - destruct (Nat.lt_ge_cases j i).
    + rewrite nth_error_app1 by (rewrite firstn_length_le; lia). now apply nth_error_firstn_lt.
    + rewrite nth_error_app2; rewrite firstn_length_le by lia; [|lia].
      destruct (j - i) as [|d] eqn:D; [lia|]. cbn [nth_error]. rewrite nth_error_skipn_plus.
      f_equal. lia.
Qed.
Lemma upd_length {A} (m : list A) i c : i < length m -> length (upd m i c) = length m.
Proof. intros H. unfold upd. rewrite app_length, firstn_length_le by lia. cbn [length]. rewrite skipn_length. lia. Qed.

(** Replace the cells [off .. off+n). *)
Definition span {A} (m : list A) (off : nat) (new : list A) : list A :=
  firstn off m ++ new ++ skipn (off + length new) m.
Lemma nth_span {A} (m : list A) off new j : off + length new <= length m ->
  nth_error (span m off new) j =
  if (off <=? j) && (j <? off + length new) then nth_error new (j - off) else nth_error m j.
Proof.
  intros H. unfold span.
  destruct (Nat.leb_spec off j); destruct (Nat.ltb_spec j (off + length new)); cbn [andb].
  - rewrite nth_error_app2; rewrite firstn_length_le by lia; [|lia]. rewrite nth_error_app1 by lia. reflexivity.
  - rewrite nth_error_app2; rewrite firstn_length_le by lia; [|lia]. rewrite nth_error_app2 by lia.
    rewrite nth_error_skipn_plus. f_equal. lia.
  - rewrite nth_error_app1 by (rewrite firstn_length_le; lia). apply nth_error_firstn_lt. lia.
  - lia.
Qed.
Lemma span_length {A} (m : list A) off new : off + length new <= length m -> length (span m off new) = length m.
Proof. intros H. unfold span. rewrite !app_length, firstn_length_le, skipn_length by lia. lia. Qed.

(** A body that writes cell [off + i] with a value that depends on the cell it
    finds there. *)
Lemma ofold_cells {A} (body : nat -> list A -> outcome (list A)) (f : nat -> A) m0 off : forall l m,
  NoDup l -> length m = length m0 ->
  (forall i, In i l -> nth_error m (off + i) = nth_error m0 (off + i)) ->
  (forall i m', In i l -> length m' = length m0 -> nth_error m' (off + i) = nth_error m0 (off + i) ->
     off + i < length m0 /\ body i m' = Ret (upd m' (off + i) (f i))) ->
  exists m', ofold body l m = Ret m' /\ length m' = length m0 /\
    forall j, nth_error m' j = if existsb (fun i => j =? off + i) l then Some (f (j - off)) else nth_error m j.
Proof.
  induction l as [|i l IH]; intros m ND L H B.
  - exists m. repeat split; assumption.
  - apply NoDup_cons_iff in ND. destruct ND as [Hi ND].
    destruct (B i m (or_introl eq_refl) L (H i (or_introl eq_refl))) as [Hlt Hb].
    cbn [ofold]. rewrite Hb. cbn [obind].
    destruct (IH (upd m (off + i) (f i))) as [m' [E [L' N']]].
    + assumption.
    + rewrite upd_length; lia.
    + intros x Hx. rewrite nth_upd_cell by lia.
      destruct (Nat.eqb_spec (off + x) (off + i)); [|apply H; now right].
      exfalso. apply Hi. now replace i with x by lia.
    + intros x m'' Hx. apply B. now right.
    + exists m'. split; [assumption|]. split; [assumption|]. intros j. rewrite N'.
      cbn [existsb]. rewrite nth_upd_cell by lia.
      destruct (existsb (fun x => j =? off + x) l) eqn:Ex.
      * now rewrite orb_true_r.
      * rewrite orb_false_r. destruct (Nat.eqb_spec j (off + i)) as [->|]; [|reflexivity].
        now replace (off + i - off) with i by lia.
Qed.

Lemma cells_span {A} (m m' : list A) (f : nat -> A) off n l :
  Permutation l (seq 0 n) -> off + n <= length m ->
  (forall j, nth_error m' j = if existsb (fun i => j =? off + i) l then Some (f (j - off)) else nth_error m j) ->
  m' = span m off (map f (seq 0 n)).
Proof.
  intros P H N. apply nth_error_ext. intros j. rewrite N.
  rewrite nth_span by (rewrite map_length, seq_length; lia). rewrite map_length, seq_length.
  assert (E : existsb (fun i => j =? off + i) l = (off <=? j) && (j <? off + n)).
  { apply eq_iff_eq_true. rewrite existsb_exists, andb_true_iff, Nat.leb_le, Nat.ltb_lt. split.
    - intros [i [Hi Hj]]. apply Nat.eqb_eq in Hj. apply (Permutation_in _ P), in_seq in Hi. lia.
    - intros Hj. exists (j - off). split; [|apply Nat.eqb_eq; lia].
      apply (Permutation_in _ (Permutation_sym P)), in_seq. lia. }
  rewrite E. destruct ((off <=? j) && (j <? off + n)) eqn:B; [|reflexivity].
  apply andb_true_iff in B. rewrite Nat.leb_le, Nat.ltb_lt in B.
  rewrite nth_error_map, nth_error_nth' with (d := 0) by (rewrite seq_length; lia).
  rewrite seq_nth by lia. reflexivity.
Qed.

Lemma ofold_span {A} (body : nat -> list A -> outcome (list A)) (f : nat -> A) m off n l :
  Permutation l (seq 0 n) -> off + n <= length m ->
  (forall i m', i < n -> length m' = length m -> nth_error m' (off + i) = nth_error m (off + i) ->
     body i m' = Ret (upd m' (off + i) (f i))) ->
  ofold body l m = Ret (span m off (map f (seq 0 n))).
Proof.
  intros P H B.
  destruct (ofold_cells body f m off l m) as [m' [E [L N]]].
  - apply (Permutation_NoDup (Permutation_sym P)), seq_NoDup.
  - reflexivity.
  - reflexivity.
  - intros i m' Hi L N. apply (Permutation_in _ P), in_seq in Hi. split; [lia|]. apply B; auto; lia.
  - rewrite E. f_equal. now apply (cells_span m m' f off n l).
Qed.

Lemma launch_span {A} ord k (body : nat -> list A -> outcome (list A)) (f : nat -> A) m off n :
  any_orders ord -> (N.of_nat n <= limit)%N -> off + n <= length m ->
  (forall i m', i < n -> length m' = length m -> nth_error m' (off + i) = nth_error m (off + i) ->
     body i m' = Ret (upd m' (off + i) (f i))) ->
  launch ord k n body m = Ret (span m off (map f (seq 0 n))).
Proof.
  intros O S H B. destruct (launch_visits ord k n body m O S) as [l [P ->]].
  now apply ofold_span.
Qed.

(** A body that is undefined everywhere. *)
Lemma launch_UB {T} ord k (body : nat -> T -> outcome T) n s :
  any_orders ord -> (N.of_nat n <= limit)%N -> 0 < n ->
  (forall i, i < n -> body i s = UB) -> launch ord k n body s = UB.
Proof.
  intros O S H B. destruct (launch_visits ord k n body s O S) as [l [P ->]].
  destruct l as [|i l]; [apply Permutation_nil in P; destruct n; [lia|discriminate]|].
  cbn [ofold]. rewrite B; [reflexivity|].
  assert (Hi : In i (seq 0 n)) by (eapply Permutation_in; [exact P|now left]). apply in_seq in Hi. lia.
Qed.

(** The loops of the device. *)
Lemma loop_ofold {T} (body : nat -> T -> outcome T) n : forall i s, loop n i body s = ofold body (seq i n) s.
Proof.
  induction n as [|n IH]; intros i s; [reflexivity|]. cbn [loop seq ofold].
  destruct (body i s); cbn [obind]; auto.
Qed.
Lemma ofold_shift {T} (body : nat -> T -> outcome T) k : forall n i s,
  ofold body (seq (k + i) n) s = ofold (fun x => body (k + x)) (seq i n) s.
Proof.
  induction n as [|n IH]; intros i s; [reflexivity|]. cbn [seq ofold].
  destruct (body (k + i) s); cbn [obind]; auto. rewrite <- Nat.add_succ_r. apply IH.
Qed.
Lemma loop_span {A} (body : nat -> list A -> outcome (list A)) (f : nat -> A) m off n :
  off + n <= length m ->
  (forall i m', i < n -> length m' = length m -> nth_error m' (off + i) = nth_error m (off + i) ->
     body (off + i) m' = Ret (upd m' (off + i) (f i))) ->
  loop n off body m = Ret (span m off (map f (seq 0 n))).
Proof.
  intros H B. rewrite loop_ofold. rewrite <- (Nat.add_0_r off) at 1. rewrite ofold_shift.
  apply ofold_span; auto.
Qed.
