(** Vectors: programs, copies and comparisons. *)
From Verif Require Import Base ListLemmas Gpu_Model Gpu_Spec Gpu_Proofs Gpu_Proofs2.

Lemma memcpy_objs {A} (l : list A) : forall m, length l <= length m ->
  memcpy m l = Ret (map Obj l ++ skipn (length l) m).
Proof.
  induction l as [|a l IH]; intros m H; [now destruct m|].
  destruct m as [|c m]; cbn [length] in H; [lia|]. cbn [memcpy]. rewrite IH by lia. reflexivity.
Qed.
Lemma from_std_ok {A} (l : list A) : exists v, h_from_std l = Ret v /\ vok v l.
Proof.
  destruct l as [|a l]; [exists v_empty; split; [reflexivity|apply vok_empty]|].
  unfold h_from_std. rewrite memcpy_objs by (rewrite repeat_length; lia). cbn [obind].
  rewrite skipn_all2 by (rewrite repeat_length; lia).
  eexists. split; [reflexivity|]. constructor; cbn [v_mem v_cap v_size deref]; try lia; try discriminate.
  - exists []. reflexivity.
  - rewrite app_nil_r, map_length. lia.
Qed.

Section P.
Context {A : Type} (E : elem A) (sz : nat).
Let d := e_default E.

Lemma small_cons l o prog : small d l (o :: prog) ->
  (N.of_nat (length l) <= limit)%N /\ small d (list_op d l (snd o)) prog.
Proof. unfold small. cbn [lists_of]. intros H. apply Forall_cons_iff in H. exact H. Qed.
Lemma small_head l prog : small d l prog -> (N.of_nat (length l) <= limit)%N.
Proof. unfold small. destruct prog; cbn [lists_of]; intros H; apply Forall_cons_iff in H; tauto. Qed.
Lemma small_last : forall prog l, small d l prog -> (N.of_nat (length (list_run d l prog)) <= limit)%N.
Proof.
  induction prog as [|o prog IH]; intros l H; [exact (small_head _ _ H)|].
  apply small_cons in H. destruct H as [_ H]. exact (IH _ H).
Qed.

Lemma v_run_ok (T : e_triv E = true) (sz1 : 1 <= sz) : forall prog v l, vok v l -> fair prog -> small d l prog ->
  exists v', v_run E sz v prog = Ret v' /\ vok v' (list_run d l prog).
Proof.
  induction prog as [|[side o] prog IH]; intros v l V F S.
  - exists v. split; [reflexivity|assumption].
  - apply small_cons in S. destruct S as [S1 S2]. cbn [snd] in S2.
    apply Forall_cons_iff in F. destruct F as [F1 F2]. cbn [fst] in F1.
    unfold list_run. cbn [fold_left snd v_run].
    destruct side as [ord|].
    + destruct (h_op_ok E ord v l o F1 V S1 (small_head _ _ S2) (or_introl T)) as [v1 [-> V1]].
      cbn [obind]. now apply IH.
    + destruct (d_op_ok E sz sz1 v l o V T) as [v1 [-> V1]]. cbn [obind]. now apply IH.
Qed.
Lemma made_vok v l : e_triv E = true -> 1 <= sz -> made E sz v l -> vok v l /\ (N.of_nat (length l) <= limit)%N.
Proof.
  intros T Z [l0 [v0 [prog [F [Fa [Sm [R L]]]]]]].
  destruct (from_std_ok l0) as [v1 [F1 V1]]. rewrite F1 in F. injection F as <-.
  destruct (v_run_ok T Z prog v1 l0 V1 Fa Sm) as [v2 [R2 V2]]. rewrite R2 in R. injection R as <-.
  subst l. split; [assumption|]. now apply small_last.
Qed.

(** Class elements: only calls of the host, no erasing before the end. *)
Lemma v_run_host : forall prog v l, vok v l -> fair prog -> small d l prog -> only_tail d l prog ->
  exists v', v_run E sz v prog = Ret v' /\ vok v' (list_run d l prog).
Proof.
  induction prog as [|[side o] prog IH]; intros v l V F S T.
  - exists v. split; [reflexivity|assumption].
  - apply small_cons in S. destruct S as [S1 S2]. cbn [snd] in S2.
    apply Forall_cons_iff in F. destruct F as [F1 F2]. cbn [fst] in F1.
    cbn [only_tail fst snd] in T. destruct T as [T1 [T2 T3]].
    unfold list_run. cbn [fold_left snd v_run].
    destruct side as [ord|]; [|congruence].
    destruct (h_op_ok E ord v l o F1 V S1 (small_head _ _ S2) (or_intror T2)) as [v1 [-> V1]].
    cbn [obind]. now apply IH.
Qed.

Lemma alloc_deref n : deref (mkVec (@allocate A n) 0 0) = repeat Raw n.
Proof. destruct n; reflexivity. Qed.

Lemma fresh_vok (m : list (cell A)) n l rest : m = map Obj l ++ rest -> length m = n -> length l <= n ->
  vok (mkVec (match @allocate A n with Some _ => Some m | None => None end) n (length l)) l.
Proof.
  intros -> L H. constructor; cbn [v_mem v_cap v_size]; try lia.
  - destruct n; cbn [allocate deref v_mem]; [|now exists rest].
    exists []. destruct l; [reflexivity|cbn [length] in H; lia].
  - destruct n; cbn [allocate deref v_mem]; lia.
  - destruct n; cbn [allocate]; [reflexivity|discriminate].
Qed.

Lemma h_copy_ok ord (v : vec A) l : any_orders ord -> vok v l -> (N.of_nat (length l) <= limit)%N ->
  exists v', h_copy ord v = Ret v' /\ vok v' l.
Proof.
  intros O V S. destruct V as [[rest D] Sz Le Cap Nul]. unfold h_copy. rewrite alloc_deref, Sz.
  rewrite (copy_construct_ok E ord 0 _ 0 l _ rest) by (try assumption; rewrite repeat_length; lia).
  cbn [obind]. eexists. split; [reflexivity|].
  eapply fresh_vok; [unfold span; cbn [firstn app]; reflexivity| |assumption].
  change (map Obj l ++ skipn (0 + length (map (@Obj A) l)) (repeat Raw (v_cap v))) with (span (repeat Raw (v_cap v)) 0 (map (@Obj A) l)).
  rewrite span_length; rewrite repeat_length; [reflexivity|]. rewrite map_length. lia.
Qed.

Lemma h_copy_assign_ok ord v l v2 l2 : any_orders ord -> vok v l -> vok v2 l2 ->
  (N.of_nat (length l) <= limit)%N -> (N.of_nat (length l2) <= limit)%N ->
  exists v', h_copy_assign E ord v v2 = Ret v' /\ vok v' l2.
Proof.
  intros O V V2 S S2. destruct V2 as [[rest D] Sz Le Cap Nul]. unfold h_copy_assign. rewrite alloc_deref, Sz.
  rewrite (copy_construct_ok E ord 0 _ 0 l2 _ rest) by (try assumption; rewrite repeat_length; lia).
  cbn [obind]. destruct (h_clear_ok E ord 1 v l O V S) as [v1 [-> _]]. cbn [obind].
  eexists. split; [reflexivity|].
  eapply fresh_vok; [unfold span; cbn [firstn app]; reflexivity| |lia].
  change (map Obj l2 ++ skipn (0 + length (map (@Obj A) l2)) (repeat Raw (length l2))) with (span (repeat Raw (length l2)) 0 (map (@Obj A) l2)).
  rewrite span_length; rewrite repeat_length; [reflexivity|]. rewrite map_length. lia.
Qed.

Lemma h_move_assign_ok ord v l v2 l2 : any_orders ord -> vok v l -> vok v2 l2 ->
  (N.of_nat (length l) <= limit)%N -> h_move_assign E ord v v2 = Ret (v2, v_empty).
Proof.
  intros O V V2 S. unfold h_move_assign. destruct (h_clear_ok E ord 0 v l O V S) as [v1 [-> _]]. reflexivity.
Qed.

Lemma h_assign_std_ok ord v l l2 : any_orders ord -> e_triv E = true -> vok v l ->
  (N.of_nat (length l) <= limit)%N -> exists v', h_assign_std E ord v l2 = Ret v' /\ vok v' l2.
Proof.
  intros O T V S. unfold h_assign_std.
  destruct (h_clear_ok E ord 0 v l O V S) as [v1 [-> [V1 _]]]. cbn [obind].
  destruct (h_reserve_ok E ord 1 v1 [] (length l2) O V1 ltac:(cbn; lia)) as [v2 [-> [V2 C2]]]. cbn [obind].
  rewrite T. destruct V2 as [[rest D] Sz Le Cap Nul].
  rewrite memcpy_objs by lia. cbn [obind]. eexists. split; [reflexivity|].
  eapply vok_with; [reflexivity| |assumption|assumption|lia].
  rewrite app_length, map_length, skipn_length. lia.
Qed.

Lemma read_all_raw n : forall (m : list (cell A)) i, (forall j, nth_error m j = Some Raw \/ nth_error m j = None) ->
  0 < n -> read_all m i n = UB.
Proof.
  intros m i H Hn. destruct n; [lia|]. cbn [read_all]. unfold read.
  destruct (H i) as [-> | ->]; reflexivity.
Qed.

(** A vector without elements whose memory has been emptied by the destructors
    or never used. *)
Lemma launch_none {T} (ord : orders) k (body : nat -> T -> outcome T) s : any_orders ord -> launch ord k 0 body s = Ret s.
Proof.
  intros O. destruct (launch_visits ord k 0 body s O ltac:(cbn; lia)) as [l1 [P1 R1]].
  apply Permutation_sym, Permutation_nil in P1. subst l1. exact R1.
Qed.
Lemma h_assign_std_class ord l2 : any_orders ord -> e_triv E = false -> l2 <> [] ->
  exists v', h_assign_std E ord (@v_empty A) l2 = Ret v' /\ v_size v' = length l2 /\ to_std v' = UB.
Proof.
  intros O T Hl. unfold h_assign_std. unfold h_clear. cbn [v_empty v_size Nat.eqb obind].
  destruct l2 as [|a l2]; [congruence|].
  unfold h_reserve. cbn [length v_cap Nat.leb allocate deref v_mem v_size v_empty].
  unfold copy_construct_kernel, destruct_kernel. rewrite launch_none by assumption. cbn [obind].
  rewrite launch_none by assumption. cbn [obind v_size deref v_mem]. rewrite T, launch_none by assumption. cbn [obind].
  eexists. split; [reflexivity|]. split; [reflexivity|].
  unfold to_std, with_mem. cbn [v_mem v_size deref]. apply read_all_raw; [|lia].
  intros j. destruct (nth_error (repeat (@Raw A) (S (length l2))) j) eqn:N; [|now right].
  apply nth_error_In, repeat_spec in N. left. congruence.
Qed.

Lemma d_copy_ok v l : vok v l -> (e_triv E = true \/ l = []) -> exists v', d_copy E v = Ret v' /\ vok v' l.
Proof.
  intros V T. destruct V as [[rest D] Sz Le Cap Nul]. unfold d_copy. rewrite alloc_deref, Sz.
  destruct T as [T| ->].
  - rewrite (loop_span _ (fun i => Obj (nth i l d))).
    + cbn [obind]. eexists. split; [reflexivity|]. rewrite map_nth_all.
      eapply fresh_vok; [unfold span; cbn [firstn app]; reflexivity| |assumption].
      change (map Obj l ++ skipn (0 + length (map (@Obj A) l)) (repeat Raw (v_cap v))) with (span (repeat Raw (v_cap v)) 0 (map (@Obj A) l)).
      rewrite span_length; rewrite repeat_length; [reflexivity|]. rewrite map_length. lia.
    + rewrite repeat_length. lia.
    + intros i m' Hi Lm Nm. cbn [Nat.add] in *.
      assert (N : nth_error l i = Some (nth i l d)) by (apply nth_error_nth'; assumption).
      rewrite D, (read_obj _ _ _ _ N). cbn [obind].
      destruct (nth_error m' i) as [c|] eqn:Nc.
      * apply (assign_upd E m' i c); auto.
      * apply nth_error_None in Nc. rewrite Lm, repeat_length in Nc. lia.
  - cbn [length loop obind]. eexists. split; [reflexivity|].
    apply (fresh_vok _ _ [] (repeat Raw (v_cap v))); [reflexivity|apply repeat_length|cbn; lia].
Qed.
Lemma d_copy_class v l : vok v l -> e_triv E = false -> l <> [] -> d_copy E v = UB.
Proof.
  intros V T Hl. destruct V as [[rest D] Sz Le Cap Nul]. unfold d_copy. rewrite alloc_deref, Sz.
  destruct l as [|a l]; [congruence|]. cbn [length loop]. rewrite D. cbn [map app read nth_error obind].
  unfold read. cbn [nth_error obind]. unfold assign.
  destruct (v_cap v); [cbn [length] in Le; lia|]. cbn [repeat nth_error]. now rewrite T.
Qed.
Lemma d_copy_assign_ok v l v2 l2 : vok v l -> vok v2 l2 ->
  exists v', d_copy_assign E v v2 = Ret v' /\ vok v' l2.
Proof.
  intros V V2. destruct V2 as [[rest D] Sz Le Cap Nul]. unfold d_copy_assign. rewrite alloc_deref, Sz.
  rewrite (loop_span _ (fun i => Obj (nth i l2 d))).
  - cbn [obind]. destruct (d_clear_ok E 1 (le_n 1) v l V) as [v1 [-> _]]. cbn [obind].
    eexists. split; [reflexivity|]. rewrite map_nth_all.
    eapply fresh_vok; [unfold span; cbn [firstn app]; reflexivity| |lia].
    change (map Obj l2 ++ skipn (0 + length (map (@Obj A) l2)) (repeat Raw (length l2))) with (span (repeat Raw (length l2)) 0 (map (@Obj A) l2)).
    rewrite span_length; rewrite repeat_length; [reflexivity|]. rewrite map_length. lia.
  - rewrite repeat_length. lia.
  - intros i m' Hi Lm Nm. cbn [Nat.add] in *. rewrite repeat_length in Lm.
    assert (N : nth_error l2 i = Some (nth i l2 d)) by (apply nth_error_nth'; assumption).
    unfold construct. rewrite write_upd by lia. cbn [obind]. rewrite D, (read_obj _ _ _ _ N). cbn [obind].
    rewrite (assign_upd E _ i (Obj d)).
    + f_equal. apply nth_error_ext. intros j. rewrite !nth_upd_cell by (rewrite ?upd_length; lia).
      now destruct (j =? i).
    + rewrite nth_upd_cell by lia. now rewrite Nat.eqb_refl.
    + discriminate.
Qed.

(** Comparison. *)
Lemma h_equal_ok v l v2 l2 : vok v l -> vok v2 l2 ->
  h_equal E v v2 = Ret ((length l =? length l2) &&
                        match l, l2 with a :: _, b :: _ => e_eqb E a b | _, _ => true end).
Proof.
  intros [[r1 D1] S1 _ _ _] [[r2 D2] S2 _ _ _]. unfold h_equal. rewrite S1, S2, D1, D2.
  destruct (Nat.eqb_spec (length l) (length l2)) as [H|H]; cbn [negb andb]; [|reflexivity].
  change (grid (1, 1)%N) with [(0, 0)]%N. cbn [run_threads].
  change (thread_index 1 (0, 0)%N) with 0%N.
  destruct l as [|a l], l2 as [|b l2]; cbn [length] in *; try lia; [reflexivity|].
  destruct (N.ltb_spec 0 (N.of_nat (S (length l)))); [|lia].
  change (N.to_nat 0) with 0. unfold read. cbn [map app nth_error obind]. now destruct (e_eqb E a b).
Qed.
Lemma d_equal_ok v l v2 l2 : vok v l -> vok v2 l2 ->
  d_equal E v v2 = Ret ((length l =? length l2) && forallb (fun ab => e_eqb E (fst ab) (snd ab)) (combine l l2)).
Proof.
  intros [[r1 D1] S1 _ _ _] [[r2 D2] S2 _ _ _]. unfold d_equal. rewrite S1, S2, D1, D2.
  destruct (Nat.eqb_spec (length l) (length l2)) as [H|H]; cbn [negb andb]; [|reflexivity].
  assert (G : forall l l2 p p2, length l = length l2 -> length p = length p2 ->
    d_equal_from E (map Obj (p ++ l) ++ r1) (map Obj (p2 ++ l2) ++ r2) (length p) (length l) =
    Ret (forallb (fun ab => e_eqb E (fst ab) (snd ab)) (combine l l2))).
  { clear. induction l as [|a l IH]; intros [|b l2] p p2 H Hp; cbn [length] in H; try lia; [reflexivity|].
    cbn [length d_equal_from combine forallb fst snd].
    rewrite (read_obj _ _ _ a) by (rewrite nth_error_app2, Nat.sub_diag by lia; reflexivity). cbn [obind].
    rewrite (read_obj _ _ _ b) by (rewrite nth_error_app2 by lia; replace (length p - length p2) with 0 by lia; reflexivity).
    cbn [obind]. destruct (e_eqb E a b); cbn [negb andb]; [|reflexivity].
    specialize (IH l2 (p ++ [a]) (p2 ++ [b]) ltac:(lia) ltac:(rewrite !app_length; cbn [length]; lia)).
    rewrite <- !app_assoc in IH. cbn [app] in IH. rewrite app_length in IH. cbn [length] in IH.
    rewrite Nat.add_1_r in IH. exact IH. }
  exact (G l l2 [] [] H eq_refl).
Qed.

(** Copies between the memories. *)
Lemma actualized_ok ord (v : vec A) l : any_orders ord -> vok v l -> (N.of_nat (length l) <= limit)%N ->
  (l <> [] \/ v_cap v = 0) -> exists v', actualized ord v = Ret v' /\ vok v' l.
Proof.
  intros O V S H. destruct V as [[rest D] Sz Le Cap Nul]. unfold actualized.
  destruct (Nat.eqb_spec (v_size v) 0) as [H0|H0].
  - destruct l; [|cbn [length] in *; lia]. destruct H as [H|H]; [congruence|].
    eexists. split; [reflexivity|]. rewrite H. apply vok_empty.
  - rewrite alloc_deref, Sz.
    rewrite (copy_construct_ok E ord 0 _ 0 l _ rest) by (try assumption; rewrite repeat_length; lia).
    cbn [obind]. eexists. split; [reflexivity|].
    constructor; cbn [v_mem v_cap v_size deref]; try lia; try discriminate.
    + eexists. unfold span. cbn [firstn app]. reflexivity.
    + rewrite span_length; rewrite repeat_length; [lia|]. rewrite map_length. lia.
Qed.
Lemma actualized_empty ord ord' (v : vec A) a : any_orders ord' -> v_size v = 0 -> 0 < v_cap v ->
  exists v', actualized ord v = Ret v' /\ contains v' [] /\ h_push E ord' v' a = UB /\ d_push E sz v' a = UB.
Proof.
  intros O S C. unfold actualized. rewrite S. cbn [Nat.eqb]. eexists. split; [reflexivity|].
  split; [split; reflexivity|]. split.
  - unfold h_push. cbn [v_size v_cap]. destruct (Nat.eqb_spec 0 (v_cap v)); [lia|]. cbn [obind v_size].
    unfold h_resize. cbn [v_size Nat.add Nat.eqb Nat.ltb Nat.leb]. unfold h_reserve. cbn [v_cap].
    destruct (Nat.leb_spec 1 (v_cap v)); [|lia]. cbn [obind v_size Nat.sub deref v_mem].
    unfold construct_kernel. rewrite launch_UB; [reflexivity|assumption|change limit with 4294967296%N; lia|lia|].
    intros i Hi. unfold construct, write. reflexivity.
  - unfold d_push. cbn [v_size v_cap]. destruct (Nat.eqb_spec 0 (v_cap v)); [lia|]. reflexivity.
Qed.
End P.
