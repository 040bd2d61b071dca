(** The device library of the CUDA backend: C91 - C95. *)
From Verif Require Import Base Gpu_Model Gpu_Spec Gpu_Proofs Gpu_Proofs2 Gpu_Proofs3.

(** ** C91: every element is worked on exactly once *)
Theorem c91_each_once : forall n order, (n <= 2 ^ 32)%N ->
  Permutation order (grid (blocks_config n 256)) ->
  NoDup (touched order (snd (blocks_config n 256)) n) /\
  (forall i, In i (touched order (snd (blocks_config n 256)) n) <-> (i < n)%N).
Proof.
  intros n order H P. pose proof (touched_once n order H P) as T. split.
  - eapply Permutation_NoDup; [apply Permutation_sym, T|apply numbers_NoDup].
  - intros i. rewrite <- numbers_In. split; intros X; [exact (Permutation_in _ T X)|exact (Permutation_in _ (Permutation_sym T) X)].
Qed.
(** The same of the effects: the bodies of the kernel are executed for the
    elements 0, ..., n-1, one after the other in some order. *)
Theorem c91_launch : forall (T : Type) ord k n (body : nat -> T -> outcome T) s,
  (forall k n, Permutation (ord k n) (grid (blocks_config (N.of_nat n) 256))) -> (N.of_nat n <= 2 ^ 32)%N ->
  exists l, Permutation l (seq 0 n) /\
    launch ord k n body s = fold_left (fun r i => obind r (body i)) l (Ret s).
Proof.
  intros T ord k n body s O H. destruct (launch_visits ord k n body s O H) as [l [P R]].
  exists l. split; [exact P|]. rewrite R. clear - l.
  assert (B : forall l (o : outcome T), (forall x, o <> Ret x) -> fold_left (fun r i => obind r (body i)) l o = o).
  { clear. induction l as [|i l IH]; intros o H; [reflexivity|]. cbn [fold_left].
    assert (X : obind o (body i) = o) by (destruct o; [now destruct (H a)|reflexivity|reflexivity]).
    rewrite X. now apply IH. }
  revert s. induction l as [|i l IH]; intros s; [reflexivity|]. cbn [ofold fold_left obind].
  destruct (body i s) as [s'| |]; cbn [obind]; [apply IH| |]; symmetry; apply B; discriminate.
Qed.
(** The driver's limits are respected and no launch is empty. *)
Theorem c91_config : forall n, (n <= 2 ^ 32)%N ->
  (snd (blocks_config n 256) <= 256 /\ fst (blocks_config n 256) <= 2 ^ 24 /\
   (n <> 0 -> 1 <= fst (blocks_config n 256) /\ 1 <= snd (blocks_config n 256)))%N.
Proof.
  intros n H. unfold blocks_config. cbn [fst snd].
  assert (W : w64 (n + 256 - 1) = (n + 255)%N).
  { unfold w64. change two64 with (2 ^ 64)%N. rewrite N.mod_small by (change (2^64)%N with 18446744073709551616%N; change (2^32)%N with 4294967296%N in *; lia). lia. }
  rewrite W. split; [lia|]. split.
  - transitivity ((2 ^ 32 + 255) / 256)%N; [apply N.div_le_mono; lia|]. apply N.leb_le. vm_compute. reflexivity.
  - intros Hn. split; [|lia]. change 1%N with (256 / 256)%N at 1. apply N.div_le_mono; lia.
Qed.

Lemma twice_in {B C} (f : B -> C) (p : C -> bool) l a b : In a l -> In b l -> a <> b -> f a = f b -> p (f a) = true ->
  ~ NoDup (filter p (map f l)).
Proof.
  induction l as [|x l IH]; [easy|]. intros Ha Hb Hab Hf Hp. cbn [map filter].
  destruct Ha as [->|Ha].
  - rewrite Hp. inversion 1 as [|y r N _ ]. apply N. apply filter_In. split; [|assumption].
    destruct Hb as [Hb|Hb]; [congruence|]. rewrite Hf. now apply in_map.
  - destruct Hb as [->|Hb].
    + rewrite <- Hf, Hp. inversion 1 as [|y r N _ ]. apply N. apply filter_In. split; [|assumption]. now apply in_map.
    + specialize (IH Ha Hb Hab Hf Hp). destruct (p (f x)); [inversion 1; auto|assumption].
Qed.
(** Beyond that the property fails: the elements from 2^32 on are never worked
    on and the first element is worked on more than once, in every order. *)
Theorem c91_large_refuted : forall n order, (2 ^ 32 < n)%N -> (n + 256 <= 2 ^ 64)%N ->
  Permutation order (grid (blocks_config n 256)) ->
  (forall i, (2 ^ 32 <= i)%N -> ~ In i (touched order (snd (blocks_config n 256)) n)) /\
  ~ NoDup (touched order (snd (blocks_config n 256)) n).
Proof.
  intros n order H1 H2 P. split.
  - intros i Hi Hx. apply filter_In in Hx. destruct Hx as [Hx _]. apply in_map_iff in Hx.
    destruct Hx as [t [<- _]]. unfold thread_index, w32 in Hi.
    match type of Hi with (_ <= ?a mod _)%N => pose proof (N.mod_lt a two32 ltac:(discriminate)) as M end.
    change two32 with (2 ^ 32)%N in M at 2. apply N.lt_nge in M. now apply M.
  - assert (C : snd (blocks_config n 256) = 256%N).
    { unfold blocks_config. cbn [snd]. apply N.min_r. change (2^32)%N with 4294967296%N in H1. lia. }
    assert (B : (2 ^ 24 < fst (blocks_config n 256))%N).
    { unfold blocks_config. cbn [fst]. unfold w64. rewrite N.mod_small.
      - apply N.lt_le_trans with ((2 ^ 32 + 256) / 256)%N; [vm_compute; reflexivity|]. apply N.div_le_mono; lia.
      - change two64 with (2 ^ 64)%N. lia. }
    rewrite (surjective_pairing (blocks_config n 256)) in P.
    unfold touched. apply (twice_in _ _ _ (0, 0)%N (2 ^ 24, 0)%N).
    + eapply Permutation_in; [apply Permutation_sym, P|]. apply grid_In. rewrite C. cbn [fst snd]. lia.
    + eapply Permutation_in; [apply Permutation_sym, P|]. apply grid_In. rewrite C. cbn [fst snd]. lia.
    + discriminate.
    + rewrite C. reflexivity.
    + rewrite C. change (thread_index 256 (0, 0)%N) with 0%N. apply N.ltb_lt. lia.
Qed.
(** A vector of 600 elements: three blocks, a third of whose threads return. *)
Example c91_case : blocks_config 600 256 = (3, 256)%N /\ (600 <= 2 ^ 32)%N /\
  touched (rev (grid (3, 256)%N)) 256 600 = rev (numbers 600).
Proof. repeat split; vm_compute; congruence. Qed.

(** ** C92: vectors of plain data *)
Theorem c92_sequence : forall (A : Type) (E : elem A) sz, e_triv E = true -> 1 <= sz -> forall l0 v0 prog, h_from_std l0 = Ret v0 -> fair prog -> small (e_default E) l0 prog ->
  exists v, v_run E sz v0 prog = Ret v /\ contains v (list_run (e_default E) l0 prog).
Proof.
  intros A E sz plain size l0 v0 prog F Fa Sm. destruct (from_std_ok l0) as [v1 [F1 V1]]. rewrite F1 in F. injection F as <-.
  destruct (v_run_ok E sz plain size prog v1 l0 V1 Fa Sm) as [v2 [R2 V2]]. exists v2. split; [assumption|]. now apply vok_contains.
Qed.
Theorem c92_construct : forall (A : Type) (l : list A), exists v, h_from_std l = Ret v /\ contains v l.
Proof. intros A l. destruct (from_std_ok l) as [v [F V]]. exists v. split; [assumption|]. now apply vok_contains. Qed.
(** The vector is also what the answers of the calls say. *)
Theorem c92_answers : forall (A : Type) (E : elem A) sz, e_triv E = true -> 1 <= sz -> forall v l i a, made E sz v l ->
  (exists v', h_set v i a = Ret (v', i <? length l)) /\ (exists v', d_set E v i a = Ret (v', i <? length l)) /\
  (l = [] -> d_pop E v = Ret (v, (e_default E))) /\
  (forall l' b, l = l' ++ [b] -> exists v', d_pop E v = Ret (v', b) /\ contains v' l').
Proof.
  intros A E sz plain size v l i a M. destruct (made_vok E sz v l plain size M) as [V _]. repeat split.
  - destruct (h_set_ok v l i a V) as [v' [R _]]. eauto.
  - destruct (d_set_ok E sz size v l i a V) as [v' [R _]]. eauto.
  - intros ->. unfold d_pop. now rewrite (ok_size _ _ V).
  - intros l' b ->. destruct (d_pop_ok E sz size v l' b V) as [v' [R V']]. exists v'. split; [assumption|]. now apply vok_contains.
Qed.
(** Copies, moves and assignments: the target has the elements of the source
    and the source is not changed; a moved-from vector is empty. *)
Theorem c92_copies : forall (A : Type) (E : elem A) sz, e_triv E = true -> 1 <= sz -> forall ord v l v2 l2 l3, any_orders ord -> made E sz v l -> made E sz v2 l2 ->
  (exists w, h_copy ord v2 = Ret w /\ contains w l2) /\
  (exists w, d_copy E v2 = Ret w /\ contains w l2) /\
  (exists w, h_copy_assign E ord v v2 = Ret w /\ contains w l2) /\
  (exists w, d_copy_assign E v v2 = Ret w /\ contains w l2) /\
  (exists w w2, h_move_assign E ord v v2 = Ret (w, w2) /\ contains w l2 /\ contains w2 []) /\
  (exists w, h_assign_std E ord v l3 = Ret w /\ contains w l3).
Proof.
  intros A E sz plain size ord v l v2 l2 l3 O M M2. destruct (made_vok E sz v l plain size M) as [V S].
  destruct (made_vok E sz v2 l2 plain size M2) as [V2 S2].
  split; [|split; [|split; [|split; [|split]]]].
  - destruct (h_copy_ok E ord v2 l2 O V2 S2) as [w [R W]]. exists w. split; [assumption|]. now apply vok_contains.
  - destruct (d_copy_ok E v2 l2 V2 (or_introl plain)) as [w [R W]]. exists w. split; [assumption|]. now apply vok_contains.
  - destruct (h_copy_assign_ok E ord v l v2 l2 O V V2 S S2) as [w [R W]]. exists w. split; [assumption|]. now apply vok_contains.
  - destruct (d_copy_assign_ok E v l v2 l2 V V2) as [w [R W]]. exists w. split; [assumption|]. now apply vok_contains.
  - exists v2, v_empty. split; [now apply (h_move_assign_ok E ord v l v2 l2)|]. split; [now apply vok_contains|apply vok_contains, vok_empty].
  - destruct (h_assign_std_ok E ord v l l3 O plain V S) as [w [R W]]. exists w. split; [assumption|]. now apply vok_contains.
Qed.
(** ** C95, plain data *)
Theorem c95_plain : forall (A : Type) (E : elem A) sz, e_triv E = true -> 1 <= sz -> forall ord v l, any_orders ord -> made E sz v l -> (l <> [] \/ v_cap v = 0) ->
  exists w, actualized ord v = Ret w /\ contains w l.
Proof.
  intros A E sz plain size ord v l O M H. destruct (made_vok E sz v l plain size M) as [V S].
  destruct (actualized_ok E ord v l O V S H) as [w [R W]]. exists w. split; [assumption|]. now apply vok_contains.
Qed.

(** ** C93: vectors of class objects *)
Lemma by_host_vok {A} (E : elem A) v l : made_by_host E v l -> vok v l /\ (N.of_nat (length l) <= limit)%N.
Proof.
  intros [l0 [v0 [prog [F [Fa [Sm [T [R L]]]]]]]].
  destruct (from_std_ok l0) as [v1 [F1 V1]]. rewrite F1 in F. injection F as <-.
  destruct (v_run_host E 1 prog v1 l0 V1 Fa Sm T) as [v2 [R2 V2]]. rewrite R2 in R. injection R as <-.
  subst l. split; [assumption|]. now apply (small_last E).
Qed.
(** Calls of the host that do not remove elements in front of others. *)
Theorem c93_host_partial : forall (A : Type) (E : elem A) l0 v0 prog,
  h_from_std l0 = Ret v0 -> fair prog -> small (e_default E) l0 prog -> only_tail (e_default E) l0 prog ->
  exists v, v_run E 1 v0 prog = Ret v /\ contains v (list_run (e_default E) l0 prog).
Proof.
  intros A E l0 v0 prog F Fa Sm T. destruct (from_std_ok l0) as [v1 [F1 V1]]. rewrite F1 in F. injection F as <-.
  destruct (v_run_host E 1 prog v1 l0 V1 Fa Sm T) as [v2 [R2 V2]]. exists v2. split; [assumption|]. now apply vok_contains.
Qed.
Theorem c93_copies : forall (A : Type) (E : elem A) ord v l v2 l2, any_orders ord ->
  made_by_host E v l -> made_by_host E v2 l2 ->
  (exists w, h_copy ord v2 = Ret w /\ contains w l2) /\
  (exists w, h_copy_assign E ord v v2 = Ret w /\ contains w l2) /\
  (exists w, d_copy_assign E v v2 = Ret w /\ contains w l2) /\
  (exists w w2, h_move_assign E ord v v2 = Ret (w, w2) /\ contains w l2 /\ contains w2 []).
Proof.
  intros A E ord v l v2 l2 O M M2. destruct (by_host_vok E v l M) as [V S].
  destruct (by_host_vok E v2 l2 M2) as [V2 S2].
  split; [|split; [|split]].
  - destruct (h_copy_ok E ord v2 l2 O V2 S2) as [w [R W]]. exists w. split; [assumption|]. now apply vok_contains.
  - destruct (h_copy_assign_ok E ord v l v2 l2 O V V2 S S2) as [w [R W]]. exists w. split; [assumption|]. now apply vok_contains.
  - destruct (d_copy_assign_ok E v l v2 l2 V V2) as [w [R W]]. exists w. split; [assumption|]. now apply vok_contains.
  - exists v2, v_empty. split; [now apply (h_move_assign_ok E ord v l v2 l2)|]. split; [now apply vok_contains|apply vok_contains, vok_empty].
Qed.
(** For every type with a destructor the rest fails. *)
Theorem c93_erase_refuted : forall (A : Type) (E : elem A) ord v l b e, e_triv E = false -> any_orders ord ->
  made_by_host E v l -> b < e -> e < length l -> h_erase E ord v b e = UB.
Proof.
  intros A E ord v l b e T O M H1 H2. destruct (by_host_vok E v l M) as [V S].
  now apply (h_erase_class E ord v l b e).
Qed.
Theorem c93_assign_refuted : forall (A : Type) (E : elem A) ord l, e_triv E = false -> any_orders ord -> l <> [] ->
  exists v, h_assign_std E ord v_empty l = Ret v /\ v_size v = length l /\ to_std v = UB.
Proof. intros. now apply h_assign_std_class. Qed.
Theorem c93_device_refuted : forall (A : Type) (E : elem A) sz v l a n, e_triv E = false -> 1 <= sz ->
  made_by_host E v l -> l <> [] ->
  d_copy E v = UB /\ (length l = v_cap v -> d_push E sz v a = UB) /\ (v_cap v < n -> d_reserve E sz v n = UB).
Proof.
  intros A E sz v l a n T Z M Hl. destruct (by_host_vok E v l M) as [V S]. split; [|split].
  - now apply (d_copy_class E v l).
  - intros H. now apply (d_push_class E sz Z v l).
  - intros H. now apply (d_reserve_class E sz Z v l).
Qed.

(** ** C94: comparison *)
Theorem c94_device : forall (A : Type) (E : elem A) v l v2 l2,
  (forall a b, e_eqb E a b = true <-> a = b) -> made_by_host E v l -> made_by_host E v2 l2 ->
  exists r, d_equal E v v2 = Ret r /\ (r = true <-> l = l2).
Proof.
  intros A E v l v2 l2 Heq M M2. destruct (by_host_vok E v l M) as [V _]. destruct (by_host_vok E v2 l2 M2) as [V2 _].
  eexists. split; [apply (d_equal_ok E v l v2 l2); assumption|]. rewrite andb_true_iff, Nat.eqb_eq. clear - Heq.
  revert l2. induction l as [|a l IH]; intros [|b l2]; cbn [length combine forallb fst snd]; [tauto|split; [intros [H _]; discriminate|discriminate]..|].
  rewrite andb_true_iff, Heq. specialize (IH l2). split.
  - intros [H1 [-> H2]]. f_equal. apply IH. split; [now injection H1|assumption].
  - intros H. injection H as -> ->. destruct IH as [_ IH]. destruct IH; auto.
Qed.
(** Full statement, false: the host's [==] answers whether the vectors hold equal
    elements.  It answers whether the sizes and the first elements are equal. *)
Theorem c94_host_exact : forall (A : Type) (E : elem A) v l v2 l2,
  (forall a b, e_eqb E a b = true <-> a = b) -> made_by_host E v l -> made_by_host E v2 l2 ->
  exists r, h_equal E v v2 = Ret r /\ (r = true <-> length l = length l2 /\ hd_error l = hd_error l2).
Proof.
  intros A E v l v2 l2 Heq M M2. destruct (by_host_vok E v l M) as [V _]. destruct (by_host_vok E v2 l2 M2) as [V2 _].
  eexists. split; [apply (h_equal_ok E v l v2 l2); assumption|]. rewrite andb_true_iff, Nat.eqb_eq.
  destruct l as [|a l], l2 as [|b l2]; cbn [length hd_error]; [tauto|split; intros [H _]; discriminate..|].
  rewrite Heq. split; intros [H1 H2]; split; congruence.
Qed.
Theorem c94_host_refuted : forall (A : Type) (E : elem A) (a b c : A), (forall a b, e_eqb E a b = true <-> a = b) ->
  b <> c -> exists v v2, made_by_host E v [a; b] /\ made_by_host E v2 [a; c] /\ h_equal E v v2 = Ret true /\ [a; b] <> [a; c].
Proof.
  intros A E a b c Heq H.
  assert (G : forall l, length l = 2 -> exists v, made_by_host E v l).
  { intros l L. destruct (from_std_ok l) as [v [F V]]. exists v. exists l, v, []. repeat split; try assumption; try constructor; try easy.
    rewrite L. discriminate. }
  destruct (G [a; b] eq_refl) as [v M]. destruct (G [a; c] eq_refl) as [v2 M2]. exists v, v2.
  repeat split; try assumption; [|congruence].
  destruct (c94_host_exact A E v _ v2 _ Heq M M2) as [r [R [_ H2]]]. rewrite R. f_equal. now apply H2.
Qed.

(** ** C95: the copies between the memories *)
Theorem c95_class : forall (A : Type) (E : elem A) ord v l, any_orders ord -> made_by_host E v l ->
  (l <> [] \/ v_cap v = 0) -> exists w, actualized ord v = Ret w /\ contains w l.
Proof.
  intros A E ord v l O M H. destruct (by_host_vok E v l M) as [V S].
  destruct (actualized_ok E ord v l O V S H) as [w [R W]]. exists w. split; [assumption|]. now apply vok_contains.
Qed.
(** A vector that had elements and was emptied: its copy is empty, but adding an
    element to the copy, on either side, writes through a null pointer. *)
Theorem c95_emptied_refuted : forall (A : Type) (E : elem A) sz ord ord' ord'' v l a,
  any_orders ord -> any_orders ord'' -> made_by_host E v l -> l <> [] ->
  exists v' w, h_clear E ord 0 v = Ret v' /\ contains v' [] /\ actualized ord' v' = Ret w /\ contains w [] /\
    h_push E ord'' w a = UB /\ d_push E sz w a = UB.
Proof.
  intros A E sz ord ord' ord'' v l a O O'' M Hl. destruct (by_host_vok E v l M) as [V S].
  destruct (h_clear_ok E ord 0 v l O V S) as [v' [R [V' C]]].
  assert (0 < v_cap v') by (rewrite C; pose proof (ok_le _ _ V); destruct l; [congruence|cbn [length] in *; lia]).
  destruct (actualized_empty E sz ord' ord'' v' a O'' (ok_size _ _ V') H) as [w [Ra [Cw [P1 P2]]]].
  exists v', w. auto 10 using vok_contains.
Qed.

(** ** A concrete case for the hypotheses of C92 - C95 *)
Definition in_turns : orders := fun _ n => rev (grid (blocks_config (N.of_nat n) 256)).
Lemma in_turns_any : any_orders in_turns.
Proof. intros k n. apply Permutation_sym, Permutation_rev. Qed.
Definition e_nat (triv : bool) : elem nat := mkElem triv 0 (fun a => a) Nat.eqb.
Definition ex_prog : list (option orders * @vop nat) :=
  [(Some in_turns, VPush 7); (Some in_turns, VResize 5); (Some in_turns, VSet 4 9); (Some in_turns, VErase 3 9)].
Definition ex_mixed : list (option orders * @vop nat) :=
  ex_prog ++ [(None, VPush 8); (None, VErase 0 1); (Some in_turns, VErase 0 1); (None, VResize 4)].
Lemma ex_from : h_from_std [5; 6] = Ret (mkVec (Some [Obj 5; Obj 6]) 2 2).
Proof. reflexivity. Qed.
Example c92_case : fair ex_mixed /\ small 0 [5; 6] ex_mixed /\
  exists v, v_run (e_nat true) 4 (mkVec (Some [Obj 5; Obj 6]) 2 2) ex_mixed = Ret v /\ contains v [7; 8; 0; 0].
Proof.
  split; [repeat constructor; apply in_turns_any|]. split; [repeat constructor; discriminate|].
  eexists. split; [vm_compute; reflexivity|]. split; reflexivity.
Qed.
Example c93_case : exists v, made_by_host (e_nat false) v [5; 6; 7] /\ v_cap v = 6.
Proof.
  destruct (from_std_ok [5; 6]) as [v0 [F _]]. rewrite ex_from in F.
  eexists. split.
  - exists [5; 6], (mkVec (Some [Obj 5; Obj 6]) 2 2), ex_prog. split; [reflexivity|].
    split; [repeat constructor; apply in_turns_any|]. split; [repeat constructor; discriminate|].
    split; [cbn; repeat split; try discriminate; try tauto; lia|]. split; vm_compute; reflexivity.
  - reflexivity.
Qed.
