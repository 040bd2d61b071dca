From Verif Require Import Base ListLemmas Messaging_Model Projection_Model Projection_Spec Projection_Proofs Delta_Model Delta_Spec Delta_Proofs.

(** ** multiplication by one *)
Lemma digits2_pos_shift m : forall k, Zdigits2 (Z.pos (Pos.iter xO m k)) = (Zdigits2 (Zpos m) + Z.pos k)%Z.
Proof.
  assert (H : forall m, Zdigits2 (Z.pos (xO m)) = (Zdigits2 (Zpos m) + 1)%Z).
  { intros x. cbn. lia. }
  intros k. induction k using Pos.peano_ind.
  - apply H.
  - rewrite Pos.iter_succ, H, IHk. lia.
Qed.
Lemma shr_even m k : forall r, r = Build_shr_record (Z.pos (Pos.iter xO m k)) false false ->
  iter_pos shr_1 k r = Build_shr_record (Zpos m) false false.
Proof.
  assert (E : forall (A : Type) (f : A -> A) k x, iter_pos f k x = Pos.iter f x k).
  { intros A f. induction k0; intros x; cbn; rewrite ?IHk0; try reflexivity.
    rewrite <- Pos.iter_swap. now rewrite <- Pos.iter_swap. }
  intros r ->. rewrite E. induction k using Pos.peano_ind; [reflexivity|].
  rewrite !Pos.iter_succ_r. rewrite <- IHk.
  f_equal. clear. rewrite <- Pos.iter_succ_r, Pos.iter_succ. reflexivity.
Qed.
Lemma f_mul_one w : valid_binary 24 128 w = true -> f_mul w (f_of_Z 1) = w.
Proof.
  change (f_of_Z 1) with (S754_finite false 8388608 (-23)). unfold f_mul, SFmul.
  destruct w as [s|s| |s m e]; intros H; try (rewrite ?xorb_false_r; reflexivity).
  rewrite xorb_false_r. cbn in H. unfold bounded, canonical_mantissa in H.
  apply andb_true_iff in H as [Hc He]. apply Zeq_bool_eq in Hc. apply Z.leb_le in He.
  change (digits2_pos m) with (digits2_pos m) in Hc.
  assert (Em : (m * 8388608)%positive = Pos.iter xO m 23) by (rewrite Pos.mul_comm; reflexivity).
  rewrite Em. unfold binary_round_aux, shr_fexp.
  assert (Hd : Zdigits2 (Z.pos m) = Z.pos (digits2_pos m)) by reflexivity.
  rewrite digits2_pos_shift, Hd.
  replace (Z.pos (digits2_pos m) + 23 + (e + -23))%Z with (Z.pos (digits2_pos m) + e)%Z by lia.
  rewrite Hc. replace (e - (e + -23))%Z with 23%Z by lia.
  change (shr_record_of_loc (Z.pos (Pos.iter xO m 23)) loc_Exact) with (Build_shr_record (Z.pos (Pos.iter xO m 23)) false false).
  unfold shr at 1. rewrite (shr_even m 23 _ eq_refl).
  change (loc_of_shr_record (Build_shr_record (Z.pos m) false false)) with loc_Exact.
  cbn [shr_m round_nearest_even].
  replace (e + -23 + 23)%Z with e by lia. rewrite Hd, Hc, Z.sub_diag.
  change (shr_record_of_loc (Z.pos m) loc_Exact) with (Build_shr_record (Z.pos m) false false).
  cbn [shr shr_m]. destruct (Z.leb_spec e (128 - 24)); [reflexivity|lia].
Qed.

(** ** counting *)
Lemma count_find_insert n x m : count_find n (count_insert x m) =
  if N.eqb n x then Some (match count_find x m with Some c => add64 c 1 | None => 1%N end) else count_find n m.
Proof.
  induction m as [|[k c] m IH]; cbn [count_insert count_find].
  - rewrite (N.eqb_sym x n). destruct (N.eqb n x); reflexivity.
  - destruct (N.eqb_spec k x) as [->|Hne]; cbn [count_find].
    + rewrite (N.eqb_sym x n). destruct (N.eqb n x); reflexivity.
    + rewrite IH. destruct (N.eqb_spec k n) as [->|]; [|reflexivity].
      destruct (N.eqb_spec n x); [congruence|reflexivity].
Qed.
Lemma convert_distinct spikes n : NoDup spikes ->
  count_find n (convert_spikes spikes) = if mem n spikes then Some 1%N else None.
Proof.
  unfold convert_spikes.
  assert (G : forall spikes, NoDup spikes -> forall m, (forall x, In x spikes -> count_find x m = None) ->
    count_find n (fold_left (fun m n => count_insert n m) spikes m) = if mem n spikes then Some 1%N else count_find n m).
  { clear. induction 1 as [|x l Hx Hnd IH]; intros m Hm; cbn [fold_left]; [reflexivity|].
    rewrite IH.
    - unfold mem. cbn [existsb]. rewrite count_find_insert.
      rewrite (Hm x) by now left. destruct (N.eqb_spec n x) as [->|]; cbn [orb]; [|reflexivity].
      fold (mem x l). destruct (mem x l); reflexivity.
    - intros y Hy. rewrite count_find_insert. destruct (N.eqb_spec y x); [congruence|]. apply Hm. now right. }
  intros H. apply (G spikes H []). reflexivity.
Qed.

(** ** collection *)
Definition mev (step : N) (counts : list (N * N)) (x : nat * dsyn) : list (N * impact) :=
  match count_find (sy_from (snd x)) counts with
  | Some c => [(future_step (d_delay (sy_params (snd x))) step, mt_impact (fst x) (snd x) c)]
  | None => []
  end.
Lemma numbered_slice (l : list dsyn) i s : nth_error l i = Some s ->
  skipn i (numbered l) = (i, s) :: skipn (S i) (numbered l).
Proof.
  unfold numbered.
  assert (G : forall (l : list dsyn) o i s, nth_error l i = Some s ->
    skipn i (combine (seq o (length l)) l) = (o + i, s) :: skipn (S i) (combine (seq o (length l)) l)).
  { clear. induction l as [|x l IH]; intros o i s H; [destruct i; discriminate|].
    destruct i as [|i]; cbn in H |- *; [injection H as ->; now rewrite Nat.add_0_r|].
    rewrite (IH (S o) i s H). cbn. now rewrite Nat.add_succ_r. }
  exact (G l 0 i s).
Qed.
Lemma mt_collect_eq step counts (l : list dsyn) : forall n i, i + n <= length l ->
  mt_collect step counts l i n = flat_map (mev step counts) (firstn n (skipn i (numbered l))).
Proof.
  induction n as [|n IH]; intros i H; cbn [mt_collect firstn flat_map]; [reflexivity|].
  destruct (nth_error l i) as [s|] eqn:E; [|apply nth_error_None in E; lia].
  rewrite (numbered_slice l i s E). cbn [firstn flat_map]. unfold mev at 1. cbn [fst snd].
  rewrite <- IH by lia. destruct (count_find (sy_from s) counts); reflexivity.
Qed.
Lemma tiles_bounds : forall ps from size, tiles from size ps -> (from <= size)%N /\
  Forall (fun p => (fst p <= snd p /\ snd p <= size)%N) ps.
Proof.
  induction ps as [|[a b] ps IH]; cbn [tiles]; intros from size H; [split; [lia|constructor]|].
  destruct H as (-> & Hab & Ht). destruct (IH _ _ Ht) as [H1 H2]. split; [lia|]. constructor; [cbn; lia|exact H2].
Qed.
Lemma skipn_plus {A} n : forall m (L : list A), skipn (n + m) L = skipn n (skipn m L).
Proof.
  induction m as [|m IHm]; intros L; [now rewrite Nat.add_0_r|].
  rewrite Nat.add_succ_r. destruct L; cbn [skipn]; [now rewrite skipn_nil|apply IHm].
Qed.
Lemma tiles_concat {A} (L : list A) : forall ps from size, tiles from size ps -> N.to_nat size = length L ->
  flat_map (fun p => firstn (snd p - fst p) (skipn (fst p) L)) (map to_nat_part ps) = skipn (N.to_nat from) L.
Proof.
  induction ps as [|[a b] ps IH]; cbn [tiles map flat_map]; intros from size H Hs.
  - subst from. rewrite skipn_all2 by lia. reflexivity.
  - destruct H as (-> & Hab & Ht). unfold to_nat_part at 1 2 3. cbn [fst snd].
    rewrite (IH b size Ht Hs).
    replace (N.to_nat b) with (N.to_nat b - N.to_nat from + N.to_nat from) at 2 by lia.
    rewrite <- (firstn_skipn (N.to_nat b - N.to_nat from) (skipn (N.to_nat from) L)) at 2.
    f_equal. apply skipn_plus.
Qed.
Lemma parts_perm step counts (l : list dsyn) ps order :
  tiles 0 (N.of_nat (length l)) ps -> Permutation order (map to_nat_part ps) ->
  Permutation (flat_map (fun p => mt_collect step counts l (fst p) (snd p - fst p)) order)
              (flat_map (mev step counts) (numbered l)).
Proof.
  intros Ht Hp.
  assert (E : flat_map (fun p => mt_collect step counts l (fst p) (snd p - fst p)) (map to_nat_part ps) =
              flat_map (mev step counts) (numbered l)).
  { destruct (tiles_bounds _ _ _ Ht) as [_ Hb].
    assert (Hn : N.to_nat (N.of_nat (length l)) = length (numbered l)).
    { unfold numbered. rewrite combine_length, seq_length. lia. }
    pose proof (tiles_concat (numbered l) ps 0%N (N.of_nat (length l)) Ht Hn) as E. cbn in E. rewrite <- E at 1.
    clear - Hb. induction Hb as [|p ps Hx Hb IH]; [reflexivity|].
    cbn [map flat_map]. rewrite flat_map_app, <- IH. f_equal. apply mt_collect_eq.
    unfold to_nat_part; cbn [fst snd]. lia. }
  rewrite <- E. now apply Permutation_flat_map.
Qed.

(** The events of a step on one thread and in parts are the same up to order. *)
Lemma flat_map_filter_perm {A} (key : A -> N) (L : list A) : forall spikes, NoDup spikes ->
  Permutation (flat_map (fun n => filter (fun x => N.eqb (key x) n) L) spikes)
              (filter (fun x => mem (key x) spikes) L).
Proof.
  induction L as [|x L IH]; intros spikes Hnd; cbn [filter].
  - clear. induction spikes; cbn; auto.
  - assert (E : Permutation (flat_map (fun n => if N.eqb (key x) n then x :: filter (fun y => N.eqb (key y) n) L
                                                else filter (fun y => N.eqb (key y) n) L) spikes)
      ((if mem (key x) spikes then [x] else []) ++ flat_map (fun n => filter (fun y => N.eqb (key y) n) L) spikes)).
    { clear IH. induction Hnd as [|n l Hn Hnd IH]; cbn [flat_map]; [reflexivity|].
      unfold mem. cbn [existsb]. fold (mem (key x) l). destruct (N.eqb_spec (key x) n) as [Hk|Hk]; cbn [orb].
      - cbn [app]. constructor. apply Permutation_app_head. rewrite IH.
        assert (mem (key x) l = false) as ->; [|reflexivity].
        unfold mem. destruct (existsb (N.eqb (key x)) l) eqn:Ex; [|reflexivity].
        apply existsb_exists in Ex as (y & Hy & Ey). apply N.eqb_eq in Ey. congruence.
      - rewrite IH. rewrite !app_assoc. apply Permutation_app_tail. apply Permutation_app_comm. }
    rewrite E, (IH spikes Hnd). destruct (mem (key x) spikes); reflexivity.
Qed.
Lemma flat_map_if {A B} (f : A -> bool) (g : A -> B) l :
  flat_map (fun x => if f x then [g x] else []) l = map g (filter f l).
Proof. induction l; cbn; [reflexivity|]. destruct (f a); cbn; now rewrite IHl. Qed.
Lemma events_perm step (l : list dsyn) spikes :
  NoDup spikes -> Forall (fun s => valid_binary 24 128 (d_weight (sy_params s)) = true) l ->
  Permutation (flat_map (evs_of step l) spikes) (flat_map (mev step (convert_spikes spikes)) (numbered l)).
Proof.
  intros Hnd Hw.
  assert (E : flat_map (mev step (convert_spikes spikes)) (numbered l) =
              map (ev step) (filter (fun x => mem (sy_from (snd x)) spikes) (numbered l))).
  { rewrite <- flat_map_if. apply flat_map_ext_in. intros x Hx. unfold mev. rewrite convert_distinct by exact Hnd.
    destruct (mem (sy_from (snd x)) spikes); [|reflexivity]. unfold ev, mt_impact, impact_of.
    change (f_of_Z (Z.of_N 1)) with (f_of_Z 1). rewrite f_mul_one; [reflexivity|].
    rewrite Forall_forall in Hw. apply Hw. apply numbered_nth in Hx. eapply nth_error_In; eauto. }
  rewrite E. unfold evs_of. rewrite <- map_flat_map. apply Permutation_map. now apply flat_map_filter_perm.
Qed.

(** ** agreement of queues *)
Definition agree (q1 q2 : queue) : Prop := forall k, same_output (q_find k q1) (q_find k q2).
Lemma q_find_fold u a b f lo hi step evs : (lo <= step <= hi)%N -> forall q k, wfq u a b f lo hi q ->
  q_find k (fold_left (sched u a b f step) evs q) =
  match q_find k q, map snd (filter (fun e => N.eqb (fst e) k) evs) with
  | Some (ImpactMsg u t a b f l), is => Some (ImpactMsg u t a b f (l ++ is))
  | Some m, _ => Some m
  | None, [] => None
  | None, is => Some (ImpactMsg u step a b f is)
  end.
Proof.
  intros Hs. induction evs as [|e evs IH]; intros q k Hq; cbn [fold_left filter map].
  - destruct (q_find k q) as [m|] eqn:E; [|reflexivity]. destruct (Hq _ _ E) as (t & l & -> & _). now rewrite app_nil_r.
  - rewrite IH by now apply wfq_sched. rewrite q_find_sched, (N.eqb_sym (fst e) k).
    destruct (N.eqb k (fst e)); [|reflexivity].
    destruct (q_find k q) as [m|] eqn:E; cbn [map].
    + destruct (Hq _ _ E) as (t & l & -> & _). cbn [push_impact]. now rewrite <- app_assoc.
    + reflexivity.
Qed.
Lemma perm_filter {A} (f : A -> bool) l1 l2 : Permutation l1 l2 -> Permutation (filter f l1) (filter f l2).
Proof.
  induction 1; cbn; auto.
  - destruct (f x); auto.
  - destruct (f x), (f y); auto using perm_swap.
  - eauto using Permutation_trans.
Qed.
Lemma agree_fold u a b a' b' f lo hi step evs evs' q q' : (lo <= step <= hi)%N ->
  wfq u a b f lo hi q -> wfq u a' b' f lo hi q' -> agree q q' -> Permutation evs evs' ->
  agree (fold_left (sched u a b f step) evs q) (fold_left (sched u a' b' f step) evs' q').
Proof.
  intros Hs Hq Hq' Ha Hp k.
  rewrite (q_find_fold _ _ _ _ lo hi) by assumption. rewrite (q_find_fold u a' b' f lo hi) by assumption.
  assert (HP : Permutation (map snd (filter (fun e => N.eqb (fst e) k) evs)) (map snd (filter (fun e => N.eqb (fst e) k) evs'))).
  { apply Permutation_map. now apply perm_filter. }
  specialize (Ha k).
  destruct (q_find k q) as [m|] eqn:E, (q_find k q') as [m'|] eqn:E'; try contradiction.
  - destruct (Hq _ _ E) as (t & l & -> & _). destruct (Hq' _ _ E') as (t' & l' & -> & _).
    cbn in Ha |- *. destruct Ha as (_ & -> & _ & Hl). repeat split. now apply Permutation_app.
  - destruct (map snd (filter (fun e => N.eqb (fst e) k) evs)) as [|i is] eqn:X.
    + apply Permutation_nil in HP. now rewrite HP.
    + destruct (map snd (filter (fun e => N.eqb (fst e) k) evs')) eqn:Y.
      * apply Permutation_sym, Permutation_nil in HP. discriminate.
      * cbn. auto.
Qed.
Lemma agree_erase k q q' : agree q q' -> agree (q_erase k q) (q_erase k q').
Proof. intros H k'. rewrite !q_find_erase. destruct (N.eqb k' k); [exact I|apply H]. Qed.

(** ** runs *)
Lemma fold_parts h step counts l : forall order q,
  fold_left (mt_part h step counts l) order q =
  fold_left (sched (ph_uid h) (ph_post h) (ph_pre h) (ph_forced h) step)
    (flat_map (fun p => mt_collect step counts l (fst p) (snd p - fst p)) order) q.
Proof.
  induction order as [|p order IH]; intros q; cbn [fold_left flat_map]; [reflexivity|].
  rewrite IH, fold_left_app. reflexivity.
Qed.
Lemma parts_tiles size part ps fuel : (0 < part < two64)%N -> (size <= 2 ^ 63)%N ->
  parts size part fuel = Some ps -> tiles 0 size ps.
Proof.
  intros Hp Hs H. destruct (parts_from_tiles size part Hp Hs (N.to_nat size) 0) as (l & E & Ht);
    [lia|left; reflexivity|lia|].
  assert (l = ps); [|congruence].
  pose proof (parts_fuel size part _ (fuel + N.to_nat size) 0 l E ltac:(lia)) as E1.
  pose proof (parts_fuel size part fuel (fuel + N.to_nat size) 0 ps H ltac:(lia)) as E2. congruence.
Qed.
Lemma runs_agree h part : (0 < part < two64)%N -> forall ins jns s p q1 q2 lo,
  Forall2 (corresponds part) ins jns ->
  (lo <= s)%N -> (s + N.of_nat (length ins) < two64)%N ->
  Forall (fun i => (N.of_nat (length (in_syn i)) <= 2 ^ 63)%N) ins ->
  (exists ends, Forall (fun i => ends_of (in_syn i) = ends) ins /\ ends_of (p_syn p) = ends) ->
  index_ok p ->
  wfq (ph_uid h) (ph_pre h) (ph_post h) (ph_forced h) lo s q1 ->
  wfq (ph_uid h) (ph_post h) (ph_pre h) (ph_forced h) lo s q2 -> agree q1 q2 ->
  exists outs, run_projection h s ins p q1 = Ret outs /\ Forall2 same_output outs (mt_run h s jns q2).
Proof.
  intros Hpart ins jns s p q1 q2 lo HF. revert s p q1 q2.
  induction HF as [|i j ins jns Hc HF IH]; intros s p q1 q2 Hlo Hb Hsz (ends & He & Hep) Hok W1 W2 Ha.
  - exists []. split; [reflexivity|constructor].
  - inversion He as [|? ? He1 He2]; subst. inversion Hsz as [|? ? Hsz1 Hsz2]; subst.
    destruct Hc as (Ej1 & Ej2 & Hone & Hv & ps & fuel & Hps & Hord).
    apply parts_tiles in Hps; [|exact Hpart|exact Hsz1].
    cbn [run_projection mt_run]. unfold calculate_projection, mt_calculate.
    assert (Hok1 : index_ok (mkProj (in_syn i) (p_index p) (p_updated p))).
    { apply index_ok_syn; [exact Hok|]. unfold ends_of in *. congruence. }
    destruct (do_spikes_eq h s (spikes_of (in_msgs i)) _ q1 Hok1) as (p' & E & Ep & Hok').
    rewrite E. cbn [obind fst snd p_syn] in *. rewrite Ej1, Ej2.
    set (Q1 := fold_left _ _ q1).
    set (Q2 := match in_msgs i with [] => q2 | m :: _ => _ end).
    assert (W1' : wfq (ph_uid h) (ph_pre h) (ph_post h) (ph_forced h) lo s Q1) by (apply wfq_fold; [lia|exact W1]).
    assert (H12 : agree Q1 Q2 /\ wfq (ph_uid h) (ph_post h) (ph_pre h) (ph_forced h) lo s Q2).
    { subst Q1 Q2. destruct Hone as [->|(sn & tm & idx & -> & Hnd)].
      - split; [exact Ha|exact W2].
      - unfold spikes_of. cbn [flat_map]. rewrite app_nil_r. rewrite fold_parts. split; [|apply wfq_fold; [lia|exact W2]].
        eapply agree_fold; [split; [exact Hlo|apply N.le_refl]|exact W1|exact W2|exact Ha|].
        etransitivity; [apply events_perm; [exact Hnd|exact Hv]|].
        symmetry. now apply parts_perm with (ps := ps). }
    clearbody Q1 Q2. destruct H12 as [Ha' W2']. pose proof (Ha' s) as Hout. cbn [length] in Hb.
    assert (Hs1 : add64 s 1 = (s + 1)%N) by (unfold add64, w64; apply N.mod_small; lia).
    assert (G : forall p1 q1' q2', index_ok p1 -> ends_of (p_syn p1) = ends_of (in_syn i) ->
       wfq (ph_uid h) (ph_pre h) (ph_post h) (ph_forced h) lo s q1' ->
       wfq (ph_uid h) (ph_post h) (ph_pre h) (ph_forced h) lo s q2' -> agree q1' q2' ->
       exists outs, run_projection h (add64 s 1) ins p1 q1' = Ret outs /\
                    Forall2 same_output outs (mt_run h (add64 s 1) jns q2')).
    { intros p1 q1' q2' Hok2 Hep1 V1 V2 V. rewrite Hs1. apply IH; auto; try lia.
      - exists (ends_of (p_syn p)). split; [exact He2|congruence].
      - eapply wfq_mono; [|exact V1]. lia.
      - eapply wfq_mono; [|exact V2]. lia. }
    destruct (q_find s Q1) as [m1|], (q_find s Q2) as [m2|]; cbn in Hout; try contradiction.
    + destruct (G p' (q_erase s Q1) (q_erase s Q2)) as (outs & Eo & Ho); auto using wfq_erase, agree_erase; [congruence|].
      cbn [obind fst snd]. rewrite Eo. cbn [obind]. eexists. split; [reflexivity|]. constructor; auto.
    + destruct (G p' Q1 Q2) as (outs & Eo & Ho); auto; [congruence|].
      cbn [obind fst snd]. rewrite Eo. cbn [obind]. eexists. split; [reflexivity|]. constructor; auto.
Qed.

(** ** send times with delay 1 *)
(** All queued keys are below the current step when every delay is 1: then a
    message is made at the step it is sent. *)
Lemma delay_one_step h step ms p q p' q' o :
  (step < two64)%N -> Forall (fun s => d_delay (sy_params s) = 1%N) (p_syn p) -> index_ok p ->
  q = [] -> calculate_projection h step ms p q = Ret (p', q', o) ->
  q' = [] /\ p_syn p' = p_syn p /\ index_ok p' /\
  forall m, o = Some m -> exists l, m = ImpactMsg (ph_uid h) step (ph_pre h) (ph_post h) (ph_forced h) l.
Proof.
  intros Hs Hd Hok -> H. unfold calculate_projection in H.
  destruct (do_spikes_eq h step (spikes_of ms) p [] Hok) as (p1 & E & Ep & Hok1). rewrite E in H. cbn [obind fst snd] in H.
  set (evs := flat_map _ _) in *. set (Q := fold_left (sched (ph_uid h) (ph_pre h) (ph_post h) (ph_forced h) step) evs []) in *.
  assert (Hk : Forall (fun e => fst e = step) evs).
  { apply Forall_forall. intros e He. unfold evs in He. apply in_flat_map in He as (n & _ & He).
    unfold evs_of in He. apply in_map_iff in He as (x & <- & Hx). apply filter_In in Hx as [Hx _].
    apply numbered_nth, nth_error_In in Hx. rewrite Forall_forall in Hd. unfold ev. cbn [fst]. rewrite (Hd _ Hx).
    unfold future_step, sub64, add64, w64. change two64 with 18446744073709551616%N in *.
    destruct (N.eq_dec (1 + step) 18446744073709551616) as [Eq|Ne].
    - rewrite Eq. change (18446744073709551616 mod 18446744073709551616)%N with 0%N.
      change (1 mod 18446744073709551616)%N with 1%N. rewrite N.mod_small by lia. lia.
    - rewrite (N.mod_small (1 + step)) by lia. change (1 mod 18446744073709551616)%N with 1%N.
      replace (1 + step + (18446744073709551616 - 1))%N with (step + 1 * 18446744073709551616)%N by lia.
      rewrite N.mod_add by discriminate. apply N.mod_small. lia. }
  assert (HQ : Forall (fun e => fst e = step) Q).
  { unfold Q. clear - Hk. assert (G : forall evs q, Forall (fun e => fst e = step) evs -> Forall (fun e => fst e = step) q ->
      Forall (fun e : N * message => fst e = step)
        (fold_left (sched (ph_uid h) (ph_pre h) (ph_post h) (ph_forced h) step) evs q)).
    { clear. induction evs as [|e evs IH]; intros q He Hq; cbn [fold_left]; [exact Hq|].
      inversion He; subst. apply IH; [assumption|]. unfold sched. destruct (q_find (fst e) q).
      - clear - Hq. induction Hq as [|[k m'] q Hx Hq IHq]; cbn [q_push]; [constructor|].
        destruct (N.eqb (fst e) k); constructor; auto.
      - apply Forall_app. split; [exact Hq|]. repeat constructor. }
    apply G; [exact Hk|constructor]. }
  assert (W : wfq (ph_uid h) (ph_pre h) (ph_post h) (ph_forced h) step step Q).
  { apply wfq_fold; [lia|]. intros k m X; discriminate. }
  assert (He : q_erase step Q = []).
  { unfold q_erase. clear - HQ. induction HQ as [|x q Hx HQ IH]; cbn [filter]; [reflexivity|].
    rewrite Hx, N.eqb_refl. exact IH. }
  destruct (q_find step Q) as [m|] eqn:Ef; injection H as <- <- <-.
  - split; [exact He|]. split; [exact Ep|]. split; [exact Hok1|]. intros m' [= <-].
    destruct (W _ _ Ef) as (t & l & -> & _ & Ht). exists l. f_equal. lia.
  - split; [|split; [exact Ep|split; [exact Hok1|discriminate]]].
    destruct Q as [|[k m] Q']; [reflexivity|]. inversion HQ; subst. cbn in Ef. now rewrite N.eqb_refl in Ef.
Qed.
Lemma send_time_delay_one h s0 ins p ends outs t time a b f l :
  sound_projection p -> ends_of (p_syn p) = ends ->
  Forall (fun i => ends_of (in_syn i) = ends) ins -> Forall (fun i => Forall syn_ok (in_syn i)) ins ->
  (s0 + N.of_nat (length ins) + two32 <= two64)%N ->
  Forall (fun i => Forall (fun s => d_delay (sy_params s) = 1%N) (in_syn i)) ins ->
  run_projection h s0 ins p [] = Ret outs -> nth_error outs t = Some (Some (ImpactMsg (ph_uid h) time a b f l)) ->
  time = (s0 + N.of_nat t)%N.
Proof.
  intros Hsp Hep He Hsyn Hb Hd Hr Ht. apply sound_index_ok in Hsp.
  revert s0 p outs t Hsp Hep Hb Hr Ht. induction ins as [|i ins IH]; intros s0 p outs t Hok Hep Hb Hr Ht; cbn [run_projection] in Hr.
  - injection Hr as <-. destruct t; discriminate.
  - inversion He as [|? ? He1 He2]; subst. inversion Hsyn; subst. inversion Hd as [|? ? Hd1 Hd2]; subst.
    cbn [length] in Hb. change two64 with 18446744073709551616%N in *. change two32 with 4294967296%N in *.
    destruct (calculate_projection h s0 (in_msgs i) _ []) as [[[p' q'] o]| |] eqn:E; cbn [obind] in Hr; try discriminate.
    assert (Hok1 : index_ok (mkProj (in_syn i) (p_index p) (p_updated p))).
    { apply index_ok_syn; [exact Hok|]. unfold ends_of in *. congruence. }
    destruct (delay_one_step h s0 (in_msgs i) (mkProj (in_syn i) (p_index p) (p_updated p)) [] p' q' o ltac:(change two64 with 18446744073709551616%N; lia) Hd1 Hok1 eq_refl E)
      as (-> & Ep & Hok' & Hm). cbn [p_syn] in Ep.
    destruct (run_projection h (add64 s0 1) ins p' []) as [os| |] eqn:E2; cbn [obind] in Hr; try discriminate.
    injection Hr as <-. assert (Hs1 : add64 s0 1 = (s0 + 1)%N).
    { unfold add64, w64. apply N.mod_small. change two64 with 18446744073709551616%N. lia. }
    destruct t as [|t]; cbn [nth_error] in Ht.
    + injection Ht as ->. destruct (Hm _ eq_refl) as (l' & [= -> _ _ _ _]). cbn. lia.
    + rewrite Hs1 in E2.
      assert (time = (s0 + 1 + N.of_nat t)%N); [|lia].
      eapply IH; eauto; [congruence|lia].
Qed.
