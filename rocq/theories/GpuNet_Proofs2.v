(** The delta projection of the CUDA backend over many steps. *)
From Verif Require Import Base ListLemmas Messaging_Model Projection_Model Delta_Model Delta_Spec Delta_Proofs Gpu_Model Gpu_Spec
  Gpu_Proofs Gpu_Proofs2 Gpu_Proofs3 GpuBus_Model GpuBus_Spec GpuBus_Proofs GpuBus_Proofs2 GpuNet_Model GpuNet_Spec GpuNet_Proofs Stdp_Proofs2.

Section Extract.
Context (sz : nat) (sz1 : 1 <= sz).
Lemma extract_none step : forall fuel i v out L, vok v L ->
  (forall k m, i <= k -> nth_error L k = Some m -> g_time m <> step) ->
  g_extract sz fuel i step v out = Ret (v, out).
Proof.
  induction fuel as [|f IH]; intros i v out L V H; [reflexivity|]. cbn [g_extract]. rewrite (ok_size _ _ V).
  destruct (Nat.leb_spec (length L) i); [reflexivity|].
  destruct (nth_error L i) as [m|] eqn:N; [|apply nth_error_None in N; lia].
  destruct (ok_mem _ _ V) as [rest D]. rewrite D, (read_obj _ _ _ _ N). cbn [obind].
  destruct (N.eqb_spec (g_time m) step) as [X|X]; [destruct (H i m ltac:(lia) N X)|].
  apply (IH _ _ _ L); auto. intros k m' Hk. apply H. lia.
Qed.
Lemma extract_one step L1 m L2 : g_time m = step -> Forall (fun x => g_time x <> step) (L1 ++ L2) ->
  forall fuel i v, vok v (L1 ++ m :: L2) -> cap_ok v -> i <= length L1 -> length (L1 ++ m :: L2) <= fuel + i ->
  exists v' out, g_extract sz fuel i step v v_empty = Ret (v', out) /\ vok v' (L1 ++ L2) /\ cap_ok v' /\ vok out [m] /\ cap_ok out.
Proof.
  intros T F. apply Forall_app in F. destruct F as [F1 F2]. rewrite Forall_forall in F1, F2.
  induction fuel as [|f IH]; intros i v V C Hi Hf.
  { rewrite app_length in Hf. cbn [length] in Hf. lia. }
  cbn [g_extract]. rewrite app_length in *. cbn [length] in *.
  assert (H : v_size v <=? i = false) by (apply Nat.leb_gt; rewrite (ok_size _ _ V), app_length; cbn [length]; lia).
  rewrite H. clear H.
  pose proof V as [[rest D] Sz Le Cap Nul].
  destruct (Nat.eq_dec i (length L1)) as [->|Hne].
  - assert (N : nth_error (L1 ++ m :: L2) (length L1) = Some m) by (rewrite nth_error_app2, Nat.sub_diag by lia; reflexivity).
    rewrite D, (read_obj _ _ _ _ N). cbn [obind]. rewrite T, N.eqb_refl.
    assert (Ll : length L1 < length (deref v)) by (rewrite D, app_length, map_length, app_length; cbn [length]; lia).
    rewrite <- D. rewrite write_upd by assumption. cbn [obind].
    pose proof (push_two sz sz1 gmsg_elem eq_refl v_empty [] m vok_empty (or_introl eq_refl)) as P.
    cbn [length Nat.ltb Nat.leb] in P. destruct P as [out [-> [Vo Co]]]. cbn [obind].
    assert (V' : vok (with_mem v (upd (deref v) (length L1) (Obj (g_moved m))) (v_size v)) (L1 ++ g_moved m :: L2)).
    { eapply vok_at with (rest := rest).
      - rewrite app_length. cbn [length]. rewrite Sz, app_length. reflexivity.
      - unfold upd. rewrite D. rewrite !map_app, <- !app_assoc. cbn [map app].
        rewrite firstn_app, map_length, Nat.sub_diag, firstn_all2 by (rewrite map_length; lia). cbn [firstn]. rewrite app_nil_r.
        rewrite skipn_app, skipn_all2 by (rewrite map_length; lia). rewrite map_length.
        replace (S (length L1) - length L1) with 1 by lia. reflexivity.
      - apply upd_length. assumption.
      - assumption.
      - assumption.
      - rewrite app_length in *. cbn [length] in *. lia. }
    destruct (d_erase_ok imp_elem sz sz1 _ _ (length L1) (length L1 + 1) V') as [v2 [R2 V2]]. rewrite R2. cbn [obind].
    apply erase_cap in R2; [|exact sz1|reflexivity]. cbn [list_op] in V2. rewrite app_length in V2. cbn [length] in V2.
    destruct (Nat.ltb_spec (length L1) (length L1 + S (length L2))); [|lia].
    destruct (Nat.ltb_spec (length L1) (length L1 + 1)); [|lia]. cbn [andb] in V2.
    rewrite firstn_app, firstn_all, Nat.sub_diag in V2. cbn [firstn] in V2. rewrite app_nil_r in V2.
    rewrite skipn_app, skipn_all2 in V2 by lia. replace (length L1 + 1 - length L1) with 1 in V2 by lia. cbn [skipn app] in V2.
    rewrite (extract_none step f (S (length L1)) v2 out (L1 ++ L2) V2).
    + exists v2, out. split; [reflexivity|]. split; [exact V2|]. split; [unfold cap_ok; rewrite R2; exact C|]. split; [exact Vo|exact Co].
    + intros k x Hk Nx. rewrite nth_error_app2 in Nx by lia. apply nth_error_In in Nx. now apply F2.
  - assert (exists x, nth_error L1 i = Some x) as [x Hx].
    { destruct (nth_error L1 i) eqn:Z; eauto. apply nth_error_None in Z. lia. }
    assert (N : nth_error (L1 ++ m :: L2) i = Some x) by (rewrite nth_error_app1 by lia; assumption).
    rewrite D, (read_obj _ _ _ _ N). cbn [obind]. apply nth_error_In in Hx. apply F1 in Hx.
    destruct (N.eqb_spec (g_time x) step); [contradiction|]. apply IH; auto; lia.
Qed.
End Extract.

(** ** Impacts and delays *)
Lemma load_same h l : Forall syn_ok l -> load_projection h l = mkGP (ph_uid h) (ph_pre h) (ph_post h) l v_empty.
Proof.
  intros F. unfold load_projection. f_equal. induction F as [|s l [_ [A B]] F IH]; [reflexivity|]. cbn [map]. rewrite IH.
  f_equal. destruct s as [p a b]. cbn [sy_params sy_from sy_to] in *. unfold w32. now rewrite !N.mod_small by assumption.
Qed.
Lemma spikes_same l : g_spikes_of l = spikes_of (map as_host l).
Proof. induction l as [|[|] l IH]; cbn [g_spikes_of spikes_of flat_map map as_host]; [reflexivity|f_equal|]; exact IH. Qed.

(** The key of a synapse, without the wrapping arithmetic. *)
Lemma future_exact d step : (1 <= d)%N -> (d < two32)%N -> (step + two32 <= two64)%N -> future_step d step = (step + d - 1)%N.
Proof.
  intros A B C. unfold future_step. change two64 with 18446744073709551616%N in *. change two32 with 4294967296%N in *.
  rewrite Stdp_Proofs2.add64_small by (change two64 with 18446744073709551616%N; lia).
  rewrite Stdp_Proofs2.sub64_le by (try (change two64 with 18446744073709551616%N); lia). lia.
Qed.
Lemma items_at step n k l : Forall syn_ok (map snd l) -> Forall (fun s => 1 <= d_delay (sy_params s))%N (map snd l) ->
  (step + two32 <= two64)%N -> (step <= k)%N ->
  map snd (filter (fun x => N.eqb (fst x) k) (items_of step n l)) =
  map (fun x => mkImpact (N.of_nat (fst x)) (d_weight (sy_params (snd x))) (d_type (sy_params (snd x)))
                         (sy_from (snd x)) (sy_to (snd x)))
      (filter (fun x => N.eqb (sy_from (snd x)) n && N.eqb (d_delay (sy_params (snd x))) (k - step + 1)) l).
Proof.
  intros S D B K. unfold items_of. induction l as [|[j s] l IH]; [reflexivity|]. cbn [map snd] in S, D.
  apply Forall_cons_iff in S. apply Forall_cons_iff in D. destruct S as [[S1 [S2 S3]] S], D as [D1 D]. specialize (IH S D).
  cbn [filter snd]. destruct (sy_from s =? n)%N eqn:En; cbn [andb]; [|exact IH].
  cbn [map filter fst snd]. rewrite future_exact by assumption.
  destruct (N.eqb_spec (step + d_delay (sy_params s) - 1) k) as [E|E];
    destruct (N.eqb_spec (d_delay (sy_params s)) (k - step + 1)) as [E'|E']; try lia; cbn [map fst snd]; [|exact IH].
  rewrite IH. f_equal. unfold impact_of, w32. now rewrite !N.mod_small by assumption.
Qed.
Lemma map_snd_numbered l : map snd (numbered l) = l.
Proof.
  unfold numbered. generalize 0 as j. induction l as [|a l IH]; intros j; [reflexivity|]. cbn [length seq combine map]. now rewrite IH.
Qed.
(** What the messages of one step contribute to the step [k]. *)
Lemma step_items l step k ms : Forall syn_ok l -> Forall (fun s => 1 <= d_delay (sy_params s))%N l ->
  (step + two32 <= two64)%N -> (step <= k)%N ->
  map snd (filter (fun x => N.eqb (fst x) k) (flat_map (fun n => items_of step n (numbered l)) ms)) =
  flat_map (fun n => impacts_with_delay l n (k - step + 1)) ms.
Proof.
  intros S D B K. induction ms as [|n ms IH]; [reflexivity|]. cbn [flat_map]. rewrite filter_app, map_app, IH. f_equal.
  unfold impacts_with_delay. apply items_at; rewrite ?map_snd_numbered; assumption.
Qed.

(** [due] when one more step is known. *)
Lemma due_app a i k : length a <= k ->
  due (a ++ [i]) k = due a k ++ flat_map (fun n => impacts_with_delay (in_syn i) n (N.of_nat (k - length a) + 1)) (spikes_of (in_msgs i)).
Proof.
  intros H. unfold due.
  replace (S k) with (length a + S (k - length a)) by lia. rewrite seq_app, !flat_map_app. cbn [Nat.add seq flat_map].
  assert (Z : forall b x, length b <= x -> forall n, flat_map (fun n0 => match nth_error b n0 with
                 | Some i0 => flat_map (fun neuron => impacts_with_delay (in_syn i0) neuron (N.of_nat (k - n0) + 1)) (spikes_of (in_msgs i0))
                 | None => [] end) (seq x n) = []).
  { intros b x Hx n. revert x Hx. induction n as [|n IH]; intros x Hx; [reflexivity|]. cbn [seq flat_map].
    rewrite (proj2 (nth_error_None b x)) by assumption. apply IH. lia. }
  rewrite (Z (a ++ [i]) (S (length a))) by (rewrite app_length; cbn [length]; lia). rewrite (Z a (S (length a))) by lia.
  rewrite (proj2 (nth_error_None a (length a))) by lia. cbn [app]. rewrite !app_nil_r. f_equal.
  - apply flat_map_ext_in. intros n Hn. apply in_seq in Hn. rewrite nth_error_app1 by lia. reflexivity.
  - rewrite nth_error_app2, Nat.sub_diag by lia. reflexivity.
Qed.

(** ** Many steps *)
Section Run.
Context (sz : nat) (sz1 : 1 <= sz) (h : phead) (l : list dsyn) (s0 : N).
Context (Sok : Forall syn_ok l) (Dly : Forall (fun s => 1 <= d_delay (sy_params s))%N l).
Notation wf' := (wf (ph_uid h) (ph_pre h) (ph_post h)).
Notation sched' := (l_sched (ph_uid h) (ph_pre h) (ph_post h)).
Notation steps' := (l_steps (ph_uid h) (ph_pre h) (ph_post h)).
Definition of_h (v : vec gmsg) : gproj := mkGP (ph_uid h) (ph_pre h) (ph_post h) l v.
Record ginv (v : vec gmsg) (a : list ginput) (L : list gmsg) : Prop := mkGinv {
  gv_vok : vok v L; gv_cap : cap_ok v; gv_wf : Forall wf' L; gv_nodup : NoDup (map g_time L); gv_two : length L <= 2;
  gv_late : Forall (fun m => s0 + N.of_nat (length a) <= g_time m)%N L;
  gv_due : forall k, length a <= k -> at_key (s0 + N.of_nat k) L = due (map (as_in l) a) k }.
Lemma ginv_init : ginv v_empty [] [].
Proof.
  split; [apply vok_empty|left; reflexivity|constructor|constructor|cbn; lia|constructor|].
  intros k _. unfold due. induction (seq 0 (S k)) as [|x s IH]; [reflexivity|]. cbn [flat_map]. now destruct x.
Qed.

Definition next (a : list ginput) (i : ginput) (L : list gmsg) : list gmsg :=
  steps' (flat_map (fun n => items_of (s0 + N.of_nat (length a)) n (numbered l)) (spikes_of (map as_host (read_by i)))) L.

Lemma calculate_good v a L i : ginv v a L ->
  if (length (read_by i) <=? 2) && (length (next a i L) <=? 2)
  then exists v', g_calculate sz (of_h v) (s0 + N.of_nat (length a)) (map Obj (gi_bus i)) (length (gi_bus i)) (gi_idx i) = Ret (of_h v')
         /\ vok v' (next a i L) /\ cap_ok v'
  else g_calculate sz (of_h v) (s0 + N.of_nat (length a)) (map Obj (gi_bus i)) (length (gi_bus i)) (gi_idx i) = UB.
Proof.
  intros G. unfold g_calculate.
  pose proof (collect_ok sz sz1 (gi_bus i) (gi_idx i) v_empty [] vok_empty (or_introl eq_refl)) as C. cbn [length Nat.add app] in C.
  change (messages_at (gi_bus i) (gi_idx i)) with (read_by i) in C.
  destruct (length (read_by i) <=? 2); cbn [andb].
  - destruct C as [w [-> [W _]]]. cbn [obind]. destruct (vok_contains _ _ W) as [-> _]. cbn [obind].
    rewrite spikes_same.
    pose proof (spikes_ok (ph_uid h) (ph_pre h) (ph_post h) sz sz1 (of_h v) (s0 + N.of_nat (length a)) eq_refl eq_refl eq_refl
                  (spikes_of (map as_host (read_by i))) v L (gv_vok _ _ _ G) (gv_cap _ _ _ G) (gv_two _ _ _ G)) as S.
    cbv zeta in S. cbn [of_h gp_syn gp_msgs gp_uid gp_pre gp_post] in *.
    change (l_steps _ _ _ _ L) with (next a i L) in S. destruct (length (next a i L) <=? 2).
    + destruct S as [v' [-> [V' C']]]. cbn [obind]. exists v'. auto.
    + rewrite S. reflexivity.
  - rewrite C by lia. reflexivity.
Qed.

Lemma next_facts v a L i : ginv v a L -> (s0 + N.of_nat (length a) + two32 <= two64)%N ->
  Forall wf' (next a i L) /\ NoDup (map g_time (next a i L)) /\
  Forall (fun m => s0 + N.of_nat (length a) <= g_time m)%N (next a i L) /\
  forall k, length a <= k -> at_key (s0 + N.of_nat k) (next a i L) = due (map (as_in l) (a ++ [i])) k.
Proof.
  intros G B. unfold next. split; [apply steps_wf, (gv_wf _ _ _ G)|]. split; [apply steps_NoDup, (gv_nodup _ _ _ G)|]. split.
  - apply Forall_forall. intros m Hm. apply (in_map g_time) in Hm. apply steps_times in Hm. destruct Hm as [Hm|Hm].
    + apply in_map_iff in Hm. destruct Hm as [m' [<- Hm']]. pose proof (gv_late _ _ _ G) as X. rewrite Forall_forall in X. now apply X.
    + apply in_map_iff in Hm. destruct Hm as [[key im] [E Hx]]. cbn [fst] in E. apply in_flat_map in Hx. destruct Hx as [n [_ Hx]].
      unfold items_of in Hx. apply in_map_iff in Hx. destruct Hx as [[j s] [Ex Hs]]. cbn [fst snd] in Ex. injection Ex as Ek _.
      apply filter_In in Hs. destruct Hs as [Hs _]. apply (in_map snd) in Hs. rewrite map_snd_numbered in Hs. cbn [snd] in Hs.
      rewrite Forall_forall in Sok, Dly. destruct (Sok s Hs) as [S1 _]. pose proof (Dly s Hs) as D1.
      rewrite future_exact in Ek by assumption. lia.
  - intros k Hk. rewrite steps_at by apply (gv_wf _ _ _ G). rewrite (gv_due _ _ _ G) by assumption.
    rewrite step_items by (try assumption; lia). rewrite map_app. cbn [map]. rewrite due_app by now rewrite map_length.
    rewrite map_length. cbn [as_in in_syn in_msgs]. f_equal.
    replace (s0 + N.of_nat k - (s0 + N.of_nat (length a)) + 1)%N with (N.of_nat (k - length a) + 1)%N by lia. reflexivity.
Qed.

Lemma crowded_iff v a L i rest : ginv v a L -> (s0 + N.of_nat (length a) + two32 <= two64)%N ->
  (2 < length (next a i L) <-> crowded l (a ++ i :: rest) (length a)).
Proof.
  intros G B. destruct (next_facts v a L i G B) as [W [N [T D]]].
  assert (F : firstn (S (length a)) (a ++ i :: rest) = a ++ [i]).
  { rewrite firstn_app, firstn_all2 by lia. replace (S (length a) - length a) with 1 by lia. reflexivity. }
  unfold crowded. rewrite F. split.
  - intros H. set (X := next a i L) in *. clearbody X. destruct X as [|m1 [|m2 [|m3 X]]]; cbn [length] in H; try lia.
    assert (K : forall m, In m (m1 :: m2 :: m3 :: X) -> exists k, g_time m = (s0 + N.of_nat k)%N /\ length a <= k /\ due (map (as_in l) (a ++ [i])) k <> []).
    { intros m Hm. rewrite Forall_forall in T. pose proof (T m Hm) as Tm. exists (N.to_nat (g_time m - s0)).
      split; [lia|]. split; [lia|]. rewrite <- D by lia. apply at_key_In with (1 := W).
      replace (s0 + N.of_nat (N.to_nat (g_time m - s0)))%N with (g_time m) by lia. now apply in_map. }
    destruct (K m1 ltac:(cbn; auto)) as [k1 [E1 R1]]. destruct (K m2 ltac:(cbn; auto)) as [k2 [E2 R2]].
    destruct (K m3 ltac:(cbn; auto)) as [k3 [E3 R3]]. exists k1, k2, k3.
    cbn [map] in N. rewrite E1, E2, E3 in N. apply NoDup_cons_iff in N. destruct N as [N1 N]. apply NoDup_cons_iff in N. destruct N as [N2 _].
    cbn [In] in N1, N2. split; [intros ->; tauto|]. split; [intros ->; tauto|]. split; [intros ->; tauto|].
    intros k [-> | [-> | ->]]; assumption.
  - intros [k1 [k2 [k3 [D12 [D13 [D23 H]]]]]].
    assert (I : incl (map (fun k => s0 + N.of_nat k)%N [k1; k2; k3]) (map g_time (next a i L))).
    { intros x Hx. apply in_map_iff in Hx. destruct Hx as [k [<- Hk]]. destruct (H k) as [A1 A2]; [cbn in Hk; intuition|].
      apply at_key_In with (1 := W). rewrite D; assumption. }
    assert (Nd : NoDup (map (fun k => s0 + N.of_nat k)%N [k1; k2; k3])).
    { cbn [map]. apply NoDup_cons; [|apply NoDup_cons; [|apply NoDup_cons; [|constructor]]]; cbn [In]; intuition; lia. }
    pose proof (NoDup_incl_length Nd I) as X. rewrite !map_length in X. cbn [length] in X. lia.
Qed.

Definition out_of (s : N) (d : list impact) : list gmsg :=
  match d with [] => [] | _ => [GImpact (ph_uid h) s false (ph_pre h) (ph_post h) true d] end.
Lemma at_key_del k m L1 L2 : g_time m <> k -> at_key k (L1 ++ m :: L2) = at_key k (L1 ++ L2).
Proof.
  intros H. unfold at_key. induction L1 as [|x L1 IH]; cbn [app find].
  - destruct (N.eqb_spec (g_time m) k); [contradiction|reflexivity].
  - destruct (_ =? k)%N; [reflexivity|exact IH].
Qed.
Lemma route_good v a L i v' ord : ginv v a L -> (s0 + N.of_nat (length a) + two32 <= two64)%N -> any_orders ord ->
  vok v' (next a i L) -> cap_ok v' -> length (next a i L) <= 2 ->
  exists v2 out L2, g_route sz ord (of_h v') (s0 + N.of_nat (length a)) = Ret (of_h v2, out) /\
    to_std out = Ret (out_of (s0 + N.of_nat (length a)) (due (map (as_in l) (a ++ [i])) (length a))) /\
    ginv v2 (a ++ [i]) L2.
Proof.
  intros G B O V C L2. destruct (next_facts v a L i G B) as [W [N [T D]]]. set (X := next a i L) in *. clearbody X.
  unfold g_route. cbn [of_h gp_msgs gp_uid gp_pre gp_post gp_syn].
  set (key := (s0 + N.of_nat (length a))%N) in *. pose proof (D (length a) (le_n _)) as Da. change (s0 + N.of_nat (length a))%N with key in Da.
  assert (Late : forall Y, incl Y X -> ~ In key (map g_time Y) -> Forall (fun m => s0 + N.of_nat (length (a ++ [i])) <= g_time m)%N Y).
  { intros Y I H. apply Forall_forall. intros m Hm. rewrite Forall_forall in T. pose proof (T m (I m Hm)).
    rewrite app_length. cbn [length]. assert (g_time m <> key) by (intros E; apply H; rewrite <- E; now apply in_map). unfold key in *. lia. }
  destruct (in_dec N.eq_dec key (map g_time X)) as [Hin|Hout].
  - apply in_map_iff in Hin. destruct Hin as [m [Tm Hm]]. destruct (in_split _ _ Hm) as [A [Bq ->]].
    rewrite map_app in N. cbn [map] in N. rewrite Tm in N. pose proof (NoDup_remove_2 _ _ _ N) as Nk. rewrite <- map_app in Nk.
    assert (F : Forall (fun x => g_time x <> key) (A ++ Bq)).
    { apply Forall_forall. intros x Hx E. apply Nk. rewrite <- E. now apply in_map. }
    destruct (extract_one sz sz1 key A m Bq Tm F (v_size v') 0 v' V C ltac:(lia)) as [v2 [out [-> [V2 [C2 [Vo Co]]]]]].
    { rewrite (ok_size _ _ V). lia. }
    cbn [obind fst snd].
    destruct (actualized_ok imp_elem ord out [m] O Vo) as [w [-> Vw]]; [vm_compute; discriminate|left; discriminate|]. cbn [obind].
    exists v2, w, (A ++ Bq). split; [reflexivity|].
    assert (At : at_key key (A ++ m :: Bq) <> []).
    { apply at_key_In with (1 := W). rewrite map_app, in_app_iff. cbn [map In]. auto. }
    split.
    + destruct (vok_contains _ _ Vw) as [-> _]. f_equal. rewrite <- Da.
      rewrite Forall_forall in W. destruct (W m Hm) as [t [lm [-> Hl]]]. cbn [g_time] in Tm. subst t.
      assert (AtE : at_key key (A ++ GImpact (ph_uid h) key false (ph_pre h) (ph_post h) true lm :: Bq) = lm).
      { unfold at_key. clear - F. induction A as [|x A IH]; cbn [app find g_time]; [now rewrite N.eqb_refl|].
        cbn [app] in F. apply Forall_cons_iff in F. destruct F as [F1 F2]. destruct (N.eqb_spec (g_time x) key); [contradiction|]. now apply IH. }
      rewrite AtE. destruct lm; [contradiction|reflexivity].
    + constructor; auto.
      * apply Forall_app in W. destruct W as [W1 W2]. apply Forall_cons_iff in W2. apply Forall_app. tauto.
      * rewrite map_app. eapply NoDup_remove_1. exact N.
      * rewrite app_length in L2 |- *. cbn [length] in L2. lia.
      * apply Late; [|assumption]. intros x Hx. apply in_app_iff in Hx. apply in_app_iff. cbn [In]. tauto.
      * intros k Hk. rewrite app_length in Hk. cbn [length] in Hk.
        rewrite <- D by lia. symmetry. apply at_key_del. rewrite Tm. unfold key. lia.
  - rewrite (extract_none sz sz1 key (v_size v') 0 v' v_empty X V).
    + cbn [obind fst snd]. destruct (actualized_ok imp_elem ord v_empty [] O vok_empty) as [w [-> Vw]]; [vm_compute; discriminate|right; reflexivity|].
      cbn [obind]. exists v', w, X. split; [reflexivity|].
      assert (At : at_key key X = []).
      { destruct (at_key key X) eqn:E; [reflexivity|]. exfalso. apply Hout. apply at_key_In with (1 := W). congruence. }
      split.
      * destruct (vok_contains _ _ Vw) as [-> _]. now rewrite <- Da, At.
      * constructor; auto.
        -- apply Late; [apply incl_refl|assumption].
        -- intros k Hk. rewrite app_length in Hk. cbn [length] in Hk. apply D. lia.
    + intros k m _ Hm E. apply Hout. rewrite <- E. apply in_map. eapply nth_error_In. exact Hm.
Qed.

Definition bad (ins : list ginput) (t : nat) : Prop :=
  crowded l ins t \/ exists i, nth_error ins t = Some i /\ 2 < length (read_by i).

Lemma due_prefix ins i rest k : k < length ins -> due (ins ++ i :: rest) k = due ins k.
Proof.
  intros H. unfold due. apply flat_map_ext_in. intros n Hn. apply in_seq in Hn. rewrite nth_error_app1 by lia. reflexivity.
Qed.
Lemma run_cases : forall ins a v L, ginv v a L -> Forall (fun i => any_orders (gi_ord i)) ins ->
  (s0 + N.of_nat (length a + length ins) + two32 <= two64)%N ->
  ((forall t, length a <= t < length a + length ins -> ~ bad (a ++ ins) t) /\
   exists outs, g_run sz (s0 + N.of_nat (length a)) ins (of_h v) = Ret outs /\ length outs = length ins /\
     forall t, t < length ins -> nth_error outs t =
       Some (out_of (s0 + N.of_nat (length a + t)) (due (map (as_in l) (a ++ ins)) (length a + t)))) \/
  ((exists t, length a <= t < length a + length ins /\ bad (a ++ ins) t) /\
   g_run sz (s0 + N.of_nat (length a)) ins (of_h v) = UB).
Proof.
  induction ins as [|i ins IH]; intros a v L G O B.
  - left. split; [cbn [length]; intros; lia|]. exists []. split; [reflexivity|]. split; [reflexivity|]. cbn [length]. intros; lia.
  - apply Forall_cons_iff in O. destruct O as [O1 O2]. cbn [length] in B.
    pose proof (calculate_good v a L i G) as Cg. pose proof (crowded_iff v a L i ins G ltac:(lia)) as Cr.
    assert (Ni : nth_error (a ++ i :: ins) (length a) = Some i) by (rewrite nth_error_app2, Nat.sub_diag by lia; reflexivity).
    cbn [g_run].
    destruct (Nat.leb_spec (length (read_by i)) 2) as [H1|H1]; [destruct (Nat.leb_spec (length (next a i L)) 2) as [H2|H2]|]; cbn [andb] in Cg.
    + destruct Cg as [v1 [-> [V1 C1]]]. cbn [obind].
      destruct (route_good v a L i v1 (gi_ord i) G ltac:(lia) O1 V1 C1 H2) as [v2 [out [L2 [-> [To G2]]]]].
      cbn [obind fst snd]. rewrite To. cbn [obind].
      rewrite Stdp_Proofs2.add64_small by (change two64 with 18446744073709551616%N in *; change two32 with 4294967296%N in *; lia).
      assert (El : length (a ++ [i]) = S (length a)) by (rewrite app_length; cbn [length]; lia).
      destruct (IH (a ++ [i]) v2 L2 G2 O2) as [[Nb [outs [R [Lo H]]]]|[[t [Ht Hb]] R]].
      { rewrite El. change two64 with 18446744073709551616%N in *; change two32 with 4294967296%N in *. lia. }
      * left. rewrite El in *. rewrite <- app_assoc in *. cbn [app length] in *. split.
        -- intros t Ht. destruct (Nat.eq_dec t (length a)) as [->|Hn]; [|apply Nb; lia].
           intros [X|[i' [X Y]]]; [apply Cr in X; lia|]. rewrite Ni in X. injection X as <-. lia.
        -- replace (s0 + N.of_nat (S (length a)))%N with (s0 + N.of_nat (length a) + 1)%N in R by lia. rewrite R. cbn [obind].
           eexists. split; [reflexivity|]. split; [cbn [length]; lia|]. intros [|t] Ht; cbn [nth_error].
           ++ rewrite Nat.add_0_r. f_equal. f_equal. rewrite !map_app. cbn [map].
              destruct ins as [|i2 ins]; [reflexivity|]. cbn [map].
              replace (map (as_in l) a ++ as_in l i :: as_in l i2 :: map (as_in l) ins)
                with ((map (as_in l) a ++ [as_in l i]) ++ as_in l i2 :: map (as_in l) ins) by (rewrite <- app_assoc; reflexivity).
              symmetry. apply due_prefix. rewrite app_length, map_length. cbn [length]. lia.
           ++ rewrite H by lia. replace (length a + S t) with (S (length a) + t) by lia. reflexivity.
      * right. rewrite El in *. rewrite <- app_assoc in *. cbn [app length] in *. split.
        -- exists t. split; [lia|assumption].
        -- replace (s0 + N.of_nat (S (length a)))%N with (s0 + N.of_nat (length a) + 1)%N in R by lia. rewrite R. reflexivity.
    + right. split; [|now rewrite Cg]. exists (length a). split; [cbn [length]; lia|]. left. now apply Cr.
    + right. split; [|now rewrite Cg]. exists (length a). split; [cbn [length]; lia|]. right. eauto.
Qed.
End Run.
