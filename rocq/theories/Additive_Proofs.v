From Verif Require Import Base ListLemmas Messaging_Model Projection_Model Projection_Spec Projection_Proofs Delta_Model Delta_Spec Delta_Proofs Additive_Model Additive_Spec.

Lemma index_ok_gen {P Q} (p : proj P) (l : list (synapse Q)) : index_ok p ->
  map (fun s => (sy_from s, sy_to s)) l = map (fun s => (sy_from s, sy_to s)) (p_syn p) ->
  index_ok (mkProj l (p_index p) (p_updated p)).
Proof.
  intros H E Hu. cbn [p_updated p_index p_syn] in *. rewrite (H Hu). clear H Hu. generalize 0. revert E. generalize (p_syn p). clear p.
  induction l as [|s l IH]; intros [|s' l'] E i; cbn [map index_from] in *; try discriminate; [reflexivity|].
  injection E as E1 E2 E. rewrite E1, E2. f_equal. now apply IH.
Qed.
Lemma set_nth_spec {P} (s : synapse P) : forall l i, i < length l -> exists l', set_nth i s l = Some l' /\ length l' = length l /\
  forall j, nth_error l' j = if Nat.eqb j i then Some s else nth_error l j.
Proof.
  induction l as [|x l IH]; intros i Hi; [cbn in Hi; lia|]. destruct i as [|i]; cbn [set_nth].
  - exists (s :: l). split; [reflexivity|]. split; [reflexivity|]. intros [|j]; reflexivity.
  - destruct (IH i) as (l' & E & Hl & Hn); [cbn in Hi; lia|]. rewrite E. exists (x :: l').
    split; [reflexivity|]. split; [cbn; congruence|]. intros [|j]; cbn [nth_error Nat.eqb]; auto.
Qed.

Lemma iter_inner {A} (f : A -> A) : forall k a, Nat.iter (S k) f a = Nat.iter k f (f a).
Proof. induction k as [|k IH]; intros a; [reflexivity|]. change (f (Nat.iter (S k) f a) = f (Nat.iter k f (f a))). now rewrite IH. Qed.
Definition pushed (w : history) (time : N) (s : asyn) : asyn := mkSyn (push_time w time (sy_params s)) (sy_from s) (sy_to s).
Lemma push_at_spec w time : forall idx l, NoDup idx -> (forall i, In i idx -> i < length l) ->
  exists l', push_at w time idx l = Ret l' /\ length l' = length l /\
    forall j, nth_error l' j = match nth_error l j with
                               | Some s => Some (if in_dec Nat.eq_dec j idx then pushed w time s else s)
                               | None => None
                               end.
Proof.
  induction idx as [|i idx IH]; intros l Hnd Hr; cbn [push_at].
  - exists l. split; [reflexivity|]. split; [reflexivity|]. intros j. destruct (nth_error l j); reflexivity.
  - inversion Hnd as [|x y Hni Hnd']; subst. assert (Hi : i < length l) by (apply Hr; now left).
    destruct (nth_error l i) as [s|] eqn:Es; [|apply nth_error_None in Es; lia].
    fold (pushed w time s). destruct (set_nth_spec (pushed w time s) l i Hi) as (l1 & -> & Hl1 & Hn1).
    destruct (IH l1 Hnd') as (l' & E & Hl & Hn); [intros k Hk; rewrite Hl1; apply Hr; now right|].
    exists l'. split; [exact E|]. split; [congruence|]. intros j. rewrite Hn, Hn1. destruct (Nat.eqb_spec j i) as [->|Hji].
    + rewrite Es. destruct (in_dec Nat.eq_dec i idx); [contradiction|]. destruct (in_dec Nat.eq_dec i (i :: idx)); [reflexivity|]. exfalso. apply n0. now left.
    + destruct (nth_error l j); [|reflexivity]. f_equal.
      destruct (in_dec Nat.eq_dec j idx), (in_dec Nat.eq_dec j (i :: idx)) as [H|H]; try reflexivity.
      * exfalso. apply H. now right.
      * destruct H; [congruence|contradiction].
Qed.

Definition pushes (w : history) (time : N) (k : nat) (a : aparams) : aparams := Nat.iter k (push_time w time) a.
Definition upd (f : asyn -> aparams) (s : asyn) : asyn := mkSyn (f s) (sy_from s) (sy_to s).
Lemma append_spec w time : forall idx p, index_ok p ->
  exists p', append_spike_times w ByPost time idx p = Ret p' /\ index_ok p' /\
    p_syn p' = map (upd (fun s => pushes w time (count_occ N.eq_dec idx (sy_to s)) (sy_params s))) (p_syn p).
Proof.
  induction idx as [|n idx IH]; intros p Hok; cbn [append_spike_times].
  - exists p. split; [reflexivity|]. split; [exact Hok|]. cbn [count_occ]. rewrite map_ext with (g := fun s => s); [now rewrite map_id|].
    intros [a f t]. reflexivity.
  - destruct (find_synapses ByPost n p) as [p1 r] eqn:Ef.
    destruct (find_spec ByPost n p p1 r Hok Ef) as (E1 & _ & Hok1 & Hnd & Hin).
    destruct (push_at_spec w time r (p_syn p1) Hnd) as (l & El & Hl & Hn).
    { intros i Hi. apply Hin in Hi as (s & Hs & _). rewrite E1. apply nth_error_Some. congruence. }
    rewrite El. cbn [obind].
    assert (Em : l = map (upd (fun s => if N.eqb (sy_to s) n then push_time w time (sy_params s) else sy_params s)) (p_syn p)).
    { apply nth_error_ext. intros j. rewrite Hn, nth_error_map, E1. destruct (nth_error (p_syn p) j) as [s|] eqn:Es; [|reflexivity].
      cbn [option_map]. f_equal. unfold upd. destruct (in_dec Nat.eq_dec j r) as [H|H].
      - apply Hin in H as (s' & Hs' & Ht). cbn [syn_end] in Ht. assert (s' = s) by congruence. subst s'. rewrite (proj2 (N.eqb_eq _ _) Ht). reflexivity.
      - destruct (N.eqb_spec (sy_to s) n) as [Ht|Ht]; [|destruct s; reflexivity]. exfalso. apply H. apply Hin. exists s. split; [exact Es|exact Ht]. }
    assert (Hokl : index_ok (mkProj l (p_index p1) (p_updated p1))).
    { apply index_ok_gen; [exact Hok1|]. rewrite Em, E1, map_map. apply map_ext. reflexivity. }
    destruct (IH _ Hokl) as (p' & E & Hok' & Hs). exists p'. split; [exact E|]. split; [exact Hok'|].
    rewrite Hs. cbn [p_syn]. rewrite Em, map_map. apply map_ext. intros s. unfold upd. cbn [sy_params sy_from sy_to count_occ]. f_equal.
    destruct (N.eq_dec n (sy_to s)) as [<-|Hne].
    + rewrite N.eqb_refl. unfold pushes. now rewrite <- iter_inner.
    + destruct (N.eqb_spec (sy_to s) n); [congruence|reflexivity].
Qed.

(** The effect of pushes on the histories. *)
Lemma fill_app period h a b : fill period h (a ++ b) = fill period (fill period h a) b.
Proof. unfold fill. apply fold_left_app. Qed.
Definition room_of (a : aparams) : flt := f_add (a_tau_minus a) (a_tau_plus a).
Definition with_times (a : aparams) (pre post : list N) : aparams := mkAP (a_delta a) (a_tau_plus a) (a_tau_minus a) pre post.
Lemma pushes_post time k a : pushes HPost time k a = with_times a (a_pre a) (fill (room_of a) (a_post a) (repeat time k)).
Proof.
  revert a. induction k as [|k IH]; intros a; [destruct a; reflexivity|]. unfold pushes. rewrite iter_inner. fold (pushes HPost time k (push_time HPost time a)).
  rewrite IH. unfold push_time, room_of. cbn [repeat]. unfold fill at 2. cbn [fold_left]. fold (room_of a).
  destruct (f_lt _ _); destruct a; reflexivity.
Qed.
Lemma pushes_pre time k a : pushes HPre time k a = with_times a (fill (room_of a) (a_pre a) (repeat time k)) (a_post a).
Proof.
  revert a. induction k as [|k IH]; intros a; [destruct a; reflexivity|]. unfold pushes. rewrite iter_inner. fold (pushes HPre time k (push_time HPre time a)).
  rewrite IH. unfold push_time, room_of. cbn [repeat]. unfold fill at 2. cbn [fold_left]. fold (room_of a).
  destruct (f_lt _ _); destruct a; reflexivity.
Qed.

Definition filled (pops : pop_map) (ms : list message) (s : asyn) : aparams :=
  let a := sy_params s in
  with_times a (fill (room_of a) (a_pre a) (mentions pops and_spike ms (sy_to s)))
               (fill (room_of a) (a_post a) (mentions pops any_stdp ms (sy_to s))).
Lemma map_upd_id (l : list asyn) (f : asyn -> aparams) : (forall s, f s = sy_params s) -> map (upd f) l = l.
Proof. intros H. rewrite map_ext with (g := fun s => s); [apply map_id|]. intros [a b c]. unfold upd. now rewrite H. Qed.

Lemma init_spec pops : forall ms p, index_ok p ->
  exists p' ms', init_projection pops ms p = Ret (p', ms') /\ index_ok p' /\
    p_syn p' = map (upd (filled pops ms)) (p_syn p) /\ spikes_of ms' = spikes_of (effective pops ms).
Proof.
  induction ms as [|m ms IH]; intros p Hok; cbn [init_projection].
  - exists p, []. split; [reflexivity|]. split; [exact Hok|]. split; [|reflexivity]. symmetry. apply map_upd_id. intros [[] b c]. reflexivity.
  - assert (Hone : exists p1 m1,
      match m with
      | SpikeMsg s time idx =>
          match pops s with
          | None => Ret (p, m)
          | Some k =>
              obind (append_spike_times HPost ByPost time idx p) (fun p1 =>
              obind (match k with
                     | STDPAndSpike => append_spike_times HPre ByPost time idx p1
                     | STDPOnly => Ret p1
                     end) (fun p2 =>
              Ret (p2, match k with STDPOnly => SpikeMsg s time [] | STDPAndSpike => m end)))
          end
      | _ => Ret (p, m)
      end = Ret (p1, m1) /\ index_ok p1 /\ p_syn p1 = map (upd (filled pops [m])) (p_syn p) /\
      spikes_of [m1] = spikes_of (effective pops [m])).
    { destruct m as [u time idx|u t a b f l].
      2: { exists p, (ImpactMsg u t a b f l). split; [reflexivity|]. split; [exact Hok|]. split; [|reflexivity].
           symmetry. apply map_upd_id. intros [[] b0 c]. reflexivity. }
      destruct (pops u) as [k|] eqn:Ek.
      2: { exists p, (SpikeMsg u time idx). split; [reflexivity|]. split; [exact Hok|]. split.
           - symmetry. apply map_upd_id. intros [[] b0 c]. unfold filled, mentions. cbn [flat_map]. rewrite Ek. reflexivity.
           - unfold effective, only_stdp. cbn [filter]. rewrite Ek. reflexivity. }
      destruct (append_spec HPost time idx p Hok) as (p1 & E1 & Hok1 & Hs1). rewrite E1. cbn [obind].
      destruct k.
      - cbn [obind]. exists p1, (SpikeMsg u time []). split; [reflexivity|]. split; [exact Hok1|]. split.
        + rewrite Hs1. apply map_ext. intros s. unfold upd. f_equal. rewrite pushes_post. unfold filled, mentions. cbn [flat_map]. rewrite Ek. unfold any_stdp; cbn [and_spike].
          rewrite !app_nil_r. reflexivity.
        + unfold effective, only_stdp. cbn [filter]. rewrite Ek. reflexivity.
      - destruct (append_spec HPre time idx p1 Hok1) as (p2 & E2 & Hok2 & Hs2). rewrite E2. cbn [obind].
        exists p2, (SpikeMsg u time idx). split; [reflexivity|]. split; [exact Hok2|]. split.
        + rewrite Hs2, Hs1, map_map. apply map_ext. intros s. unfold upd. cbn [sy_to sy_from sy_params]. f_equal. rewrite pushes_pre, pushes_post. unfold filled, mentions. cbn [flat_map]. rewrite Ek. unfold any_stdp; cbn [and_spike].
          rewrite !app_nil_r. reflexivity.
        + unfold effective, only_stdp. cbn [filter]. rewrite Ek. reflexivity. }
    destruct Hone as (p1 & m1 & E1 & Hok1 & Hs1 & Hm1). rewrite E1. cbn [obind fst snd].
    destruct (IH p1 Hok1) as (p' & ms' & E & Hok' & Hs & Hm). rewrite E. cbn [obind fst snd].
    exists p', (m1 :: ms'). split; [reflexivity|]. split; [exact Hok'|]. split.
    + rewrite Hs, Hs1, map_map. apply map_ext. intros s. unfold upd. cbn [sy_to sy_from sy_params]. f_equal.
      unfold filled, mentions. cbn [sy_params sy_to flat_map]. rewrite !app_nil_r. unfold with_times, room_of. cbn [a_delta a_tau_plus a_tau_minus a_pre a_post].
      now rewrite !fill_app.
    + change (m1 :: ms') with ([m1] ++ ms'). change (m :: ms) with ([m] ++ ms). unfold effective, spikes_of in *.
      rewrite filter_app, !flat_map_app. congruence.
Qed.

Lemma delta_w_inner_eq expf tp tm t_f : forall post w, delta_w_inner expf tp tm t_f post w =
  fold_left (fun w e => f_add w (stdp_w expf tp tm (f_of_Z (Z.of_N (sub64 (snd e) (fst e)))))) (map (fun y => (t_f, y)) post) w.
Proof. induction post as [|x post IH]; intros w; cbn [delta_w_inner map fold_left fst snd]; [reflexivity|]. apply IH. Qed.
Lemma delta_w_eq expf tp tm post : forall pre w, delta_w expf tp tm pre post w =
  fold_left (fun w e => f_add w (stdp_w expf tp tm (f_of_Z (Z.of_N (sub64 (snd e) (fst e)))))) (list_prod pre post) w.
Proof.
  induction pre as [|x pre IH]; intros w; cbn [delta_w list_prod fold_left]; [reflexivity|].
  rewrite IH, fold_left_app, delta_w_inner_eq. reflexivity.
Qed.
Lemma trained_eq expf pops ms l :
  modify_weights expf (map (upd (filled pops ms)) l) = map (trained expf pops ms) l.
Proof.
  unfold modify_weights. rewrite map_map. apply map_ext. intros s. unfold upd, trained. cbn [sy_params sy_from sy_to]. f_equal.
  unfold modify_weight, filled, with_times, applies, pre_history, post_history, is_full, room_of, pair_sum. cbn [a_delta a_tau_plus a_tau_minus a_pre a_post].
  destruct (_ && _); [|reflexivity]. now rewrite delta_w_eq.
Qed.

Definition as_delta (p : aproj) : dproj := mkProj (map delta_view (p_syn p)) (p_index p) (p_updated p).
Lemma index_ok_as_delta p : index_ok p -> index_ok (as_delta p).
Proof. intros H. apply index_ok_gen; [exact H|]. rewrite map_map. reflexivity. Qed.
Lemma view_filled pops ms l : map delta_view (map (upd (filled pops ms)) l) = map delta_view l.
Proof. rewrite map_map. reflexivity. Qed.

Lemma step_simulates expf h step pops ms p q : index_ok p ->
  exists p' dp q' o, additive_step expf h step pops ms p q = Ret (p', q', o) /\
    calculate_projection h step (effective pops ms) (as_delta p) q = Ret (dp, q', o) /\
    index_ok p' /\ p_syn p' = map (trained expf pops ms) (p_syn p).
Proof.
  intros Hok. unfold additive_step, calculate_projection.
  destruct (init_spec pops ms p Hok) as (p1 & ms1 & E1 & Hok1 & Hs1 & Hm1). rewrite E1. cbn [obind].
  fold (as_delta p1). rewrite Hm1.
  destruct (do_spikes_eq h step (spikes_of (effective pops ms)) (as_delta p1) q (index_ok_as_delta _ Hok1)) as (d1 & F1 & G1 & K1).
  destruct (do_spikes_eq h step (spikes_of (effective pops ms)) (as_delta p) q (index_ok_as_delta _ Hok)) as (d2 & F2 & G2 & K2).
  assert (Ev : p_syn (as_delta p1) = p_syn (as_delta p)) by (unfold as_delta; cbn [p_syn]; now rewrite Hs1, view_filled).
  rewrite F1, F2, Ev. cbn [obind fst snd].
  set (qq := fold_left _ _ q).
  exists (mkProj (modify_weights expf (p_syn p1)) (p_index d1) (p_updated d1)), d2, (match q_find step qq with Some _ => q_erase step qq | None => qq end), (q_find step qq).
  split; [destruct (q_find step qq); reflexivity|]. split; [destruct (q_find step qq); reflexivity|].
  assert (Ht : modify_weights expf (p_syn p1) = map (trained expf pops ms) (p_syn p)) by (rewrite Hs1; apply trained_eq).
  split; [|cbn [p_syn]; exact Ht].
  apply index_ok_gen; [exact K1|]. rewrite G1, Ht, Ev. cbn [as_delta p_syn]. rewrite !map_map. reflexivity.
Qed.

(** The run of the delta projection that an additive one amounts to. *)
Fixpoint seen (expf : flt -> flt) (pops : pop_map) (ins : list (list message)) (l : list asyn) : list pinput :=
  match ins with
  | [] => []
  | ms :: t => mkIn (map delta_view l) (effective pops ms) :: seen expf pops t (map (trained expf pops ms) l)
  end.
Lemma run_simulates expf h pops : forall ins step p dp q, index_ok p -> index_ok dp ->
  ends_of (p_syn dp) = ends_of (map delta_view (p_syn p)) ->
  forall outs, run_projection h step (seen expf pops ins (p_syn p)) dp q = Ret outs ->
  exists p', additive_run expf h step pops ins p q = Ret (outs, p') /\
    p_syn p' = fold_left (fun l ms => map (trained expf pops ms) l) ins (p_syn p).
Proof.
  induction ins as [|ms ins IH]; intros step p dp q Hok Hdp He outs; cbn [seen run_projection additive_run fold_left].
  - intros [= <-]. exists p. auto.
  - cbn [in_syn in_msgs].
    destruct (step_simulates expf h step pops ms p q Hok) as (p' & d & q' & o & E1 & E2 & Hok' & Hs').
    rewrite E1. cbn [obind].
    assert (E3 : exists d', calculate_projection h step (effective pops ms) (mkProj (map delta_view (p_syn p)) (p_index dp) (p_updated dp)) q = Ret (d', q', o) /\
                 index_ok d' /\ p_syn d' = map delta_view (p_syn p)).
    { assert (Hi : index_ok (mkProj (map delta_view (p_syn p)) (p_index dp) (p_updated dp))).
      { apply index_ok_gen; [exact Hdp|]. symmetry. exact He. }
      revert E2. unfold calculate_projection.
      destruct (do_spikes_eq h step (spikes_of (effective pops ms)) (as_delta p) q (index_ok_as_delta _ Hok)) as (d2 & F2 & _ & _).
      destruct (do_spikes_eq h step (spikes_of (effective pops ms)) _ q Hi) as (d3 & F3 & G3 & K3).
      rewrite F2, F3. cbn [obind fst snd as_delta p_syn] in *. destruct (q_find step _); intros [= _ <- <-]; exists d3; auto. }
    destruct E3 as (d' & E3 & Hokd & Hsd). rewrite E3. cbn [obind].
    destruct (run_projection h (add64 step 1) (seen expf pops ins (map (trained expf pops ms) (p_syn p))) d' q') as [os| |] eqn:E4; cbn [obind]; try discriminate.
    intros [= <-]. rewrite <- Hs' in E4.
    destruct (IH (add64 step 1) p' d' q' Hok' Hokd) with (outs := os) as (pf & E5 & E6); [|exact E4|].
    { rewrite Hsd, Hs'. unfold ends_of. rewrite !map_map. reflexivity. }
    rewrite E5. cbn [obind fst snd]. exists pf. split; [reflexivity|]. now rewrite E6, Hs'.
Qed.

Lemma sound_additive_ok p : sound_additive p -> index_ok p.
Proof.
  intros (p0 & fresh & ops & tr & H0 & Hr & Hu). destruct H0 as [[-> ->]|[(g & k & ->) ->]].
  - eapply run_ok; eauto using index_ok_empty.
  - eapply run_ok; eauto using index_ok_generated.
Qed.
Lemma seen_facts expf pops (Q : asyn -> Prop) (HQ : forall ms s, Q s -> Q (trained expf pops ms s)) : forall ins l,
  length (seen expf pops ins l) = length ins /\
  Forall (fun i => ends_of (in_syn i) = ends_of (map delta_view l)) (seen expf pops ins l) /\
  (Forall Q l -> Forall (fun i => exists l', in_syn i = map delta_view l' /\ Forall Q l') (seen expf pops ins l)) /\
  (forall t i, nth_error (seen expf pops ins l) t = Some i <->
     exists ms lt, nth_error ins t = Some ms /\ nth_error (training expf pops ins l) t = Some lt /\ i = mkIn (map delta_view lt) (effective pops ms)).
Proof.
  induction ins as [|ms ins IH]; intros l; cbn [seen training length].
  - split; [reflexivity|]. split; [constructor|]. split; [constructor|]. intros [|t] i; cbn [nth_error]; split; try discriminate; intros (a & b & c & _); discriminate.
  - destruct (IH (map (trained expf pops ms) l)) as (H1 & H2 & H3 & H4). split; [congruence|]. split.
    + constructor; [reflexivity|]. eapply Forall_impl; [|exact H2]. cbn beta. intros i ->. unfold ends_of. rewrite !map_map. reflexivity.
    + split.
      * intros HF. constructor; [exists l; auto|]. apply H3. apply Forall_map. eapply Forall_impl; [|exact HF]. auto.
      * intros [|t] i; cbn [nth_error]; [|apply H4]. split.
        -- intros [= <-]. exists ms, l. auto.
        -- intros (ms' & lt & [= <-] & [= <-] & ->). reflexivity.
Qed.
