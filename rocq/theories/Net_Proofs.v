(** Proofs about one step of a projection of any kind. *)
From Verif Require Import Base ListLemmas Messaging_Model Messaging_Spec Projection_Model Projection_Spec Projection_Proofs
  Delta_Model Delta_Spec Delta_Proofs Neuron_Model Pipeline_Model Pipeline_Spec Pipeline_Proofs Pipeline_Proofs2
  Stdp_Model Additive_Model Additive_Spec Additive_Proofs Train_Model Train_Proofs Net_Model Net_Spec.

Lemma sound_ok {P} (p : proj P) : sound p -> index_ok p.
Proof.
  intros (p0 & fresh & ops & tr & H0 & Hr & Hu). destruct H0 as [[-> ->]|[(g & k & ->) ->]].
  - eapply run_ok; eauto using index_ok_empty.
  - eapply run_ok; eauto using index_ok_generated.
Qed.

(** ** Resource-STDP projections *)
Definition touch (step : N) (s : rsyn) : rsyn := mkSyn (on_rule (with_spike step) (sy_params s)) (sy_from s) (sy_to s).
Definition touched (step : N) (spikes : list N) (s : rsyn) : rsyn :=
  if existsb (N.eqb (sy_from s)) spikes then touch step s else s.
Definition r_as_delta (p : rproj) : dproj := mkProj (map r_delta (p_syn p)) (p_index p) (p_updated p).
Lemma touch_twice step s : touch step (touch step s) = touch step s.
Proof. reflexivity. Qed.
Lemma map_put {A B} (f : A -> B) x : forall l k, map f (put k x l) = put k (f x) (map f l).
Proof. induction l as [|y l IH]; intros [|k]; cbn [put map]; [reflexivity|reflexivity|reflexivity|]. now rewrite IH. Qed.
Lemma put_same {A} (x : A) : forall l k, nth_error l k = Some x -> put k x l = l.
Proof.
  induction l as [|y l IH]; intros [|k] H; cbn [put nth_error] in *; try discriminate.
  - now injection H as ->.
  - now rewrite IH.
Qed.
Lemma r_synapses_spec h step : forall idx l q, NoDup idx -> (forall i, In i idx -> i < length l) ->
  exists l' q', r_synapses h step l idx q = Ret (l', q') /\ do_synapses h step (map r_delta l) idx q = Ret q' /\
    length l' = length l /\ forall j, nth_error l' j = match nth_error l j with
      | Some s => Some (if in_dec Nat.eq_dec j idx then touch step s else s) | None => None end.
Proof.
  induction idx as [|i idx IH]; intros l q Hn Hi; cbn [r_synapses do_synapses].
  - exists l, q. split; [reflexivity|]. split; [reflexivity|]. split; [reflexivity|]. intros j. destruct (nth_error l j); [|reflexivity].
    destruct (in_dec _ _ _) as [[]|]; reflexivity.
  - apply NoDup_cons_iff in Hn as [Hni Hn]. destruct (nth_error l i) as [s|] eqn:Es.
    2:{ apply nth_error_None in Es. specialize (Hi i (or_introl eq_refl)). lia. }
    cbv zeta. fold (touch step s). rewrite nth_error_map, Es. cbn [option_map].
    change (r_delta (touch step s)) with (r_delta s). change (rp_delta (sy_params (touch step s))) with (rp_delta (sy_params s)).
    change (d_delay (sy_params (r_delta s))) with (d_delay (rp_delta (sy_params s))).
    set (q1 := schedule _ _ _ _ q).
    destruct (IH (put i (touch step s) l) q1 Hn) as (l' & q' & E1 & E2 & L & Hnth).
    { intros j Hj. rewrite put_len. apply Hi. now right. }
    exists l', q'. split; [exact E1|]. split.
    + rewrite map_put in E2. rewrite put_same in E2; [exact E2|]. rewrite nth_error_map, Es. reflexivity.
    + rewrite put_len in L. split; [exact L|]. intros j. rewrite Hnth, put_nth. destruct (Nat.eqb_spec j i) as [->|Hne].
      * destruct (Nat.ltb_spec i (length l)); [|specialize (Hi i (or_introl eq_refl)); lia]. rewrite Es. f_equal.
        destruct (in_dec Nat.eq_dec i (i :: idx)) as [_|H0]; [|exfalso; apply H0; now left].
        destruct (in_dec Nat.eq_dec i idx); [contradiction|reflexivity].
      * destruct (nth_error l j); [|reflexivity]. f_equal.
        destruct (in_dec Nat.eq_dec j idx) as [H|H], (in_dec Nat.eq_dec j (i :: idx)) as [H0|H0]; try reflexivity.
        -- exfalso. apply H0. now right.
        -- destruct H0; [congruence|contradiction].
Qed.
Lemma touched_cons step n t s :
  touched step (n :: t) s = touched step t (if N.eqb (sy_from s) n then touch step s else s).
Proof.
  unfold touched. cbn [existsb]. destruct (N.eqb (sy_from s) n) eqn:E; cbn [orb]; [|reflexivity].
  change (sy_from (touch step s)) with (sy_from s). now destruct (existsb _ t).
Qed.
Lemma r_spikes_spec h step : forall spikes p q, index_ok p ->
  exists p' dp q', r_spikes h step spikes p q = Ret (p', q') /\ do_spikes h step spikes (r_as_delta p) q = Ret (dp, q') /\
    index_ok p' /\ p_syn p' = map (touched step spikes) (p_syn p) /\ dp = r_as_delta p'.
Proof.
  induction spikes as [|n t IH]; intros p q Hok; cbn [r_spikes do_spikes].
  - exists p, (r_as_delta p), q. split; [reflexivity|]. split; [reflexivity|]. split; [exact Hok|]. split; [|reflexivity].
    rewrite map_ext with (g := fun s => s); [now rewrite map_id|]. reflexivity.
  - assert (Hd : index_ok (r_as_delta p)).
    { apply index_ok_gen; [exact Hok|]. rewrite map_map. reflexivity. }
    destruct (find_synapses ByPre n p) as [p1 r] eqn:Ef.
    assert (Ed : find_synapses ByPre n (r_as_delta p) = (r_as_delta p1, r)).
    { unfold find_synapses in *. injection Ef as <- <-.
      assert (Er : reindex (r_as_delta p) = r_as_delta (reindex p)).
      { clear. unfold reindex, r_as_delta. destruct p as [l ix up]. cbn [p_updated p_syn p_index]. destruct up; [reflexivity|]. cbn [p_syn p_index p_updated].
        f_equal. generalize 0. induction l as [|s l IH]; intros b; cbn [map index_from]; [reflexivity|]. now rewrite IH. }
      rewrite Er. reflexivity. }
    rewrite Ed. destruct (find_spec ByPre n p p1 r Hok Ef) as (E1 & _ & Hok1 & Hnd & Hin).
    destruct (r_synapses_spec h step r (p_syn p1) q Hnd) as (l & q1 & El & Elq & Ll & Hn).
    { intros i Hi. apply Hin in Hi as (s & Hs & _). rewrite E1. apply nth_error_Some. congruence. }
    rewrite El. cbn [obind fst snd]. change (p_syn (r_as_delta p1)) with (map r_delta (p_syn p1)). rewrite Elq. cbn [obind].
    assert (Em : l = map (fun s => if N.eqb (sy_from s) n then touch step s else s) (p_syn p)).
    { apply nth_error_ext. intros j. rewrite Hn, nth_error_map, E1. destruct (nth_error (p_syn p) j) as [s|] eqn:Es; [|reflexivity].
      cbn [option_map]. f_equal. destruct (in_dec Nat.eq_dec j r) as [H|H].
      - apply Hin in H as (s' & Hs' & Ht). cbn [syn_end] in Ht. assert (s' = s) by congruence. subst s'.
        rewrite (proj2 (N.eqb_eq _ _) Ht). reflexivity.
      - destruct (N.eqb_spec (sy_from s) n) as [Ht|Ht]; [|reflexivity]. exfalso. apply H. apply Hin. exists s. split; [exact Es|exact Ht]. }
    assert (Hokl : index_ok (mkProj l (p_index p1) (p_updated p1))).
    { apply index_ok_gen; [exact Hok1|]. rewrite Em, E1, map_map. apply map_ext. intros s. now destruct (N.eqb _ _). }
    destruct (IH (mkProj l (p_index p1) (p_updated p1)) q1 Hokl) as (p' & dp & q' & H1 & H2 & H3 & H4 & H5).
    exists p', dp, q'. split; [exact H1|]. split; [|split; [exact H3|split; [|exact H5]]].
    + rewrite <- H2. f_equal. unfold r_as_delta. cbn [p_syn p_index p_updated]. f_equal. rewrite Em, E1, map_map. apply map_ext.
      intros s. now destruct (N.eqb _ _).
    + rewrite H4. cbn [p_syn]. rewrite Em, map_map. apply map_ext. intros s. now rewrite touched_cons.
Qed.

(** ** Any kind *)
Definition kind_ok (k : nkind) : Prop := match k with NDelta p => index_ok p | NAdditive _ p => index_ok p | NResource _ p => index_ok p end.
Definition nproj_ok (w : nproj) : Prop := kind_ok (np_kind w) /\ queue_ok (np_queue w).
(** The projection as a delta projection, with its index. *)
Definition delta_proj (w : nproj) : dproj :=
  match np_kind w with NDelta p => p | NAdditive _ p => as_delta p | NResource _ p => r_as_delta p end.
Lemma delta_proj_syn w : p_syn (delta_proj w) = delta_synapses w.
Proof. unfold delta_proj, delta_synapses. destruct (np_kind w); reflexivity. Qed.
(** The synapses after a step. *)
Definition stepped (expf : flt -> flt) (step : N) (ms : list message) (k : nkind) : nkind -> Prop := fun k' =>
  match k, k' with
  | NDelta p, NDelta p' => p_syn p' = p_syn p
  | NAdditive l p, NAdditive l' p' => l' = l /\ p_syn p' = map (trained expf (map_of l) ms) (p_syn p)
  | NResource l p, NResource l' p' => l' = l /\ p_syn p' = map (touched step (spikes_of ms)) (p_syn p)
  | _, _ => False
  end.

Section Step.
Variable expf : flt -> flt.
Lemma nproj_step_spec step ms w : kind_ok (np_kind w) ->
  exists k' q' o dp, nproj_step expf step ms w = Ret (np_with w k' q', o) /\ kind_ok k' /\ stepped expf step ms (np_kind w) k' /\
    calculate_projection (np_head w) step (heard w ms) (delta_proj w) (np_queue w) = Ret (dp, q', o).
Proof.
  intros Hk. unfold nproj_step, delta_proj, heard. destruct (np_kind w) as [p|l p|l p] eqn:E; cbn [kind_ok stepped] in *.
  - destruct (do_spikes_eq (np_head w) step (spikes_of ms) p (np_queue w) Hk) as (p' & Ed & Hs & Hok).
    unfold calculate_projection. rewrite Ed. cbn [obind fst snd].
    destruct (q_find step _) as [m|]; cbn [obind]; do 4 eexists; (split; [reflexivity|]); cbn [kind_ok stepped]; eauto.
  - destruct (step_simulates expf (np_head w) step (map_of l) ms p (np_queue w) Hk) as (p' & dp & q' & o & H1 & H2 & H3 & H4).
    rewrite H1. cbn [obind]. do 4 eexists. split; [reflexivity|]. cbn [kind_ok stepped]. eauto.
  - destruct (r_spikes_spec (np_head w) step (spikes_of ms) p (np_queue w) Hk) as (p' & dp & q' & H1 & H2 & H3 & H4 & H5).
    unfold resource_step, calculate_projection. rewrite H1, H2. cbn [obind fst snd].
    destruct (q_find step q') as [m|]; cbn [obind]; do 4 eexists; (split; [reflexivity|]); cbn [kind_ok stepped]; eauto.
Qed.
Lemma nproj_step_queue step ms w w' o : nproj_ok w -> nproj_step expf step ms w = Ret (w', o) ->
  nproj_ok w' /\ impact_only (sent_msgs [o]).
Proof.
  intros [Hk Hq] H. destruct (nproj_step_spec step ms w Hk) as (k' & q' & o' & dp & E & Hk' & _ & Hc).
  rewrite H in E. injection E as -> ->. apply calculate_ok in Hc as (H1 & _ & H3); [|exact Hq].
  split; [split; cbn [np_with np_kind np_queue]; assumption|exact H3].
Qed.
Lemma trained_ends pops ms s : sy_from (trained expf pops ms s) = sy_from s /\ sy_to (trained expf pops ms s) = sy_to s /\
  d_delay (a_delta (sy_params (trained expf pops ms s))) = d_delay (a_delta (sy_params s)) /\
  d_type (a_delta (sy_params (trained expf pops ms s))) = d_type (a_delta (sy_params s)).
Proof. unfold trained. cbn [sy_from sy_to sy_params]. destruct (applies _ _ _); auto. Qed.
Lemma nproj_step_fixed step ms w w' o : kind_ok (np_kind w) -> nproj_step expf step ms w = Ret (w', o) -> fixed w' = fixed w.
Proof.
  intros Hk H. destruct (nproj_step_spec step ms w Hk) as (k' & q' & o' & dp & E & Hk' & Hs & _).
  rewrite H in E. injection E as -> ->. unfold fixed, np_forced, stdp_pops, delta_synapses. cbn [np_with np_uid np_pre np_post np_kind].
  destruct (np_kind w) as [p|l p|l p], k' as [p'|l' p'|l' p']; cbn [stepped] in Hs; try contradiction.
  - now rewrite Hs.
  - destruct Hs as [-> ->]. rewrite !map_map. f_equal. apply map_ext. intros s.
    destruct (trained_ends (map_of l) ms s) as (H1 & H2 & H3 & H4). cbn [delta_view sy_from sy_to sy_params]. now rewrite H1, H2, H3, H4.
  - destruct Hs as [-> ->]. rewrite !map_map. f_equal. apply map_ext. intros s. unfold touched. now destruct (existsb _ _).
Qed.
End Step.
