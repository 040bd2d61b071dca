(** Proofs about the network constructor. *)
From Verif Require Import Base ListLemmas Messaging_Model Projection_Model Projection_Spec Delta_Model Neuron_Model Pipeline_Model Pipeline_Spec
  Stdp_Model Additive_Model Train_Model Net_Model Net_Spec Safe_Spec Connect_Model Connect_Spec Connect_Proofs Infer_Model Build_Model Build_Spec.

(** ** Synapses *)
Lemma connect_ok {P} c (x : P) pre post : sized c pre post ->
  exists l, connect c x pre post = Ret l /\ NoDup (ends l) /\ (forall s, In s l -> sy_params s = x) /\
    forall a b, In (N.of_nat a, N.of_nat b) (ends l) <-> joins c pre post a b.
Proof.
  destruct c; cbn [sized connect].
  - intros H. destruct (all_to_all_spec (fun _ _ : nat => x) pre post H) as (l & E & A & B & C). exists l. split; [exact E|]. split; [exact A|]. split; [exact C|].
    intros a b. rewrite B. unfold joins. lia.
  - intros (H1 & H2 & H3). destruct (aligned_ends (fun _ _ : nat => x) pre post H1 H2) as (l & E & A & B & C). exists l. split; [exact E|].
    destruct (Nat.le_gt_cases post pre) as [D|D].
    + specialize (B D). rewrite Nat.max_l, Nat.min_r in H3 by lia. rewrite B. split; [|split; [exact A|]].
      * apply NoDup_map_seq. intros i j _ _ Eq. apply pair_equal_spec in Eq as [Eq _]. lia.
      * intros a b. unfold joins. replace (Nat.leb post pre) with true by (symmetry; now apply Nat.leb_le). rewrite in_map_iff. split.
        -- intros (i & Ei & Hi). apply in_seq in Hi. apply pair_equal_spec in Ei as [Ea Eb]. pose proof (proj2 (pack_range pre post H2 D) H3 i ltac:(lia)).
           apply Nat2N.inj in Ea, Eb. subst i. lia.
        -- intros (Ha & Hb & Eq). exists a. split; [now rewrite Eq|]. apply in_seq. lia.
    + specialize (C D). rewrite Nat.max_r, Nat.min_l in H3 by lia. rewrite C. split; [|split; [exact A|]].
      * apply NoDup_map_seq. intros i j _ _ Eq. apply pair_equal_spec in Eq as [_ Eq]. lia.
      * intros a b. unfold joins. replace (Nat.leb post pre) with false by (symmetry; apply Nat.leb_gt; lia). rewrite in_map_iff. split.
        -- intros (i & Ei & Hi). apply in_seq in Hi. apply pair_equal_spec in Ei as [Ea Eb]. pose proof (proj2 (pack_range post pre H1 ltac:(lia)) H3 i ltac:(lia)).
           apply Nat2N.inj in Ea, Eb. subst i. lia.
        -- intros (Ha & Hb & Eq). exists b. split; [now rewrite Eq|]. apply in_seq. lia.
Qed.
Lemma generate_nth {P} (l : list (synapse P)) : forall n i acc, i + n = length l -> generate (nth_error l) i n acc = acc ++ skipn i l.
Proof.
  induction n as [|n IH]; intros i acc H; cbn [generate].
  - rewrite skipn_all2 by lia. now rewrite app_nil_r.
  - destruct (nth_error l i) as [s|] eqn:E; [|apply nth_error_None in E; lia]. rewrite IH by lia. rewrite <- app_assoc. f_equal. cbn [app].
    clear - E. revert l E. induction i as [|i IH]; intros [|y t] E; cbn in *; try discriminate; [now injection E as ->|now apply IH].
Qed.
Lemma sound_made {P} (l : list (synapse P)) : sound (reindex (mkProj l [] false)).
Proof.
  exists (reindex (mkProj l [] false)), true, [], []. split; [|split; [reflexivity|exact I]]. right. split; [|reflexivity].
  exists (nth_error l), (length l). unfold proj_generated. rewrite generate_nth by lia. reflexivity.
Qed.
Lemma syn_made {P} (l : list (synapse P)) : p_syn (reindex (mkProj l [] false)) = l.
Proof. reflexivity. Qed.

(** Projection made by a call. *)
Definition made (t : template) (c : creator) (pre post : nat) (w : nproj) : Prop :=
  sound_kind (np_kind w) /\
  (match t, np_kind w with GDelta _, NDelta _ | GAdditive _, NAdditive [] _ | GResource _, NResource [] _ => True | _, _ => False end) /\
  NoDup (ends (delta_synapses w)) /\ (forall x y, In (N.of_nat x, N.of_nat y) (ends (delta_synapses w)) <-> joins c pre post x y) /\
  forall s, In s (delta_synapses w) -> d_type (sy_params s) = template_type t /\ d_weight (sy_params s) = template_weight t.
Lemma make_ok t c pre post : sized c pre post ->
  exists k, make_kind c t pre post = Ret k /\ forall u a b lk, made t c pre post (mkNP u a b lk k []).
Proof.
  intros H. destruct t as [x|x|x]; cbn [make_kind]; destruct (connect_ok c x pre post H) as (l & E & A & B & C); rewrite E; cbn [obind]; eexists; (split; [reflexivity|]); intros u a b lk;
    unfold made; cbn [np_kind sound_kind delta_synapses template_type template_weight]; rewrite ?syn_made;
    (split; [apply sound_made|split; [exact I|]]).
  - split; [exact A|]. split; [exact C|]. intros s Hs. now rewrite (B s Hs).
  - assert (Ed : ends (map delta_view l) = ends l) by (unfold ends; rewrite map_map; reflexivity). rewrite Ed. split; [exact A|]. split; [exact C|].
    intros s Hs. apply in_map_iff in Hs as (s' & <- & Hs). cbn [delta_view sy_params]. now rewrite (B s' Hs).
  - assert (Ed : ends (map r_delta l) = ends l) by (unfold ends; rewrite map_map; reflexivity). rewrite Ed. split; [exact A|]. split; [exact C|].
    intros s Hs. apply in_map_iff in Hs as (s' & <- & Hs). cbn [r_delta sy_params]. now rewrite (B s' Hs).
Qed.

(** ** Calls *)
Lemma build_app l1 l2 s : build (l1 ++ l2) s = obind (build l1 s) (build l2).
Proof. revert s; induction l1 as [|c t IH]; intros s; [reflexivity|]. cbn [app build]. destruct (build_call c s); cbn [obind]; [apply IH|reflexivity..]. Qed.
Lemma scope_app l c : scope (l ++ [c]) = match c with
    | NewConstructor => [] | AddPopulation u _ k r keep => scope l ++ [mkInfo r keep k u]
    | AddChanneled k keep => scope l ++ [mkInfo CHANNELED keep k 0] | AddProjection _ _ _ _ _ _ _ => scope l end.
Proof. unfold scope. rewrite fold_left_app. reflexivity. Qed.
(** What is known is a channel or a population declared before. *)
Definition known (calls : list bcall) (a : pinfo) : Prop :=
  pi_uid a = 0%N \/ exists n, In (AddPopulation (pi_uid a) n (pi_size a) (pi_role a) (pi_keep a)) calls.
Lemma scope_known calls : Forall (known calls) (scope calls).
Proof.
  assert (W : forall c calls a, known calls a -> known (calls ++ [c]) a) by (intros c l a [H|[n H]]; [now left|right; exists n; apply in_or_app; now left]).
  induction calls as [|c t IH] using rev_ind; [constructor|]. rewrite scope_app.
  assert (IH' : Forall (known (t ++ [c])) (scope t)) by (eapply Forall_impl; [|exact IH]; intros a; apply W).
  destruct c; [constructor| | |exact IH']; apply Forall_app; (split; [exact IH'|]); (constructor; [|constructor]).
  - right. exists n. apply in_or_app. right. now left.
  - now left.
Qed.

(** The state after the calls. *)
Record state_of (calls : list bcall) (s : built) : Prop := mkStateOf {
  so_infos : bt_infos s = scope calls;
  so_pops : bt_pops s = declared calls;
  so_outputs : bt_outputs s = declared_outputs calls;
  so_keep : bt_keep_pops s = declared_kept calls;
  so_uids : map np_uid (bt_projs s) = declared_projections calls;
  so_made : forall w, In w (bt_projs s) -> exists before u t c pre post tr wta after a b, calls = before ++ AddProjection u t c pre post tr wta :: after /\
    nth_error (scope before) pre = Some a /\ nth_error (scope before) post = Some b /\ sized c (pi_size a) (pi_size b) /\
    np_uid w = u /\ np_pre w = (if wta then 0%N else pi_uid a) /\ np_post w = pi_uid b /\ np_locked w = negb tr /\ np_queue w = [] /\
    made t c (pi_size a) (pi_size b) w /\ (pi_keep a && pi_keep b = true -> In u (bt_keep_projs s));
  so_marks : forall u, In u (bt_keep_projs s) -> exists before t c pre post tr wta after a b, calls = before ++ AddProjection u t c pre post tr wta :: after /\
    nth_error (scope before) pre = Some a /\ nth_error (scope before) post = Some b /\ pi_keep a = true /\ pi_keep b = true }.
Definition projections_sized (calls : list bcall) : Prop :=
  forall before u t c pre post tr wta after, calls = before ++ AddProjection u t c pre post tr wta :: after ->
    exists a b, nth_error (scope before) pre = Some a /\ nth_error (scope before) post = Some b /\ sized c (pi_size a) (pi_size b).
Lemma made_more calls c0 s s' : state_of calls s -> incl (bt_keep_projs s) (bt_keep_projs s') -> forall w, In w (bt_projs s) -> exists before u t c pre post tr wta after a b, calls ++ [c0] = before ++ AddProjection u t c pre post tr wta :: after /\
    nth_error (scope before) pre = Some a /\ nth_error (scope before) post = Some b /\ sized c (pi_size a) (pi_size b) /\
    np_uid w = u /\ np_pre w = (if wta then 0%N else pi_uid a) /\ np_post w = pi_uid b /\ np_locked w = negb tr /\ np_queue w = [] /\
    made t c (pi_size a) (pi_size b) w /\ (pi_keep a && pi_keep b = true -> In u (bt_keep_projs s')).
Proof.
  intros S Hi w Hw. destruct (so_made _ _ S w Hw) as (before & u & t & c & pre & post & tr & wta & after & a & b & E & H1 & H2 & H3 & H4 & H5 & H6 & H7 & H8 & H9 & H10).
  exists before, u, t, c, pre, post, tr, wta, (after ++ [c0]), a, b. split; [rewrite E, <- app_assoc; reflexivity|]. repeat (split; [assumption|]). auto.
Qed.
Lemma marks_more calls c0 s : state_of calls s -> forall u, In u (bt_keep_projs s) -> exists before t c pre post tr wta after a b, calls ++ [c0] = before ++ AddProjection u t c pre post tr wta :: after /\
    nth_error (scope before) pre = Some a /\ nth_error (scope before) post = Some b /\ pi_keep a = true /\ pi_keep b = true.
Proof.
  intros S u Hu. destruct (so_marks _ _ S u Hu) as (before & t & c & pre & post & tr & wta & after & a & b & E & H1 & H2 & H3 & H4).
  exists before, t, c, pre, post, tr, wta, (after ++ [c0]), a, b. split; [rewrite E, <- app_assoc; reflexivity|]. auto.
Qed.
Lemma flat_snoc {A B} (f : A -> list B) l x : flat_map f (l ++ [x]) = flat_map f l ++ f x.
Proof. rewrite flat_map_app. cbn. now rewrite app_nil_r. Qed.
Lemma build_ok calls : projections_sized calls -> exists s, build calls nothing = Ret s /\ state_of calls s.
Proof.
  induction calls as [|c0 l IH] using rev_ind; intros Hc.
  - exists nothing. split; [reflexivity|]. constructor; cbn; try reflexivity; contradiction.
  - destruct IH as (s & E & S).
    { intros before u t c pre post tr wta after El. destruct (Hc before u t c pre post tr wta (after ++ [c0])) as (a & b & H); [rewrite El, <- app_assoc; reflexivity|]. eauto. }
    rewrite build_app, E. cbn [obind build]. destruct c0 as [|u n k r keep|k keep|u t c pre post tr wta]; cbn [build_call obind].
    + eexists. split; [reflexivity|]. constructor; cbn [bt_infos bt_pops bt_projs bt_outputs bt_keep_pops bt_keep_projs].
      * now rewrite scope_app.
      * unfold declared. rewrite flat_snoc, app_nil_r. apply (so_pops _ _ S).
      * unfold declared_outputs. rewrite flat_snoc, app_nil_r. apply (so_outputs _ _ S).
      * unfold declared_kept. rewrite flat_snoc, app_nil_r. apply (so_keep _ _ S).
      * unfold declared_projections. rewrite flat_snoc, app_nil_r. apply (so_uids _ _ S).
      * apply (made_more l NewConstructor s); [exact S|]. intros v Hv. exact Hv.
      * apply marks_more. exact S.
    + eexists. split; [reflexivity|]. unfold add_population. constructor; cbn [bt_infos bt_pops bt_projs bt_outputs bt_keep_pops bt_keep_projs].
      * rewrite scope_app, (so_infos _ _ S). reflexivity.
      * unfold declared. rewrite flat_snoc. now rewrite (so_pops _ _ S).
      * unfold declared_outputs. rewrite flat_snoc, (so_outputs _ _ S). destruct r; rewrite ?app_nil_r; reflexivity.
      * unfold declared_kept. rewrite flat_snoc, (so_keep _ _ S). destruct keep; rewrite ?app_nil_r; reflexivity.
      * unfold declared_projections. rewrite flat_snoc, app_nil_r. apply (so_uids _ _ S).
      * apply (made_more l (AddPopulation u n k r keep) s); [exact S|]. intros v Hv. exact Hv.
      * apply marks_more. exact S.
    + eexists. split; [reflexivity|]. unfold add_channeled. constructor; cbn [bt_infos bt_pops bt_projs bt_outputs bt_keep_pops bt_keep_projs].
      * rewrite scope_app, (so_infos _ _ S). reflexivity.
      * unfold declared. rewrite flat_snoc, app_nil_r. apply (so_pops _ _ S).
      * unfold declared_outputs. rewrite flat_snoc, app_nil_r. apply (so_outputs _ _ S).
      * unfold declared_kept. rewrite flat_snoc, app_nil_r. apply (so_keep _ _ S).
      * unfold declared_projections. rewrite flat_snoc, app_nil_r. apply (so_uids _ _ S).
      * apply (made_more l (AddChanneled k keep) s); [exact S|]. intros v Hv. exact Hv.
      * apply marks_more. exact S.
    + destruct (Hc l u t c pre post tr wta [] eq_refl) as (a & b & Ha & Hb & Hs). unfold add_projection. rewrite (so_infos _ _ S), Ha, Hb.
      destruct (make_ok t c (pi_size a) (pi_size b) Hs) as (kd & Ek & Hk). rewrite Ek. cbn [obind].
      match goal with |- exists s0, Ret ?x = _ /\ _ => set (s' := x); exists s' end. split; [reflexivity|].
      unfold s'. constructor; cbn [bt_infos bt_pops bt_projs bt_outputs bt_keep_pops bt_keep_projs].
      * now rewrite scope_app.
      * unfold declared. rewrite flat_snoc, app_nil_r. apply (so_pops _ _ S).
      * unfold declared_outputs. rewrite flat_snoc, app_nil_r. apply (so_outputs _ _ S).
      * unfold declared_kept. rewrite flat_snoc, app_nil_r. apply (so_keep _ _ S).
      * unfold declared_projections. rewrite flat_snoc, map_app. cbn [map np_uid]. f_equal. apply (so_uids _ _ S).
      * intros w Hw. apply in_app_or in Hw as [Hw|[<-|[]]].
        -- apply (made_more l (AddProjection u t c pre post tr wta) s s' S); [|exact Hw]. intros v Hv. unfold s'. cbn [bt_keep_projs].
           destruct (pi_keep a && pi_keep b); [apply in_or_app; now left|exact Hv].
        -- exists l, u, t, c, pre, post, tr, wta, [], a, b. cbn [np_uid np_pre np_post np_locked np_queue]. repeat (split; [first [reflexivity|assumption|apply Hk]|]).
           intros Hkeep. rewrite Hkeep. apply in_or_app. right. now left.
      * intros v Hv. destruct (pi_keep a && pi_keep b) eqn:Ekeep; [|apply (marks_more l _ s S v Hv)]. apply in_app_or in Hv as [Hv|[<-|[]]]; [apply (marks_more l _ s S v Hv)|].
        apply andb_true_iff in Ekeep as [K1 K2]. exists l, t, c, pre, post, tr, wta, [], a, b. auto 10.
Qed.
