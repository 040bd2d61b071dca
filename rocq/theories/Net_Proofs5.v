(** One projection through a run of a network. *)
From Verif Require Import Base ListLemmas Messaging_Model Messaging_Spec Projection_Model Projection_Spec Projection_Proofs
  Delta_Model Delta_Spec Delta_Proofs Neuron_Model Pipeline_Model Pipeline_Spec Pipeline_Proofs Pipeline_Proofs2
  Stdp_Model Additive_Model Additive_Spec Additive_Proofs Train_Model Train_Proofs Net_Model Net_Spec Net_Proofs Net_Proofs2 Net_Proofs3 Net_Proofs4.

Lemma learn_all_map bs projs : learn_all bs projs = map (fun w => fold_left (fun w on => set_lock (negb on) w) bs w) projs.
Proof.
  unfold learn_all. revert projs. induction bs as [|b bs IH]; intros projs; cbn [fold_left]; [now rewrite map_id|].
  rewrite IH. unfold learn. now rewrite map_map.
Qed.
Definition relock (bs : list bool) (w : nproj) : nproj := fold_left (fun w on => set_lock (negb on) w) bs w.
Lemma relock_same bs : forall w, np_kind (relock bs w) = np_kind w /\ np_queue (relock bs w) = np_queue w /\ np_head (relock bs w) = np_head w /\ np_post (relock bs w) = np_post w.
Proof. unfold relock. induction bs as [|b bs IH]; intros w; cbn [fold_left]; [auto|]. destruct (IH (set_lock (negb b) w)) as (-> & -> & -> & ->). auto. Qed.
Lemma F2_nth {A B} (R : A -> B -> Prop) l l' : Forall2 R l l' -> forall j x, nth_error l j = Some x -> exists y, nth_error l' j = Some y /\ R x y.
Proof.
  induction 1 as [|a b t t' H _ IH]; intros j x Hj; destruct j; cbn [nth_error] in *; try discriminate; [|eauto].
  injection Hj as <-. eauto.
Qed.

Section Column.
Variables (pow2f expf : flt -> flt) (extra : list subscr) (pops : list (uid * npop)) (projs : list nproj) (turns : list turn)
  (k : nbackend) (tr : list nrecord).
Hypothesis Hs : sound_network pops projs.
Hypothesis Hf : Forall (fun u => forallb outside (tu_ops u) = true) turns.
Hypothesis Hr : net_run pow2f expf extra pops projs turns k tr.

Lemma turn_at t r : nth_error tr t = Some r -> exists u, nth_error turns t = Some u.
Proof.
  intros H. destruct (net_run_facts _ _ _ _ _ _ _ _ Hs Hf Hr) as (L & _).
  destruct (nth_error turns t) eqn:E; [eauto|]. apply nth_error_None in E. assert (nth_error tr t <> None) as Hn by congruence.
  apply nth_error_Some in Hn. lia.
Qed.

(** One projection in one step: before, after learning was switched, after the
    training, after the step. *)
Record col (t j : nat) (r : nrecord) (w wl w1 w' : nproj) (o : option message) : Prop := mkCol {
  co_wl : nth_error (nr_projs r) j = Some wl;
  co_lock : exists bs, wl = relock bs w;
  co_w1 : nth_error (nr_trained r) j = Some w1;
  co_w' : nth_error (nr_projs' r) j = Some w';
  co_o : nth_error (r_proj_out (nr_msgs r)) j = Some o;
  co_train : projs_result (stdp_uids (nr_pops r)) wl w1;
  co_ok : nproj_ok w1;
  co_step : nproj_step expf (N.of_nat t mod two64) (nproj_box extra (r_ext (nr_msgs r)) (sent_msgs (r_pop_out (nr_msgs r))) w1) w1 = Ret (w', o) }.
Lemma col_at t j r w : nth_error tr t = Some r -> nth_error (snd (after tr pops projs t)) j = Some w ->
  exists wl w1 w' o, col t j r w wl w1 w' o.
Proof.
  intros Ht Hw. destruct (turn_at t r Ht) as (u & Hu). destruct (net_run_facts _ _ _ _ _ _ _ _ Hs Hf Hr) as (_ & F & _).
  destruct (F t r u Ht Hu) as (SF & _ & Ep). rewrite learn_all_map in Ep.
  assert (Hwl : nth_error (nr_projs r) j = Some (relock (tu_learn u) w)).
  { rewrite Ep, nth_error_map, Hw. reflexivity. }
  destruct (F2_nth _ _ _ (sf_train _ _ _ _ _ _ _ _ SF) j _ Hwl) as (w1 & H1 & R1).
  destruct (sf_projs _ _ _ _ _ _ _ _ SF j w1 H1) as (w' & o & _ & H2 & H3 & H4).
  exists (relock (tu_learn u) w), w1, w', o. split; auto; [now exists (tu_learn u)|].
  pose proof (sf_ok1 _ _ _ _ _ _ _ _ SF) as Hok. rewrite Forall_forall in Hok. apply Hok. eapply nth_error_In; eauto.
Qed.
Lemma after_S t r : nth_error tr t = Some r -> after tr pops projs (S t) = (nr_pops' r, nr_projs' r).
Proof. intros H. cbn [after]. now rewrite H. Qed.
Lemma column_induct j w0 (P : nat -> nproj -> Prop) : nth_error projs j = Some w0 -> P 0 w0 ->
  (forall t r w wl w1 w' o, nth_error tr t = Some r -> P t w -> col t j r w wl w1 w' o -> P (S t) w') ->
  forall t, t <= length tr -> exists w, nth_error (snd (after tr pops projs t)) j = Some w /\ P t w.
Proof.
  intros Hj H0 HS. induction t as [|t IH]; intros Ht; [exists w0; split; assumption|].
  destruct IH as (w & Hw & Pw); [lia|]. destruct (nth_error tr t) as [r|] eqn:Er; [|apply nth_error_None in Er; lia].
  destruct (col_at t j r w Er Hw) as (wl & w1 & w' & o & C). exists w'. split; [|eauto].
  rewrite (after_S t r Er). apply (co_w' _ _ _ _ _ _ _ _ C).
Qed.
(** The same, at a step. *)
Lemma column_step j w0 (P : nat -> nproj -> Prop) : nth_error projs j = Some w0 -> P 0 w0 ->
  (forall t r w wl w1 w' o, nth_error tr t = Some r -> P t w -> col t j r w wl w1 w' o -> P (S t) w') ->
  forall t r, nth_error tr t = Some r -> exists w wl w1 w' o, nth_error (snd (after tr pops projs t)) j = Some w /\ P t w /\ P (S t) w' /\ col t j r w wl w1 w' o.
Proof.
  intros Hj H0 HS t r Ht. assert (Hlt : t < length tr) by (apply nth_error_Some; congruence).
  destruct (column_induct j w0 P Hj H0 HS t) as (w & Hw & Pw); [lia|]. destruct (col_at t j r w Ht Hw) as (wl & w1 & w' & o & C).
  exists w, wl, w1, w', o. split; [exact Hw|]. split; [exact Pw|]. split; [eauto|exact C].
Qed.

Lemma col_fixed t j r w wl w1 w' o : col t j r w wl w1 w' o -> fixed wl = fixed w /\ fixed w1 = fixed w /\ fixed w' = fixed w.
Proof.
  intros [H1 [bs ->] H3 H4 H5 [K _] [Hk _] H8].
  assert (E1 : fixed (relock bs w) = fixed w).
  { unfold relock. clear. revert w. induction bs as [|b bs IH]; intros w; cbn [fold_left]; [reflexivity|]. now rewrite IH. }
  pose proof (kept_fixed _ _ K) as E2. pose proof (nproj_step_fixed expf _ _ _ _ _ Hk H8) as E3. split; [exact E1|]. split; congruence.
Qed.
Lemma fixed_ends w w' : fixed w = fixed w' -> ends_of (delta_synapses w) = ends_of (delta_synapses w') /\
  (Forall syn_ok (delta_synapses w) -> Forall syn_ok (delta_synapses w')).
Proof.
  intros H. pose proof (f_equal snd H) as E. unfold fixed in E. cbn [snd] in E. clear H. revert E.
  generalize (delta_synapses w), (delta_synapses w'). intros l l' E. unfold ends_of.
  revert l' E. induction l as [|s l IH]; intros [|s' l'] E; cbn [map] in *; try discriminate; [auto|].
  injection E as E1 E2 E3 E4 E. destruct (IH l' E) as [I1 I2]. split; [congruence|].
  intros H. apply Forall_cons_iff in H as [H1 H2]. constructor; [|auto]. unfold syn_ok in *. now rewrite <- E1, <- E2, <- E3.
Qed.

Lemma head_step h step ms w : np_head w = h -> kind_ok (np_kind w) -> exists w' o dp, nproj_step expf step ms w = Ret (w', o) /\
  calculate_projection h step (heard w ms) (delta_proj w) (np_queue w) = Ret (dp, np_queue w', o).
Proof.
  intros <- H. destruct (nproj_step_spec expf step ms w H) as (k' & q' & o & dp & E1 & _ & _ & E2).
  do 3 eexists. split; [exact E1|exact E2].
Qed.
Lemma delta_proj_ok w : kind_ok (np_kind w) -> index_ok (delta_proj w).
Proof.
  unfold delta_proj. destruct (np_kind w); cbn [kind_ok]; intros H; [exact H| |]; (apply index_ok_gen; [exact H|]); rewrite map_map; reflexivity.
Qed.

Lemma outputs_due j w0 : nth_error projs j = Some w0 -> Forall syn_ok (delta_synapses w0) -> np_queue w0 = [] ->
  (N.of_nat (length tr) + two32 <= two64)%N ->
  forall t r, nth_error tr t = Some r -> exists o, nth_error (r_proj_out (nr_msgs r)) j = Some o /\
    good_output (np_head w0) 0 (map (input_of extra j) tr) t o.
Proof.
  intros Hj Hok Hq Hlen. set (ins := map (input_of extra j) tr). set (ends := ends_of (delta_synapses w0)).
  assert (Hall : forall i, In i ins -> ends_of (in_syn i) = ends /\ Forall syn_ok (in_syn i)).
  { intros i Hi. apply in_map_iff in Hi as (r & <- & Hin). apply In_nth_error in Hin as (t & Ht).
    destruct (column_step j w0 (fun _ w => fixed w = fixed w0) Hj eq_refl) with (t := t) (r := r) as (w & wl & w1 & w' & o & _ & P1 & _ & C); [|exact Ht|].
    { intros t0 r0 v vl v1 v' o _ Ev C. destruct (col_fixed _ _ _ _ _ _ _ _ C) as (_ & _ & E). congruence. }
    destruct (col_fixed _ _ _ _ _ _ _ _ C) as (_ & E1 & _). rewrite P1 in E1. destruct (fixed_ends w1 w0 E1) as [X1 _].
    destruct (fixed_ends w0 w1 (eq_sym E1)) as [_ X2]. unfold input_of. rewrite (co_w1 _ _ _ _ _ _ _ _ C). cbn [in_syn]. split; [exact X1|]. now apply X2. }
  assert (Hb : (0 + N.of_nat (length ins) + two32 <= two64)%N) by (unfold ins; rewrite map_length; lia).
  assert (He : Forall (fun i => ends_of (in_syn i) = ends) ins) by (apply Forall_forall; intros i Hi; now apply Hall).
  assert (Hy : Forall (fun i => Forall syn_ok (in_syn i)) ins) by (apply Forall_forall; intros i Hi; now apply Hall).
  set (P := fun t w => fixed w = fixed w0 /\ inv (np_head w0) 0 ins t (np_queue w)).
  assert (HS : forall t r w wl w1 w' o, nth_error tr t = Some r -> P t w -> col t j r w wl w1 w' o -> P (S t) w' /\ good_output (np_head w0) 0 ins t o).
  { intros t r w wl w1 w' o Ht [Ef Hi] C. destruct (col_fixed _ _ _ _ _ _ _ _ C) as (F1 & F2 & F3). rewrite Ef in F1, F2, F3.
    assert (Hh : np_head w1 = np_head w0) by (apply (fixed_uid w1 w0 F2)).
    assert (Hin : nth_error ins t = Some (input_of extra j r)) by (unfold ins; rewrite nth_error_map, Ht; reflexivity).
    assert (Hip : input_of extra j r = mkIn (delta_synapses w1) (heard w1 (nproj_box extra (r_ext (nr_msgs r)) (sent_msgs (r_pop_out (nr_msgs r))) w1))).
    { unfold input_of. now rewrite (co_w1 _ _ _ _ _ _ _ _ C). }
    assert (Hk : kind_ok (np_kind w1)) by apply (co_ok _ _ _ _ _ _ _ _ C).
    assert (Eq : np_queue w1 = np_queue w).
    { destruct (co_train _ _ _ _ _ _ _ _ C) as [(_ & _ & _ & _ & K5 & _) _]. destruct (co_lock _ _ _ _ _ _ _ _ C) as [bs ->].
      rewrite K5. apply relock_same. }
    destruct (head_step _ (N.of_nat t mod two64) (nproj_box extra (r_ext (nr_msgs r)) (sent_msgs (r_pop_out (nr_msgs r))) w1) w1 Hh Hk) as (v' & o' & dp & E1 & E2).
    rewrite (co_step _ _ _ _ _ _ _ _ C) in E1. injection E1 as <- <-.
    assert (Ha : index_ok (delta_proj w1)) by now apply delta_proj_ok.
    assert (Hbb : ends_of (p_syn (delta_proj w1)) = ends) by (rewrite delta_proj_syn; apply (fixed_ends w1 w0 F2)).
    destruct (step_inv _ 0 ins ends Hb He Hy t _ (delta_proj w1) (np_queue w) Hin Ha Hbb Hi) as (p' & q' & o1 & E3 & _ & _ & G1 & G2).
    rewrite Hip in E3. cbn [in_syn in_msgs] in E3. rewrite <- delta_proj_syn in E3.
    assert (Eta : forall p : dproj, mkProj (p_syn p) (p_index p) (p_updated p) = p) by (intros []; reflexivity).
    rewrite Eta, N.add_0_l in E3. rewrite N.mod_small in E2.
    2:{ assert (t < length tr) by (apply nth_error_Some; congruence). change two32 with 4294967296%N in Hlen. lia. }
    rewrite Eq in E2. rewrite E2 in E3. injection E3 as _ <- <-. split; [split; assumption|exact G2]. }
  intros t r Ht.
  destruct (column_step j w0 P Hj) with (t := t) (r := r) as (w & wl & w1 & w' & o & _ & P1 & _ & C); [| |exact Ht|].
  - split; [reflexivity|]. rewrite Hq. split; [intros hi _ x m Hx; discriminate|]. intros x _. reflexivity.
  - intros t0 r0 v vl v1 v' o Ht0 Pv C. now apply (HS t0 r0 v vl v1 v' o).
  - exists o. split; [apply (co_o _ _ _ _ _ _ _ _ C)|]. now apply (HS t r w wl w1 w' o).
Qed.
End Column.
