From Verif Require Import Base ListLemmas Messaging_Model Projection_Model Projection_Spec Projection_Proofs Delta_Model Delta_Spec.

Lemma filter_flat_map {A B} (f : B -> bool) (g : A -> list B) l :
  filter f (flat_map g l) = flat_map (fun x => filter f (g x)) l.
Proof. induction l; cbn; [reflexivity|]. now rewrite filter_app, IHl. Qed.
Lemma map_flat_map {A B C} (f : B -> C) (g : A -> list B) l :
  map f (flat_map g l) = flat_map (fun x => map f (g x)) l.
Proof. induction l; cbn; [reflexivity|]. now rewrite map_app, IHl. Qed.
Lemma filter_map_comm {A B} (f : B -> bool) (g : A -> B) l :
  filter f (map g l) = map g (filter (fun x => f (g x)) l).
Proof. induction l; cbn; [reflexivity|]. destruct (f (g a)); cbn; now rewrite IHl. Qed.
Lemma filter_filter {A} (f g : A -> bool) l : filter f (filter g l) = filter (fun x => g x && f x) l.
Proof. induction l; cbn; [reflexivity|]. destruct (g a); cbn; [|exact IHl]. destruct (f a); cbn; now rewrite IHl. Qed.
Lemma flat_map_ext_in {A B} (f g : A -> list B) l :
  (forall x, In x l -> f x = g x) -> flat_map f l = flat_map g l.
Proof. induction l; cbn; intros H; [reflexivity|]. rewrite H by auto. f_equal. auto. Qed.
Lemma filter_ext_in' {A} (f g : A -> bool) l : (forall x, In x l -> f x = g x) -> filter f l = filter g l.
Proof. induction l; cbn; intros H; [reflexivity|]. rewrite H by auto. rewrite IHl by auto. reflexivity. Qed.

(** ** queues *)
Lemma q_find_app k q1 q2 : q_find k (q1 ++ q2) = match q_find k q1 with Some m => Some m | None => q_find k q2 end.
Proof. induction q1 as [|[k' m] q1 IH]; cbn; [reflexivity|]. destruct (N.eqb k k'); auto. Qed.
Lemma q_find_push k key i q : q_find k (q_push key i q) =
  if N.eqb k key then match q_find key q with Some m => Some (push_impact i m) | None => None end else q_find k q.
Proof.
  induction q as [|[k' m] q IH]; cbn [q_push q_find]; [now destruct (N.eqb k key)|].
  destruct (N.eqb_spec key k') as [->|Hne]; cbn [q_find].
  - destruct (N.eqb_spec k k'); reflexivity.
  - destruct (N.eqb_spec k k') as [->|]; [|exact IH].
    destruct (N.eqb_spec k' key); [congruence|reflexivity].
Qed.
Lemma q_find_erase k key q : q_find k (q_erase key q) = if N.eqb k key then None else q_find k q.
Proof.
  unfold q_erase. induction q as [|[k' m] q IH]; cbn [filter q_find fst]; [now destruct (N.eqb k key)|].
  destruct (N.eqb_spec key k') as [->|Hne]; cbn [negb].
  - rewrite IH. destruct (N.eqb_spec k k'); reflexivity.
  - cbn [q_find]. rewrite IH. destruct (N.eqb_spec k k') as [->|]; [|reflexivity].
    destruct (N.eqb_spec k' key); [congruence|reflexivity].
Qed.

(** A general "add an impact for a step" with given population fields. *)
Definition sched (u : uid) (a b : uid) (f : bool) (step : N) (q : queue) (e : N * impact) : queue :=
  match q_find (fst e) q with
  | Some _ => q_push (fst e) (snd e) q
  | None => q ++ [(fst e, ImpactMsg u step a b f [snd e])]
  end.
Lemma q_find_sched u a b f step q e k : q_find k (sched u a b f step q e) =
  if N.eqb k (fst e) then
    match q_find k q with Some m => Some (push_impact (snd e) m) | None => Some (ImpactMsg u step a b f [snd e]) end
  else q_find k q.
Proof.
  unfold sched. destruct (q_find (fst e) q) eqn:E.
  - rewrite q_find_push, E. destruct (N.eqb_spec k (fst e)) as [->|]; [now rewrite E|reflexivity].
  - rewrite q_find_app. cbn. destruct (N.eqb_spec k (fst e)) as [->|Hne].
    + now rewrite E.
    + destruct (q_find k q); reflexivity.
Qed.

(** Well-formed queues: impact messages of this projection, never empty, made
    at a step in [lo, hi]. *)
Definition wfq (u a b : uid) (f : bool) (lo hi : N) (q : queue) : Prop :=
  forall k m, q_find k q = Some m ->
    exists t l, m = ImpactMsg u t a b f l /\ l <> [] /\ (lo <= t <= hi)%N.
Lemma wfq_sched u a b f lo hi step q e : (lo <= step <= hi)%N ->
  wfq u a b f lo hi q -> wfq u a b f lo hi (sched u a b f step q e).
Proof.
  intros Hs Hq k m. rewrite q_find_sched. destruct (N.eqb_spec k (fst e)) as [->|]; [|apply Hq].
  destruct (q_find (fst e) q) as [m'|] eqn:E; intros [= <-].
  - destruct (Hq _ _ E) as (t & l & -> & Hl & Ht). exists t, (l ++ [snd e]). split; [reflexivity|].
    split; [|exact Ht]. destruct l; discriminate.
  - exists step, [snd e]. split; [reflexivity|]. split; [discriminate|exact Hs].
Qed.
Lemma wfq_fold u a b f lo hi step evs : (lo <= step <= hi)%N -> forall q,
  wfq u a b f lo hi q -> wfq u a b f lo hi (fold_left (sched u a b f step) evs q).
Proof. intros Hs. induction evs; cbn; auto using wfq_sched. Qed.
Lemma wfq_erase u a b f lo hi k q : wfq u a b f lo hi q -> wfq u a b f lo hi (q_erase k q).
Proof. intros H k' m. rewrite q_find_erase. destruct (N.eqb k' k); [discriminate|apply H]. Qed.
Lemma wfq_mono u a b f lo hi hi' q : (hi <= hi')%N -> wfq u a b f lo hi q -> wfq u a b f lo hi' q.
Proof. intros Hh H k m Hk. destruct (H k m Hk) as (t & l & E & Hl & Ht). exists t, l. repeat split; auto; lia. Qed.

Lemma impacts_at_sched u a b f lo hi step q e k : wfq u a b f lo hi q ->
  impacts_at k (sched u a b f step q e) = impacts_at k q ++ (if N.eqb (fst e) k then [snd e] else []).
Proof.
  intros Hq. unfold impacts_at. rewrite q_find_sched, (N.eqb_sym (fst e) k).
  destruct (N.eqb_spec k (fst e)) as [->|]; [|now rewrite app_nil_r].
  destruct (q_find (fst e) q) as [m|] eqn:E; [|reflexivity].
  destruct (Hq _ _ E) as (t & l & -> & _). reflexivity.
Qed.
Lemma impacts_at_fold u a b f lo hi step evs : (lo <= step <= hi)%N -> forall q k, wfq u a b f lo hi q ->
  impacts_at k (fold_left (sched u a b f step) evs q) =
  impacts_at k q ++ map snd (filter (fun e => N.eqb (fst e) k) evs).
Proof.
  intros Hs. induction evs as [|e evs IH]; intros q k Hq; cbn [fold_left filter map]; [now rewrite app_nil_r|].
  rewrite IH by now apply wfq_sched. rewrite (impacts_at_sched _ _ _ _ lo hi) by assumption.
  rewrite <- app_assoc. destruct (N.eqb (fst e) k); reflexivity.
Qed.
Lemma impacts_at_erase k key q : k <> key -> impacts_at k (q_erase key q) = impacts_at k q.
Proof. intros H. unfold impacts_at. rewrite q_find_erase. destruct (N.eqb_spec k key); [congruence|reflexivity]. Qed.
Lemma find_none_impacts u a b f lo hi q k : wfq u a b f lo hi q -> (q_find k q = None <-> impacts_at k q = []).
Proof.
  intros H. unfold impacts_at. destruct (q_find k q) eqn:E; [|tauto].
  destruct (H _ _ E) as (t & l & -> & Hl & _). split; [discriminate|]. intros ->. congruence.
Qed.

(** ** one step on one thread *)
Definition ev (step : N) (x : nat * dsyn) : N * impact :=
  (future_step (d_delay (sy_params (snd x))) step, impact_of (fst x) (snd x)).
Definition evs_of (step : N) (l : list dsyn) (n : N) : list (N * impact) :=
  map (ev step) (filter (fun x => N.eqb (sy_from (snd x)) n) (numbered l)).

Lemma index_from_numbered (l : list dsyn) : forall i,
  index_from i l = map (fun x => mkConn (sy_from (snd x)) (sy_to (snd x)) (fst x)) (combine (seq i (length l)) l).
Proof. induction l as [|s l IH]; intros i; cbn [index_from length seq combine map fst snd]; [reflexivity|]. now rewrite IH. Qed.
Lemma numbered_nth (l : list dsyn) x : In x (numbered l) -> nth_error l (fst x) = Some (snd x).
Proof.
  assert (G : forall (l : list dsyn) i x, In x (combine (seq i (length l)) l) ->
                i <= fst x /\ nth_error l (fst x - i) = Some (snd x)).
  { clear. intros l. induction l as [|s l IH]; intros i x; cbn [length seq combine]; [intros []|].
    intros [<-|H]; cbn [fst snd]; [rewrite Nat.sub_diag; auto|].
    destruct (IH (S i) x H) as [H1 H2]. split; [lia|].
    replace (fst x - i) with (S (fst x - S i)) by lia. exact H2. }
  intros H. destruct (G l 0 x H) as [_ H2]. now rewrite Nat.sub_0_r in H2.
Qed.
Lemma found_positions n (l : list dsyn) :
  map c_index (filter (fun e => N.eqb (conn_key ByPre e) n) (index_from 0 l)) =
  map fst (filter (fun x => N.eqb (sy_from (snd x)) n) (numbered l)).
Proof. rewrite index_from_numbered, filter_map_comm, map_map. reflexivity. Qed.
Lemma do_synapses_eq h step l : forall xs q,
  (forall x, In x xs -> nth_error l (fst x) = Some (snd x)) ->
  do_synapses h step l (map fst xs) q =
  Ret (fold_left (sched (ph_uid h) (ph_pre h) (ph_post h) (ph_forced h) step) (map (ev step) xs) q).
Proof.
  induction xs as [|x xs IH]; intros q H; cbn [map do_synapses fold_left]; [reflexivity|].
  rewrite (H x) by (left; reflexivity). rewrite IH by (intros; apply H; now right). reflexivity.
Qed.
Lemma do_spikes_eq h step : forall spikes p q, index_ok p ->
  exists p', do_spikes h step spikes p q =
    Ret (p', fold_left (sched (ph_uid h) (ph_pre h) (ph_post h) (ph_forced h) step)
               (flat_map (evs_of step (p_syn p)) spikes) q) /\
    p_syn p' = p_syn p /\ index_ok p'.
Proof.
  induction spikes as [|n spikes IH]; intros p q Hok; cbn [do_spikes flat_map fold_left].
  - exists p. auto.
  - destruct (find_synapses ByPre n p) as [p1 r] eqn:E.
    destruct (find_spec ByPre n p p1 r Hok E) as (E1 & _ & Hok1 & _).
    unfold find_synapses in E. injection E as <- <-. destruct (reindex_spec p Hok) as (_ & _ & E3).
    rewrite E3, found_positions, E1.
    rewrite do_synapses_eq by (intros x Hx; apply filter_In in Hx as [Hx _]; now apply numbered_nth).
    cbn [obind].
    destruct (IH (reindex p) (fold_left (sched (ph_uid h) (ph_pre h) (ph_post h) (ph_forced h) step)
                (evs_of step (p_syn p) n) q) Hok1) as (p' & E4 & E5 & E6).
    exists p'. unfold evs_of in E4 at 1. rewrite E4, E1, fold_left_app. split; [reflexivity|]. split; [congruence|exact E6].
Qed.
Lemma index_ok_syn (p : dproj) (l : list dsyn) : index_ok p -> map (fun s => (sy_from s, sy_to s)) l = map (fun s => (sy_from s, sy_to s)) (p_syn p) ->
  index_ok (mkProj l (p_index p) (p_updated p)).
Proof.
  intros H E Hu. cbn in *. rewrite (H Hu). clear H Hu. generalize 0. revert E. generalize (p_syn p). clear p.
  induction l as [|s l IH]; intros [|s' l'] E i; cbn in *; try discriminate; [reflexivity|].
  injection E as E1 E2 E. rewrite E1, E2. f_equal. now apply IH.
Qed.

(** ** runs *)
Section Run.
Variables (h : phead) (s0 : N) (ins : list pinput) (ends : list (N * N)).
Hypothesis Hbound : (s0 + N.of_nat (length ins) + two32 <= two64)%N.
Hypothesis Hends : Forall (fun i => ends_of (in_syn i) = ends) ins.
Hypothesis Hsyn : Forall (fun i => Forall syn_ok (in_syn i)) ins.

Definition evs_in (n : nat) (i : pinput) : list (N * impact) :=
  flat_map (evs_of (s0 + N.of_nat n) (in_syn i)) (spikes_of (in_msgs i)).
Definition contrib (n : nat) (k : N) : list impact :=
  match nth_error ins n with
  | Some i => map snd (filter (fun e => N.eqb (fst e) k) (evs_in n i))
  | None => []
  end.
Definition pend (t : nat) (k : N) : list impact := flat_map (fun n => contrib n k) (seq 0 t).

Lemma pend_S t k : pend (S t) k = pend t k ++ contrib t k.
Proof. unfold pend. rewrite seq_S, flat_map_app. cbn. now rewrite app_nil_r. Qed.

Lemma future_key d n t : n <= t < length ins -> (d < two32)%N ->
  N.eqb (future_step d (s0 + N.of_nat n)) (s0 + N.of_nat t) = N.eqb d (N.of_nat (t - n) + 1).
Proof.
  intros Ht Hd. unfold future_step, sub64, add64, w64.
  assert (H2 : (two32 = 4294967296)%N) by reflexivity. assert (H4 : (two64 = 18446744073709551616)%N) by reflexivity.
  rewrite H4 in *. rewrite H2 in *.
  rewrite (N.mod_small (d + (s0 + N.of_nat n))) by lia. change (1 mod 18446744073709551616)%N with 1%N.
  destruct (N.eq_dec (d + (s0 + N.of_nat n)) 0) as [E|E].
  - rewrite E. rewrite N.mod_small by lia. lia.
  - replace (d + (s0 + N.of_nat n) + (18446744073709551616 - 1))%N
      with (d + (s0 + N.of_nat n) - 1 + 1 * 18446744073709551616)%N by lia.
    rewrite N.mod_add by discriminate. rewrite N.mod_small by lia. lia.
Qed.

Lemma contrib_due n t : n <= t < length ins ->
  contrib n (s0 + N.of_nat t) =
  match nth_error ins n with
  | Some i => flat_map (fun neuron => impacts_with_delay (in_syn i) neuron (N.of_nat (t - n) + 1)) (spikes_of (in_msgs i))
  | None => []
  end.
Proof.
  intros Ht. unfold contrib. destruct (nth_error ins n) as [i|] eqn:E; [|reflexivity].
  unfold evs_in. rewrite filter_flat_map, map_flat_map. apply flat_map_ext_in. intros neuron _.
  unfold evs_of, impacts_with_delay. rewrite filter_map_comm, filter_filter, map_map.
  assert (Hok : Forall syn_ok (in_syn i)).
  { rewrite Forall_forall in Hsyn. apply Hsyn. eapply nth_error_In; eauto. }
  assert (Hin : forall x, In x (numbered (in_syn i)) -> syn_ok (snd x)).
  { intros x Hx. rewrite Forall_forall in Hok. apply Hok. apply numbered_nth in Hx. eapply nth_error_In; eauto. }
  rewrite (filter_ext_in' _ (fun x => N.eqb (sy_from (snd x)) neuron && N.eqb (d_delay (sy_params (snd x))) (N.of_nat (t - n) + 1))).
  - apply map_ext_in. intros x Hx. apply filter_In in Hx as [Hx _]. destruct (Hin x Hx) as (_ & Hf & Hto).
    unfold ev, impact_of; cbn [snd]. unfold w32. rewrite !N.mod_small by assumption. reflexivity.
  - intros x Hx. f_equal. unfold ev; cbn [fst]. apply future_key; [exact Ht|]. apply (Hin x Hx).
Qed.
Lemma pend_due t : t < length ins -> pend (S t) (s0 + N.of_nat t) = due ins t.
Proof.
  intros Ht. unfold pend, due. apply flat_map_ext_in. intros n Hn. apply in_seq in Hn. apply contrib_due. lia.
Qed.

Notation WF := (wfq (ph_uid h) (ph_pre h) (ph_post h) (ph_forced h)).
Definition inv (t : nat) (q : queue) : Prop :=
  (forall hi, (s0 + N.of_nat t <= hi)%N -> WF s0 hi q) /\
  forall k, (s0 + N.of_nat t <= k < s0 + N.of_nat (length ins))%N -> impacts_at k q = pend t k.

Definition good_output (t : nat) (o : option message) : Prop :=
  (o = None <-> due ins t = []) /\
  forall m, o = Some m -> exists time imps,
    m = ImpactMsg (ph_uid h) time (ph_pre h) (ph_post h) (ph_forced h) imps /\
    Permutation imps (due ins t) /\ (s0 <= time <= s0 + N.of_nat t)%N.

Lemma step_inv t i p q : nth_error ins t = Some i -> index_ok p -> ends_of (p_syn p) = ends -> inv t q ->
  exists p' q' o, calculate_projection h (s0 + N.of_nat t) (in_msgs i) (mkProj (in_syn i) (p_index p) (p_updated p)) q
    = Ret (p', q', o) /\ index_ok p' /\ ends_of (p_syn p') = ends /\ inv (S t) q' /\ good_output t o.
Proof.
  intros Ei Hok He [Hwf Hq]. unfold calculate_projection.
  assert (Ht : t < length ins) by (apply nth_error_Some; congruence).
  assert (Hei : ends_of (in_syn i) = ends) by (rewrite Forall_forall in Hends; apply Hends; eapply nth_error_In; eauto).
  assert (Hok1 : index_ok (mkProj (in_syn i) (p_index p) (p_updated p))).
  { apply index_ok_syn; [exact Hok|]. unfold ends_of in *. congruence. }
  destruct (do_spikes_eq h (s0 + N.of_nat t) (spikes_of (in_msgs i)) _ q Hok1) as (p' & E & Ep & Hok').
  rewrite E. cbn [obind fst snd p_syn] in *. fold (evs_in t i).
  set (q1 := fold_left _ (evs_in t i) q).
  assert (Hwf1 : forall hi, (s0 + N.of_nat t <= hi)%N -> WF s0 hi q1).
  { intros hi Hhi. apply wfq_fold; [lia|]. now apply Hwf. }
  assert (Hq1 : forall k, (s0 + N.of_nat t <= k < s0 + N.of_nat (length ins))%N -> impacts_at k q1 = pend (S t) k).
  { intros k Hk. unfold q1. rewrite (impacts_at_fold _ _ _ _ s0 (s0 + N.of_nat t)) by (try apply Hwf; lia).
    rewrite Hq by lia. rewrite pend_S. f_equal. unfold contrib. now rewrite Ei. }
  assert (Hdue : impacts_at (s0 + N.of_nat t) q1 = due ins t) by (rewrite Hq1 by lia; now apply pend_due).
  assert (Hnone : q_find (s0 + N.of_nat t)%N q1 = None <-> due ins t = []).
  { rewrite <- Hdue. eapply find_none_impacts. apply (Hwf1 (s0 + N.of_nat t)%N). lia. }
  exists p', (match q_find (s0 + N.of_nat t) q1 with Some _ => q_erase (s0 + N.of_nat t) q1 | None => q1 end),
    (q_find (s0 + N.of_nat t) q1).
  split; [destruct (q_find (s0 + N.of_nat t) q1); reflexivity|].
  split; [exact Hok'|]. split; [rewrite Ep; exact Hei|]. split.
  - split.
    + intros hi Hhi. assert (Hw : WF s0 hi q1) by (apply Hwf1; lia).
      destruct (q_find (s0 + N.of_nat t) q1); auto using wfq_erase.
    + intros k Hk. rewrite <- Hq1 by lia.
      destruct (q_find (s0 + N.of_nat t) q1); [|reflexivity]. apply impacts_at_erase. lia.
  - split; [exact Hnone|]. intros m Em.
    destruct (Hwf1 (s0 + N.of_nat t)%N ltac:(lia) _ _ Em) as (time & l & -> & _ & Htime).
    exists time, l. split; [reflexivity|]. split; [|exact Htime].
    rewrite <- Hdue. unfold impacts_at. rewrite Em. apply Permutation_refl.
Qed.

Lemma run_inv : forall rest t p q, ins = firstn t ins ++ rest -> t <= length ins ->
  index_ok p -> ends_of (p_syn p) = ends -> inv t q ->
  exists outs, run_projection h (s0 + N.of_nat t) rest p q = Ret outs /\ length outs = length rest /\
    forall j o, nth_error outs j = Some o -> good_output (t + j) o.
Proof.
  induction rest as [|i rest IH]; intros t p q Hr Ht Hok He Hinv; cbn [run_projection].
  - exists []. split; [reflexivity|]. split; [reflexivity|]. intros [|j] o H; discriminate.
  - assert (Hlen : length (firstn t ins) = t) by (apply firstn_length_le; lia).
    assert (Ei : nth_error ins t = Some i).
    { rewrite Hr, nth_error_app2 by lia. rewrite Hlen, Nat.sub_diag. reflexivity. }
    destruct (step_inv t i p q Ei Hok He Hinv) as (p' & q' & o & E & Hok' & He' & Hinv' & Hg).
    rewrite E. cbn [obind].
    assert (Hlt : t < length ins) by (apply nth_error_Some; congruence).
    assert (Hstep : add64 (s0 + N.of_nat t) 1 = (s0 + N.of_nat (S t))%N).
    { unfold add64, w64. rewrite N.mod_small; [lia|]. change two32 with 4294967296%N in Hbound. lia. }
    rewrite Hstep.
    assert (Hr' : ins = firstn (S t) ins ++ rest).
    { assert (Hf : firstn (S t) ins = firstn t ins ++ [i]).
      { rewrite Hr at 1. rewrite firstn_app, firstn_all2 by lia. rewrite Hlen.
        replace (S t - t) with 1 by lia. reflexivity. }
      rewrite Hf, <- app_assoc. exact Hr. }
    destruct (IH (S t) p' q' Hr' Hlt Hok' He' Hinv') as (outs & E2 & Hl & Hall).
    rewrite E2. cbn [obind]. exists (o :: outs). split; [reflexivity|]. split; [cbn; congruence|].
    intros [|j] o' H; cbn in H.
    + injection H as <-. now rewrite Nat.add_0_r.
    + replace (t + S j) with (S t + j) by lia. now apply Hall.
Qed.

Lemma run_good p : index_ok p -> ends_of (p_syn p) = ends ->
  exists outs, run_projection h s0 ins p [] = Ret outs /\ length outs = length ins /\
    forall t o, nth_error outs t = Some o -> good_output t o.
Proof.
  intros Hok He. pose proof (run_inv ins 0 p [] eq_refl (Nat.le_0_l _) Hok He) as H.
  change (N.of_nat 0) with 0%N in H. rewrite N.add_0_r in H. apply H.
  split; [intros hi _ k m Hk; discriminate|]. intros k _. reflexivity.
Qed.
End Run.

Lemma sound_index_ok p : sound_projection p -> index_ok p.
Proof.
  intros (p0 & fresh & ops & tr & H0 & Hr & Hu). destruct H0 as [[-> ->]|[(g & k & ->) ->]].
  - eapply run_ok; eauto using index_ok_empty.
  - eapply run_ok; eauto using index_ok_generated.
Qed.

(** ** the partition *)
Lemma parts_from_tiles size part : (0 < part < two64)%N -> (size <= 2 ^ 63)%N -> forall fuel start,
  (start <= size)%N -> (start = 0 \/ part <= start)%N -> (N.to_nat (size - start) <= fuel) ->
  exists l, parts_from start size part fuel = Some l /\ tiles start size l.
Proof.
  intros Hp Hs. change two64 with 18446744073709551616%N in *. change (2 ^ 63)%N with 9223372036854775808%N in Hs.
  induction fuel as [|f IH]; intros start Hle Hst Hf; cbn [parts_from].
  - destruct (N.ltb_spec start size); [lia|]. exists []. split; [reflexivity|]. cbn. lia.
  - destruct (N.ltb_spec start size) as [Hlt|Hge]; [|exists []; split; [reflexivity|cbn; lia]].
    assert (E : add64 start part = (start + part)%N).
    { unfold add64, w64. change two64 with 18446744073709551616%N. apply N.mod_small. lia. }
    rewrite E. destruct (N.leb_spec size (start + part)) as [Hbig|Hsmall].
    + rewrite N.min_r by assumption. exists [(start, size)]. split.
      * destruct f; cbn [parts_from]; destruct (N.ltb_spec (start + part) size); try lia; reflexivity.
      * cbn. lia.
    + rewrite N.min_l by lia. destruct (IH (start + part)%N) as (l & El & Hl); [lia|lia|lia|].
      rewrite El. exists ((start, (start + part)%N) :: l). split; [reflexivity|]. cbn. split; [reflexivity|]. split; [lia|exact Hl].
Qed.
Lemma tiles_cover : forall l from size, tiles from size l ->
  forall i, (from <= i < size)%N -> exists! k, exists a b, nth_error l k = Some (a, b) /\ (a <= i < b)%N.
Proof.
  induction l as [|[a b] l IH]; cbn [tiles]; intros from size H i Hi; [lia|].
  destruct H as (-> & Hab & Ht).
  assert (Hlow : forall k x y, nth_error l k = Some (x, y) -> (b <= x)%N).
  { clear - Ht. revert b Ht. induction l as [|[a' b'] l IH]; intros b Ht k x y Hk; [destruct k; discriminate|].
    cbn [tiles] in Ht. destruct Ht as (-> & Hab & Ht). destruct k as [|k]; cbn in Hk; [injection Hk as <- <-; lia|].
    specialize (IH _ Ht _ _ _ Hk). lia. }
  destruct (N.lt_ge_cases i b) as [Hlt|Hge].
  - exists 0. split; [exists from, b; split; [reflexivity|lia]|].
    intros [|k] (x & y & Hk & Hx); [reflexivity|]. cbn in Hk. apply Hlow in Hk. lia.
  - destruct (IH b size Ht i ltac:(lia)) as (k & (x & y & Hk & Hx) & Hu). exists (S k).
    split; [exists x, y; split; [exact Hk|exact Hx]|].
    intros [|k'] (x' & y' & Hk' & Hx'); cbn in Hk'; [injection Hk' as <- <-; lia|].
    f_equal. apply Hu. eauto.
Qed.
Lemma parts_zero size : (0 < size)%N -> forall fuel, parts size 0 fuel = None.
Proof.
  intros Hs. unfold parts. induction fuel as [|f IH]; cbn [parts_from]; destruct (N.ltb_spec 0 size); try lia; [reflexivity|].
  change (add64 0 0) with 0%N. now rewrite IH.
Qed.
Lemma parts_fuel size part : forall fuel fuel' start l, parts_from start size part fuel = Some l -> fuel <= fuel' ->
  parts_from start size part fuel' = Some l.
Proof.
  induction fuel as [|f IH]; intros fuel' start l H Hle; cbn [parts_from] in H.
  - destruct (N.ltb_spec start size) as [Hlt|Hge]; [discriminate|]. destruct fuel'; cbn [parts_from]; destruct (N.ltb_spec start size); try lia; exact H.
  - destruct fuel' as [|f']; [lia|]. cbn [parts_from]. destruct (start <? size)%N; [|exact H].
    destruct (parts_from (add64 start part) size part f) eqn:E; [|discriminate].
    now rewrite (IH f' _ _ E) by lia.
Qed.
