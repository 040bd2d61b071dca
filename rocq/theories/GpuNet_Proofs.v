(** The delta projection of the CUDA backend. *)
From Verif Require Import Base ListLemmas Messaging_Model Projection_Model Delta_Model Delta_Spec Gpu_Model Gpu_Spec
  Gpu_Proofs Gpu_Proofs2 Gpu_Proofs3 GpuBus_Model GpuBus_Spec GpuBus_Proofs GpuBus_Proofs2 GpuNet_Model GpuNet_Spec.

Section Two.
(** Vectors of messages that are filled on the device: two places at most. *)
Context (sz : nat) (sz1 : 1 <= sz) (E : elem gmsg) (class : e_triv E = false).
Definition cap_ok (v : vec gmsg) : Prop := v_cap v = 0 \/ v_cap v = 2.

Lemma reserve_cap v n v' : d_reserve E sz v n = Ret v' -> v_cap v' = Nat.max n (v_cap v).
Proof.
  unfold d_reserve. destruct (Nat.leb_spec n (v_cap v)); [intros [= <-]; lia|].
  destruct (loop _ _ _ _); cbn [obind]; intros X; try discriminate. injection X as <-. cbn [v_cap]. lia.
Qed.
Lemma push_two v l a : vok v l -> cap_ok v ->
  if length l <? 2 then exists v', d_push E sz v a = Ret v' /\ vok v' (l ++ [a]) /\ cap_ok v'
  else d_push E sz v a = UB.
Proof.
  intros V C. pose proof (ok_le _ _ V) as Le. pose proof (ok_size _ _ V) as Sz.
  destruct (Nat.ltb_spec (length l) 2) as [H|H].
  - destruct (d_push_ok E sz sz1 v l a V) as [v' [R V']].
    { destruct C as [C|C]; [right; left|right; right; lia]. rewrite C in Le. destruct l; [reflexivity|cbn in Le; lia]. }
    exists v'. split; [assumption|]. split; [assumption|]. revert R. unfold d_push, cap_ok.
    destruct (Nat.eqb_spec (v_size v) (v_cap v)).
    + destruct (d_reserve E sz v _) as [w| |] eqn:R; cbn [obind]; try discriminate. apply reserve_cap in R.
      destruct (construct _ _ _); cbn [obind]; try discriminate. intros [= <-]. unfold with_mem. cbn [v_cap].
      right. rewrite R. destruct C as [C|C]; lia.
    + cbn [obind]. destruct (construct _ _ _); cbn [obind]; try discriminate. intros [= <-]. unfold with_mem. cbn [v_cap].
      destruct C as [C|C]; lia.
  - apply (d_push_class E sz sz1 v l a V class); [destruct l; [cbn in H; lia|discriminate]|]. destruct C; lia.
Qed.
Lemma resize_cap v n v' : n <= v_size v -> d_resize E sz v n = Ret v' -> v_cap v' = v_cap v.
Proof.
  intros L. unfold d_resize. destruct (Nat.eqb_spec n (v_size v)); [congruence|].
  destruct (Nat.ltb_spec n (v_size v)); [|lia]. destruct (loop _ _ _ _); cbn [obind]; try discriminate.
  intros [= <-]. reflexivity.
Qed.
Lemma erase_cap v b e v' : d_erase E sz v b e = Ret v' -> v_cap v' = v_cap v.
Proof.
  unfold d_erase. destruct (Nat.leb_spec (v_size v) b); [congruence|]. destruct (Nat.leb_spec e b); [congruence|].
  destruct (Nat.leb_spec (v_size v) e); [apply resize_cap; lia|].
  destruct (loop _ _ _ _) as [m| |]; cbn [obind]; try discriminate.
  intros R. apply resize_cap in R; [exact R|]. unfold with_mem. cbn [v_size]. lia.
Qed.
End Two.

Section Collect.
Context (sz : nat) (sz1 : 1 <= sz).
Lemma collect_ok bus : forall idx v l, vok v l -> cap_ok v ->
  if length l + length (messages_at bus idx) <=? 2
  then exists v', collect sz (map Obj bus) (length bus) idx v = Ret v' /\ vok v' (l ++ messages_at bus idx) /\ cap_ok v'
  else length l <= 2 -> collect sz (map Obj bus) (length bus) idx v = UB.
Proof.
  induction idx as [|i idx IH]; intros v l V C; cbn [collect messages_at flat_map].
  - cbn [length]. rewrite Nat.add_0_r, app_nil_r. destruct (Nat.leb_spec (length l) 2); [|lia]. eauto.
  - destruct (nth_error bus i) as [m|] eqn:N.
    + assert (i < length bus) by (apply nth_error_Some; congruence). destruct (Nat.leb_spec (length bus) i); [lia|].
      rewrite <- (app_nil_r (map Obj bus)). rewrite (read_obj _ _ _ _ N). rewrite (app_nil_r (map Obj bus)). cbn [obind].
      pose proof (push_two sz sz1 gmsg_elem eq_refl v l m V C) as P. destruct (Nat.ltb_spec (length l) 2).
      * destruct P as [v' [-> [V' C']]]. cbn [obind]. specialize (IH v' (l ++ [m]) V' C').
        change (flat_map _ idx) with (messages_at bus idx). rewrite app_length in IH. cbn [length app] in *.
        replace (length l + S (length (messages_at bus idx))) with (length l + 1 + length (messages_at bus idx)) by lia.
        destruct (_ <=? 2).
        -- rewrite <- app_assoc in IH. exact IH.
        -- intros _. apply IH. lia.
      * rewrite P. cbn [obind app length]. destruct (Nat.leb_spec (length l + S (length (flat_map (fun k => match nth_error bus k with Some m => [m] | None => [] end) idx))) 2); [lia|reflexivity].
    + apply nth_error_None in N. destruct (Nat.leb_spec (length bus) i); [|lia]. cbn [app]. now apply IH.
Qed.
End Collect.

(** ** The list of pending messages *)
Section Pending.
Context (u pre post : uid).
Fixpoint l_sched (key : N) (i : impact) (L : list gmsg) : list gmsg :=
  match L with
  | [] => [GImpact u key false pre post true [i]]
  | m :: t => if N.eqb (g_time m) key then g_push i m :: t else m :: l_sched key i t
  end.
Definition l_steps (items : list (N * impact)) (L : list gmsg) : list gmsg :=
  fold_left (fun L x => l_sched (fst x) (snd x) L) items L.
Definition wf (m : gmsg) : Prop := exists t l, m = GImpact u t false pre post true l /\ l <> [].
Definition at_key (k : N) (L : list gmsg) : list impact :=
  match find (fun m => N.eqb (g_time m) k) L with Some (GImpact _ _ _ _ _ _ l) => l | _ => [] end.

Lemma push_time i m : g_time (g_push i m) = g_time m.
Proof. destruct m; reflexivity. Qed.
Lemma sched_wf key i L : Forall wf L -> Forall wf (l_sched key i L).
Proof.
  induction 1 as [|m L [t [l [-> Hl]]] F IH]; cbn [l_sched g_time].
  - constructor; [|constructor]. exists key, [i]. split; [reflexivity|discriminate].
  - destruct (t =? key)%N; constructor; auto; [|exists t, l; auto].
    exists t, (l ++ [i]). split; [reflexivity|]. destruct l; discriminate.
Qed.
Lemma sched_times key i L : map g_time (l_sched key i L) =
  if existsb (fun m => N.eqb (g_time m) key) L then map g_time L else map g_time L ++ [key].
Proof.
  induction L as [|m L IH]; [reflexivity|]. cbn [l_sched existsb map]. destruct (g_time m =? key)%N.
  - cbn [orb map]. now rewrite push_time.
  - cbn [orb map]. rewrite IH. destruct (existsb _ L); reflexivity.
Qed.
Lemma existsb_time key L : existsb (fun m => N.eqb (g_time m) key) L = true <-> In key (map g_time L).
Proof.
  rewrite existsb_exists, in_map_iff. split; intros [m [A B]]; exists m.
  - apply N.eqb_eq in B. auto.
  - split; [assumption|]. now apply N.eqb_eq.
Qed.
Lemma sched_NoDup key i L : NoDup (map g_time L) -> NoDup (map g_time (l_sched key i L)).
Proof.
  intros N. rewrite sched_times. destruct (existsb _ L) eqn:X; [assumption|].
  apply NoDup_app_intro; [assumption|repeat constructor; intros []|].
  intros k Hk [<-|[]]. apply existsb_time in Hk. congruence.
Qed.
Lemma sched_at k key i L : Forall wf L -> at_key k (l_sched key i L) = at_key k L ++ (if N.eqb key k then [i] else []).
Proof.
  unfold at_key. induction 1 as [|m L [t [l [-> Hl]]] F IH]; cbn [l_sched g_time find].
  - destruct (key =? k)%N; reflexivity.
  - destruct (N.eqb_spec t key) as [->|D]; cbn [find g_time g_push].
    + destruct (key =? k)%N; [reflexivity|]. now rewrite app_nil_r.
    + destruct (N.eqb_spec t k) as [->|D2]; [|exact IH].
      destruct (N.eqb_spec key k); [congruence|]. now rewrite app_nil_r.
Qed.
Lemma sched_length key i L : length L <= length (l_sched key i L) <= length L + 1.
Proof.
  induction L as [|m L IH]; cbn [l_sched]; [cbn; lia|]. destruct (_ =? _)%N; cbn [length]; lia.
Qed.
Lemma steps_length items : forall L, length L <= length (l_steps items L).
Proof.
  induction items as [|x items IH]; intros L; [auto|]. cbn [l_steps fold_left]. change (fold_left _ items ?a) with (l_steps items a).
  specialize (IH (l_sched (fst x) (snd x) L)). pose proof (sched_length (fst x) (snd x) L). lia.
Qed.
Lemma steps_wf items : forall L, Forall wf L -> Forall wf (l_steps items L).
Proof. induction items as [|x items IH]; intros L F; [auto|]. cbn [l_steps fold_left]. apply IH. now apply sched_wf. Qed.
Lemma steps_NoDup items : forall L, NoDup (map g_time L) -> NoDup (map g_time (l_steps items L)).
Proof. induction items as [|x items IH]; intros L F; [auto|]. cbn [l_steps fold_left]. apply IH. now apply sched_NoDup. Qed.
Lemma steps_at k items : forall L, Forall wf L ->
  at_key k (l_steps items L) = at_key k L ++ map snd (filter (fun x => N.eqb (fst x) k) items).
Proof.
  induction items as [|x items IH]; intros L F; cbn [filter map]; [cbn; now rewrite app_nil_r|]. cbn [l_steps fold_left].
  change (fold_left _ items ?a) with (l_steps items a). rewrite IH by now apply sched_wf. rewrite sched_at by assumption.
  rewrite <- app_assoc. f_equal. destruct (fst x =? k)%N; reflexivity.
Qed.
Lemma steps_times k items : forall L, In k (map g_time (l_steps items L)) <-> In k (map g_time L) \/ In k (map fst items).
Proof.
  induction items as [|x items IH]; intros L; cbn [map In]; [cbn; tauto|]. cbn [l_steps fold_left].
  change (fold_left _ items ?a) with (l_steps items a). rewrite IH, sched_times.
  destruct (existsb _ L) eqn:X.
  - apply existsb_time in X. split; [tauto|]. intros [H|[<-|H]]; auto.
  - rewrite in_app_iff. cbn [In]. tauto.
Qed.
Lemma at_key_In k L : Forall wf L -> (at_key k L <> [] <-> In k (map g_time L)).
Proof.
  unfold at_key. induction 1 as [|m L [t [l [-> Hl]]] F IH]; cbn [find g_time map In]; [split; [congruence|intros []]|].
  destruct (N.eqb_spec t k) as [->|D]; [tauto|]. rewrite IH. split; [auto|intros [|]; [congruence|assumption]].
Qed.

(** ** The code on a vector *)
Context (sz : nat) (sz1 : 1 <= sz).
Lemma add_pending_ok key i : forall n k v L, vok v L -> k + n = length L ->
  add_pending key i v k n =
  Ret (if existsb (fun m => N.eqb (g_time m) key) (skipn k L)
       then (with_mem v (map Obj (firstn k L ++ l_sched key i (skipn k L)) ++ skipn (length L) (deref v)) (v_size v), true)
       else (v, false)).
Proof.
  induction n as [|n IH]; intros k v L V H; cbn [add_pending].
  - rewrite skipn_all2 by lia. reflexivity.
  - destruct (nth_error L k) as [m|] eqn:N; [|apply nth_error_None in N; lia].
    pose proof V as [[rest D] Sz Le Cap Nul]. rewrite D, (read_obj _ _ _ _ N). cbn [obind]. rewrite <- D.
    destruct (nth_error_split _ _ N) as [l1 [l2 [EL Lk]]].
    assert (Sk : skipn k L = m :: l2) by (rewrite EL, <- Lk, skipn_app, skipn_all, Nat.sub_diag; reflexivity).
    assert (Fn : firstn k L = l1) by (rewrite EL, <- Lk, firstn_app, firstn_all, Nat.sub_diag; cbn [firstn]; apply app_nil_r).
    rewrite Sk, Fn. cbn [existsb l_sched]. destruct (N.eqb_spec (g_time m) key) as [Hk|Hk]; cbn [orb].
    + assert (Lk2 : k < length (deref v)) by (rewrite D, app_length, map_length; lia).
      rewrite write_upd by assumption. cbn [obind]. f_equal. f_equal. f_equal.
      unfold upd. rewrite D. rewrite EL at 1 2. rewrite map_app, <- app_assoc, firstn_app, map_length, Lk, Nat.sub_diag.
      cbn [firstn]. rewrite app_nil_r. rewrite firstn_all2 by (rewrite map_length; lia).
      rewrite skipn_app, skipn_all2 by (rewrite map_length; lia). rewrite map_length.
      replace (S k - length l1) with 1 by lia. cbn [map app skipn].
      rewrite map_app, <- app_assoc. f_equal. cbn [map app]. f_equal. f_equal.
      rewrite skipn_app, skipn_all2 by (rewrite map_length; lia). rewrite map_length, Nat.sub_diag. reflexivity.
    + rewrite (IH (S k) v L V ltac:(lia)).
      assert (Sk' : skipn (S k) L = l2).
      { rewrite EL, <- Lk. rewrite skipn_app, skipn_all2 by lia. replace (S (length l1) - length l1) with 1 by lia. reflexivity. }
      assert (Fn' : firstn (S k) L = l1 ++ [m]).
      { rewrite EL, <- Lk. rewrite firstn_app, firstn_all2 by lia. replace (S (length l1) - length l1) with 1 by lia. reflexivity. }
      rewrite Sk', Fn'. destruct (existsb _ l2); [|reflexivity]. do 4 f_equal. rewrite <- app_assoc. reflexivity.
Qed.

Lemma schedule_ok p step index s v L : gp_uid p = u -> gp_pre p = pre -> gp_post p = post -> vok v L -> cap_ok v -> length L <= 2 ->
  let L' := l_sched (future_step (d_delay (sy_params s)) step) (impact_of index s) L in
  if length L' <=? 2 then exists v', g_schedule sz p step index s v = Ret v' /\ vok v' L' /\ cap_ok v'
  else g_schedule sz p step index s v = UB.
Proof.
  intros Eu Ep Eq V C L2. cbv zeta. unfold g_schedule. set (key := future_step _ _). set (i := impact_of _ _).
  rewrite (ok_size _ _ V). rewrite (add_pending_ok key i (length L) 0 v L V ltac:(lia)). cbn [skipn firstn app obind].
  destruct (existsb _ L) eqn:X; cbn [fst snd].
  - assert (Len : length (l_sched key i L) = length L).
    { rewrite <- (map_length g_time), sched_times, X. apply map_length. }
    rewrite Len. destruct (Nat.leb_spec (length L) 2); [|lia]. eexists. split; [reflexivity|]. split; [|exact C].
    pose proof V as [[rest D] Sz Le Cap Nul]. eapply vok_at; [rewrite Len; exact Sz|reflexivity| |assumption|assumption|lia].
    rewrite D, !app_length, !map_length, Len, skipn_app, skipn_all2 by (rewrite map_length; lia).
    rewrite map_length, Nat.sub_diag. reflexivity.
  - assert (El : l_sched key i L = L ++ [GImpact u key false pre post true [i]]).
    { clear - X. induction L as [|m L IH]; [reflexivity|]. cbn [existsb l_sched] in *. destruct (_ =? _)%N; [discriminate|].
      rewrite IH by assumption. reflexivity. }
    rewrite El, app_length. cbn [length]. rewrite Eu, Ep, Eq.
    pose proof (push_two sz sz1 imp_elem eq_refl v L (GImpact u key false pre post true [i]) V C) as P.
    destruct (Nat.ltb_spec (length L) 2); destruct (Nat.leb_spec (length L + 1) 2); try lia; assumption.
Qed.

(** What a spike schedules. *)
Definition items_of (step n : N) (l : list (nat * dsyn)) : list (N * impact) :=
  map (fun x => (future_step (d_delay (sy_params (snd x))) step, impact_of (fst x) (snd x)))
    (filter (fun x => N.eqb (sy_from (snd x)) n) l).
Lemma synapses_ok p step n : gp_uid p = u -> gp_pre p = pre -> gp_post p = post -> forall l index v L,
  vok v L -> cap_ok v -> length L <= 2 ->
  let L' := l_steps (items_of step n (combine (seq index (length l)) l)) L in
  if length L' <=? 2 then exists v', g_synapses sz p step n index l v = Ret v' /\ vok v' L' /\ cap_ok v'
  else g_synapses sz p step n index l v = UB.
Proof.
  intros Eu Ep Eq. induction l as [|s l IH]; intros index v L V C L2; cbn [length seq combine g_synapses].
  - cbn. destruct (Nat.leb_spec (length L) 2); [eauto|lia].
  - cbv zeta. unfold items_of. cbn [filter snd]. destruct (sy_from s =? n)%N.
    + cbn [map fst snd l_steps fold_left]. change (fold_left _ ?a ?b) with (l_steps a b).
      pose proof (schedule_ok p step index s v L Eu Ep Eq V C L2) as S1. cbv zeta in S1.
      set (L1 := l_sched _ _ L) in *. destruct (Nat.leb_spec (length L1) 2) as [H|H].
      * destruct S1 as [v1 [-> [V1 C1]]]. cbn [obind]. exact (IH (S index) v1 L1 V1 C1 H).
      * rewrite S1. cbn [obind]. match goal with |- context [l_steps ?a L1] => pose proof (steps_length a L1) end.
        destruct (Nat.leb_spec (length (l_steps (map (fun x => (future_step (d_delay (sy_params (snd x))) step, impact_of (fst x) (snd x)))
           (filter (fun x => (sy_from (snd x) =? n)%N) (combine (seq (S index) (length l)) l))) L1)) 2); [lia|reflexivity].
    + exact (IH (S index) v L V C L2).
Qed.
Lemma spikes_ok p step : gp_uid p = u -> gp_pre p = pre -> gp_post p = post -> forall spikes v L,
  vok v L -> cap_ok v -> length L <= 2 ->
  let L' := l_steps (flat_map (fun n => items_of step n (numbered (gp_syn p))) spikes) L in
  if length L' <=? 2 then exists v', g_spikes sz p step spikes v = Ret v' /\ vok v' L' /\ cap_ok v'
  else g_spikes sz p step spikes v = UB.
Proof.
  intros Eu Ep Eq. induction spikes as [|n spikes IH]; intros v L V C L2; cbn [flat_map g_spikes].
  - cbn. destruct (Nat.leb_spec (length L) 2); [eauto|lia].
  - cbv zeta. unfold l_steps. rewrite fold_left_app. change (fold_left _ ?a ?b) with (l_steps a b).
    change (fold_left _ ?a ?b) with (l_steps a b).
    pose proof (synapses_ok p step n Eu Ep Eq (gp_syn p) 0 v L V C L2) as S1. cbv zeta in S1.
    change (combine (seq 0 (length (gp_syn p))) (gp_syn p)) with (numbered (gp_syn p)) in S1.
    set (L1 := l_steps (items_of step n (numbered (gp_syn p))) L) in *.
    destruct (Nat.leb_spec (length L1) 2) as [H|H].
    + destruct S1 as [v1 [-> [V1 C1]]]. cbn [obind]. exact (IH v1 L1 V1 C1 H).
    + rewrite S1. cbn [obind]. set (it := flat_map _ spikes). pose proof (steps_length it L1).
      destruct (Nat.leb_spec (length (l_steps it L1)) 2); [lia|reflexivity].
Qed.
End Pending.
