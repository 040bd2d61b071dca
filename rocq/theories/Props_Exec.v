(** Property theorems C105-C108: a network under the model executor. *)
From Coq Require Import Sorting.Sorted.
From Verif Require Import Base ListLemmas Messaging_Model Messaging_Spec Messaging_Proofs Messaging_Proofs2 Projection_Model Delta_Model Neuron_Model
  Pipeline_Model Pipeline_Spec Pipeline_Proofs Pipeline_Proofs2 Stdp_Model Additive_Model Train_Model Net_Model Net_Spec Net_Proofs Net_Proofs2 Net_Proofs3 Net_Proofs4 Net_Proofs5
  Props_Net Props_Net2 Framework_Model Framework_Spec Framework_Proofs Props_Framework Exec_Model Exec_Spec Exec_Proofs Exec_Proofs2 Exec_Proofs3 Exec_Proofs4 Exec_Proofs5 Exec_Proofs6.

(** *** C105 *)
(** Loading succeeds exactly if every input channel has a generator. *)
Theorem c105_loading gens ins outs calls pops projs : sound_network pops projs ->
  match executor_init gens ins outs calls pops projs with
  | Ret x => (forall c, In c ins -> In (fst c) gens) /\ nb_pops (x_net x) = pops /\ nb_projs (x_net x) = projs /\
             nb_step (x_net x) = 0%N /\ x_buffers x = map (fun _ => []) outs
  | Throw => exists c, In c ins /\ ~ In (fst c) gens
  | UB => False
  end.
Proof.
  intros Hs. destruct (forallb (fun c => mem (fst c) gens) ins) eqn:E.
  - destruct (set_up gens ins outs calls pops projs E Hs) as (x0 & k0 & e0 & ops & tr & -> & _ & _ & _ & _ & _ & P & J & S_ & B & D).
    split; [|auto]. intros c Hc. apply mem_In. rewrite forallb_forall in E. now apply E.
  - unfold executor_init. rewrite gen_inputs_throw by exact E. cbn [obind].
    assert (H : exists c, In c ins /\ mem (fst c) gens = false).
    { clear - E. induction ins as [|c t IH]; [discriminate|]. cbn [forallb] in E. destruct (mem (fst c) gens) eqn:M; [|exists c; split; [now left|exact M]].
      destruct (IH E) as (d & Hd & Hm). exists d. split; [now right|exact Hm]. }
    destruct H as (c & Hc & Hm). exists c. split; [exact Hc|]. intros Hin. apply mem_In in Hin. congruence.
Qed.
Print Assumptions c105_loading.
(** The steps of the executor are the steps of the same network on the backend alone,
    subscribed to the channels and the handlers and with other calls from outside (so
    that C84-C90 hold of them); as many as rounds that were not refused; calls of
    start_learning and stop_learning act on the next step. *)
Theorem c105_network pow2f expf gens ins outs calls pops projs turns x recs : sound_network pops projs ->
  executor_ran pow2f expf gens ins outs calls pops projs turns x recs ->
  exists turns' k, net_run pow2f expf (connections ins calls) pops projs turns' k (map xr_net recs) /\
    Forall (fun u => forallb outside (tu_ops u) = true) turns' /\
    map tu_learn turns' = map (flat_map xt_learn) (rounds [] turns) /\
    length recs = length (filter xt_go turns) /\ x_done x = length recs /\
    nb_pops (x_net x) = nb_pops k /\ nb_projs (x_net x) = learn_all (flat_map xt_learn (unfinished [] turns)) (nb_projs k).
Proof.
  intros Hs Hr. destruct (ran_facts _ _ _ _ _ _ _ _ _ _ _ Hs Hr) as (turns' & k & H1 & H2 & H3 & H4 & H5 & H6 & _ & _ & _ & H10).
  exists turns', k. do 3 (split; [assumption|]). split; [|auto]. rewrite H6. clear. generalize (@nil xturn).
  induction turns as [|u t IH]; intros l; cbn [rounds filter]; [reflexivity|]. destruct (xt_go u); cbn [length]; now rewrite IH.
Qed.
Print Assumptions c105_network.
(** In step [t], from outside come exactly what the input channels sent for [t] since the
    step before, and then what the handlers sent in the step before.  Every output
    channel adds to its buffer, every handler and every observer is called with, exactly
    the messages of the step of its type from its senders.  A handler sends at most one
    message, for the next step. *)
Theorem c105_messages pow2f expf gens ins outs calls pops projs turns x recs t rec g : sound_network pops projs ->
  executor_ran pow2f expf gens ins outs calls pops projs turns x recs ->
  nth_error recs t = Some rec -> nth_error (rounds [] turns) t = Some g ->
  let r := nr_msgs (xr_net rec) in
  r_ext r = inputs_for (N.of_nat t mod two64) 0 ins g ++ handled_before recs t /\
  xr_out rec = map (fun c => received 0 (snd c) r) outs /\
  xr_handled rec = map (reply t r) (handlers calls) /\
  xr_observed rec = map (fun o => received (fst o) (snd o) r) (observers calls).
Proof.
  intros Hs Hr Ht Hg r. destruct (ran_facts _ _ _ _ _ _ _ _ _ _ _ Hs Hr) as (turns' & k & _ & _ & _ & _ & _ & _ & F & _).
  destruct (F t rec g Ht Hg) as (F1 & F2 & F3 & F4 & _). auto.
Qed.
Print Assumptions c105_messages.

(** *** C106 *)
Lemma own_parts ins calls pops : own_ids ins calls pops ->
  NoDup (map fst ins) /\ NoDup (map (fun h => fst (fst h)) (handlers calls)) /\
  (forall c, In c (map fst ins) -> ~ In c (map (fun h => fst (fst h)) (handlers calls)) /\ ~ In c (map fst pops)) /\
  (forall c, In c (map (fun h => fst (fst h)) (handlers calls)) -> ~ In c (map fst ins) /\ ~ In c (map fst pops)).
Proof.
  unfold own_ids. intros H. generalize dependent (map fst ins). intros a. generalize (map (fun h => fst (fst h)) (handlers calls)). intros b. generalize (map fst pops). intros d H.
  assert (D : forall (p q : list uid), NoDup (p ++ q) -> NoDup p /\ NoDup q /\ forall c, In c p -> In c q -> False).
  { clear. induction p as [|v p IH]; cbn [app]; intros q H; [repeat split; [constructor|exact H|intros c []]|].
    apply NoDup_cons_iff in H as [H1 H2]. destruct (IH q H2) as (I1 & I2 & I3). repeat split; [constructor; [|exact I1]|exact I2|].
    - intros Hv. apply H1. apply in_or_app. now left.
    - intros c [->|Hc] Hq; [apply H1; apply in_or_app; now right|eauto]. }
  destruct (D _ _ H) as (D1 & D2 & D3). destruct (D _ _ D2) as (D4 & D5 & D6). split; [exact D1|]. split; [exact D4|]. split.
  - intros c Hc. split; intros Hx; apply (D3 c Hc); apply in_or_app; auto.
  - intros c Hc. split; intros Hx; [apply (D3 c Hx); apply in_or_app; auto|apply (D6 c Hc Hx)].
Qed.
Lemma wired_in ins calls p c ps : In (c, ps) ins -> In p ps -> subscribed (connections ins calls) 0 p c = true.
Proof.
  intros Hc Hp. unfold subscribed. apply existsb_exists. exists (mkSubscr 0 p [c]). split.
  - unfold connections. apply in_or_app. left. apply in_flat_map. exists (c, ps). split; [exact Hc|]. cbn [fst snd]. apply in_map_iff. eauto.
  - cbn [sb_type sb_receiver sb_senders existsb]. rewrite !N.eqb_refl. reflexivity.
Qed.
Lemma wired_handler ins calls p u ss rs f : In (AddHandler u ss rs f) calls -> In p rs -> subscribed (connections ins calls) 0 p u = true.
Proof.
  intros Hc Hp. unfold subscribed. apply existsb_exists. exists (mkSubscr 0 p [u]). split.
  - unfold connections. apply in_or_app. right. apply in_flat_map. exists (AddHandler u ss rs f). split; [exact Hc|]. cbn beta iota. apply in_map_iff. eauto.
  - cbn [sb_type sb_receiver sb_senders existsb]. rewrite !N.eqb_refl. reflexivity.
Qed.
Lemma subscribed_inv ins calls p c : subscribed (connections ins calls) 0 p c = true ->
  (exists ps, In (c, ps) ins /\ In p ps) \/ exists ss rs f, In (AddHandler c ss rs f) calls /\ In p rs.
Proof.
  unfold subscribed. intros H. apply existsb_exists in H as (x & Hx & H). unfold connections in Hx. apply in_app_or in Hx as [Hx|Hx].
  - apply in_flat_map in Hx as ([d ps] & Hd & Hx). cbn [fst snd] in Hx. apply in_map_iff in Hx as (q & <- & Hq). cbn [sb_type sb_receiver sb_senders existsb Nat.eqb andb] in H.
    rewrite orb_false_r in H. apply andb_prop in H as [H1 H2]. apply N.eqb_eq in H1, H2. subst. left. eauto.
  - apply in_flat_map in Hx as (d & Hd & Hx). destruct d as [u ss rs f|]; [|contradiction]. apply in_map_iff in Hx as (q & <- & Hq). cbn [sb_type sb_receiver sb_senders existsb Nat.eqb andb] in H.
    rewrite orb_false_r in H. apply andb_prop in H as [H1 H2]. apply N.eqb_eq in H1, H2. subst. right. eauto.
Qed.
(** What a projection takes in, of the messages of one sender. *)
Lemma taken_from pow2f expf gens ins outs calls pops projs turns x recs t rec q w c : sound_network pops projs ->
  executor_ran pow2f expf gens ins outs calls pops projs turns x recs ->
  nth_error recs t = Some rec -> nth_error projs q = Some w ->
  exists ms, nth_error (r_proj_in (nr_msgs (xr_net rec))) q = Some ms /\
    filter (from c) ms = filter (to_nproj (connections ins calls) w)
      (filter (from c) (r_ext (nr_msgs (xr_net rec)) ++ sent_msgs (r_pop_out (nr_msgs (xr_net rec))))).
Proof.
  intros Hs Hr Ht Hq. destruct (ran_facts _ _ _ _ _ _ _ _ _ _ _ Hs Hr) as (turns' & k & Hf & _ & Hn & _).
  assert (Ht' : nth_error (map xr_net recs) t = Some (xr_net rec)) by (rewrite nth_error_map, Ht; reflexivity).
  destruct (turn_at _ _ _ _ _ _ _ _ Hs Hf Hn t _ Ht') as (u & Hu).
  destruct (c84_dataflow _ _ _ _ _ _ _ _ Hs Hf Hn) as (_ & _ & F). destruct (F t _ u Ht' Hu) as (_ & _ & _ & _ & Fp).
  destruct (fixed_column _ _ _ _ _ _ _ _ Hs Hf Hn t _ Ht') as (_ & Fx & _).
  assert (Hw : exists w1, nth_error (nr_trained (xr_net rec)) q = Some w1 /\ fixed w1 = fixed w).
  { assert (E : nth_error (map fixed (nr_trained (xr_net rec))) q = Some (fixed w)) by (rewrite Fx, nth_error_map, Hq; reflexivity).
    rewrite nth_error_map in E. destruct (nth_error (nr_trained (xr_net rec)) q) as [w1|]; [|discriminate]. cbn [option_map] in E. exists w1. split; congruence. }
  destruct Hw as (w1 & Hw1 & Ew). destruct (Fp q w1 Hw1) as (ms & w' & o & -> & Hms & _). eexists. split; [exact Hms|].
  rewrite filter_comm. apply filter_ext. intros m. now apply fixed_to.
Qed.
(** The data that input channel [j] yields in the rounds of step [t] are taken in, in
    step [t], stamped [t], in order and exactly once, by every projection the channel is
    connected to, and by no other one (but one whose presynaptic population or STDP
    population has the identifier of the channel). *)
Theorem c106_inputs pow2f expf gens ins outs calls pops projs turns x recs t rec g j c ps q w : sound_network pops projs ->
  executor_ran pow2f expf gens ins outs calls pops projs turns x recs -> own_ids ins calls pops ->
  nth_error recs t = Some rec -> nth_error (rounds [] turns) t = Some g ->
  nth_error ins j = Some (c, ps) -> nth_error projs q = Some w ->
  exists ms, nth_error (r_proj_in (nr_msgs (xr_net rec))) q = Some ms /\
    (In (np_uid w) ps -> filter (from c) ms =
       flat_map (fun u => if Nat.eqb (length (xt_data u j)) 0 then [] else [SpikeMsg c (N.of_nat t mod two64) (xt_data u j)]) g) /\
    (~ In (np_uid w) ps -> np_pre w <> c -> ~ In c (map fst (stdp_pops w)) -> filter (from c) ms = []).
Proof.
  intros Hs Hr Hids Ht Hg Hj Hq. destruct (own_parts _ _ _ Hids) as (N1 & N2 & N3 & N4).
  destruct (taken_from _ _ _ _ _ _ _ _ _ _ _ t rec q w c Hs Hr Ht Hq) as (ms & Hms & Hc). exists ms. split; [exact Hms|].
  destruct (ran_facts _ _ _ _ _ _ _ _ _ _ _ Hs Hr) as (turns' & k & _ & _ & _ & _ & _ & _ & F & _).
  destruct (F t rec g Ht Hg) as (F1 & _ & F3 & _ & F5 & _). assert (Hin : In c (map fst ins)).
  { apply nth_error_In in Hj. apply (in_map fst) in Hj. exact Hj. }
  destruct (N3 c Hin) as [NH NP].
  assert (E : filter (from c) (r_ext (nr_msgs (xr_net rec)) ++ sent_msgs (r_pop_out (nr_msgs (xr_net rec)))) = sent_by c (N.of_nat t mod two64) j g).
  { rewrite F1, !filter_app, (inputs_from _ c ps g ins 0 j N1 Hj), (from_nobody c (handled_before recs t)), (from_nobody c (sent_msgs _)), !app_nil_r; [reflexivity| |].
    - intros m Hm Em. destruct (spikes_senders _ _ _ _ F5 Hm) as [Hx _]. rewrite Em in Hx. contradiction.
    - intros m Hm Em. unfold handled_before in Hm. destruct t as [|t']; [contradiction|]. destruct (nth_error recs t') as [rec'|] eqn:E'; [|contradiction].
      destruct (nth_error (rounds [] turns) t') as [g'|] eqn:Eg.
      2:{ apply nth_error_None in Eg. assert (nth_error (rounds [] turns) (S t') <> None) as Hx by congruence. apply nth_error_Some in Hx. lia. }
      destruct (F t' rec' g' E' Eg) as (_ & _ & F3' & _). rewrite F3' in Hm. apply replies_senders in Hm. rewrite Em in Hm. contradiction. }
  rewrite E in Hc. split.
  - intros Hp. rewrite Hc. unfold sent_by at 1. fold (sent_by c (N.of_nat t mod two64) j g). apply Framework_Proofs.filter_all. intros m Hm.
    apply in_flat_map in Hm as (u & _ & Hm). destruct (Nat.eqb _ _); [contradiction|]. destruct Hm as [<-|[]]. cbn [to_nproj].
    apply orb_true_intro. right. eapply wired_in; [eapply nth_error_In; eauto|exact Hp].
  - intros Hp Hpre Hst. rewrite Hc. apply Framework_Proofs.filter_none. intros m Hm.
    apply in_flat_map in Hm as (u & _ & Hm). destruct (Nat.eqb _ _); [contradiction|]. destruct Hm as [<-|[]]. cbn [to_nproj].
    apply orb_false_intro.
    + apply andb_false_iff. right. apply orb_false_intro; [apply N.eqb_neq; congruence|].
      destruct (existsb (fun e => N.eqb c (fst e)) (stdp_pops w)) eqn:Ee; [|reflexivity]. exfalso. apply existsb_exists in Ee as (e & He & Ee). apply N.eqb_eq in Ee. subst c.
      apply Hst. now apply in_map.
    + destruct (subscribed _ _ _ _) eqn:Es; [|reflexivity]. exfalso. apply subscribed_inv in Es as [(ps' & H1 & H2)|(ss & rs & f & H1 & _)].
      * assert (E2 : (c, ps') = (c, ps)) by (eapply (NoDup_map_inj fst); [exact N1|exact H1|eapply nth_error_In; eauto|reflexivity]).
        injection E2 as ->. contradiction.
      * apply NH. apply in_map_iff. exists (c, ss, f). split; [reflexivity|]. unfold handlers. apply in_flat_map. eexists. split; [exact H1|]. now left.
Qed.
Print Assumptions c106_inputs.

(** *** C107 *)
(** An output channel that listens to populations holds, after a run, exactly the spikes
    of these populations in all the steps, in order; reading steps [a] to [b] gives
    exactly those of steps [a] to [b] and leaves the others. *)
Lemma column_is pow2f expf gens ins outs calls pops projs turns x recs j c ss : sound_network pops projs ->
  executor_ran pow2f expf gens ins outs calls pops projs turns x recs -> own_ids ins calls pops ->
  nth_error outs j = Some (c, ss) -> incl ss (map fst pops) ->
  nth_error (x_buffers x) j = Some (flat_map (fun r => nth j (xr_out r) []) recs) /\
  (forall t rec, nth_error recs t = Some rec -> nth j (xr_out rec) [] = spikes_of ss rec /\ Forall (fun m => msg_time m = (N.of_nat t mod two64)%N) (spikes_of ss rec)).
Proof.
  intros Hs Hr Hids Hj Hss. destruct (own_parts _ _ _ Hids) as (N1 & N2 & N3 & N4).
  destruct (ran_facts _ _ _ _ _ _ _ _ _ _ _ Hs Hr) as (turns' & k & _ & _ & _ & _ & _ & HL & F & _ & B & _).
  split; [apply B; apply nth_error_Some; congruence|]. intros t rec Ht.
  destruct (nth_error (rounds [] turns) t) as [g|] eqn:Eg.
  2:{ apply nth_error_None in Eg. assert (nth_error recs t <> None) as Hx by congruence. apply nth_error_Some in Hx. lia. }
  destruct (F t rec g Ht Eg) as (F1 & F2 & F3 & F4 & F5 & F6). split.
  - rewrite F2. erewrite nth_error_nth; [|rewrite nth_error_map, Hj; reflexivity]. cbn [snd]. unfold received, spikes_of. rewrite !filter_app.
    rewrite (Framework_Proofs.filter_none (wanted 0 ss) (sent_msgs (r_proj_out _))).
    2:{ intros m Hm. unfold impact_only in F6. rewrite Forall_forall in F6. unfold wanted. rewrite (F6 m Hm). reflexivity. }
    rewrite (Framework_Proofs.filter_none (wanted 0 ss) (r_ext _)), app_nil_r; cbn [app].
    + apply filter_ext_in. intros m Hm. destruct (spikes_senders _ _ _ _ F5 Hm) as (_ & Et & _). unfold wanted. rewrite Et. reflexivity.
    + intros m Hm. unfold wanted. apply andb_false_iff. right. destruct (mem (msg_sender m) ss) eqn:Em; [|reflexivity]. exfalso. apply mem_In in Em. apply Hss in Em.
      rewrite F1 in Hm. apply in_app_or in Hm as [Hm|Hm].
      * apply inputs_senders in Hm. destruct (N3 _ Hm). contradiction.
      * unfold handled_before in Hm. destruct t as [|t']; [contradiction|]. destruct (nth_error recs t') as [rec'|] eqn:E'; [|contradiction].
        destruct (nth_error (rounds [] turns) t') as [g'|] eqn:Eg'.
        2:{ apply nth_error_None in Eg'. assert (nth_error (rounds [] turns) (S t') <> None) as Hx by congruence. apply nth_error_Some in Hx. lia. }
        destruct (F t' rec' g' E' Eg') as (_ & _ & F3' & _). rewrite F3' in Hm. apply replies_senders in Hm. destruct (N4 _ Hm). contradiction.
  - apply Forall_forall. intros m Hm. unfold spikes_of in Hm. apply filter_In in Hm as [Hm _]. now destruct (spikes_senders _ _ _ _ F5 Hm) as (_ & _ & Et).
Qed.
Lemma flat_map_nth {A} (F G : A -> list message) l : (forall t x, nth_error l t = Some x -> F x = G x) -> flat_map F l = flat_map G l.
Proof.
  induction l as [|a l IH]; intros H; cbn [flat_map]; [reflexivity|]. rewrite (H 0 a eq_refl), IH; [reflexivity|]. intros t x Hx. now apply (H (S t)).
Qed.
Theorem c107_buffers pow2f expf gens ins outs calls pops projs turns x recs j c ss limit a b : sound_network pops projs ->
  executor_ran pow2f expf gens ins outs calls pops projs turns x recs -> own_ids ins calls pops ->
  nth_error outs j = Some (c, ss) -> incl ss (map fst pops) ->
  (N.of_nat (length recs) <= two64)%N -> (limit < two64)%N -> a <= b -> (N.of_nat (a + b + 1) <= limit)%N ->
  exists buf, nth_error (x_buffers x) j = Some buf /\ buf = flat_map (spikes_of ss) recs /\
    oc_read limit (N.of_nat a) (N.of_nat b) buf =
      Ret (flat_map (spikes_of ss) (firstn (S b - a) (skipn a recs)),
           flat_map (spikes_of ss) (firstn a recs) ++ flat_map (spikes_of ss) (skipn (S b) recs)).
Proof.
  intros Hs Hr Hids Hj Hss HT Hl Hab Hlim. destruct (column_is _ _ _ _ _ _ _ _ _ _ _ _ _ _ Hs Hr Hids Hj Hss) as (B & C).
  exists (flat_map (spikes_of ss) recs).
  assert (E : flat_map (fun r => nth j (xr_out r) []) recs = flat_map (spikes_of ss) recs) by (apply flat_map_nth; intros t y Hy; apply (C t y Hy)).
  split; [now rewrite B, E|]. split; [reflexivity|].
  assert (St : forall t y, nth_error recs t = Some y -> Forall (fun m => msg_time m = N.of_nat (0 + t)) (spikes_of ss y)).
  { intros t y Hy. destruct (C t y Hy) as [_ H]. eapply Forall_impl; [|exact H]. intros m ->. apply N.mod_small.
    assert (t < length recs) by (apply nth_error_Some; congruence). cbn [plus]. lia. }
  pose proof (c47_reads_partial limit [OcUpdate (flat_map (spikes_of ss) recs); OcRead (N.of_nat a) (N.of_nat b)] Hl) as R.
  cbn [arriving flat_map] in R. rewrite !app_nil_r in R. specialize (R (slices_sorted _ _ 0 St)).
  assert (RO : Forall (read_ok limit) [OcUpdate (flat_map (spikes_of ss) recs); OcRead (N.of_nat a) (N.of_nat b)]).
  { repeat constructor; cbn [read_ok]; lia. }
  specialize (R RO). cbn [oc_run oc_update oc_expected app] in R.
  destruct (oc_read limit (N.of_nat a) (N.of_nat b) (flat_map (spikes_of ss) recs)) as [[got rest]| |] eqn:Er; cbn [obind fst snd] in R; try discriminate.
  injection R as Hrest Hgot. rewrite (slice _ a b recs 0 St) in Hgot. rewrite !Nat.sub_0_r in Hgot. subst got rest. do 2 f_equal.
  (* the rest *)
  clear - St Hab. revert St. assert (G : forall l s, (forall t y, nth_error l t = Some y -> Forall (fun m => msg_time m = N.of_nat (s + t)) (spikes_of ss y)) ->
    filter (fun m => negb (in_interval (N.of_nat a) (N.of_nat b) m)) (flat_map (spikes_of ss) l) = flat_map (spikes_of ss) (firstn (a - s) l) ++ flat_map (spikes_of ss) (skipn (S b - s) l)).
  { induction l as [|y l IH]; intros s H; cbn [flat_map]; [now rewrite firstn_nil, skipn_nil|].
    rewrite filter_app, (IH (S s)) by (intros t z Hz; replace (S s + t) with (s + S t) by lia; now apply H).
    pose proof (H 0 y eq_refl) as H0. rewrite Nat.add_0_r in H0. rewrite Forall_forall in H0.
    destruct (Nat.lt_ge_cases s a) as [Ha|Ha].
    - replace (a - s) with (S (a - S s)) by lia. replace (S b - s) with (S (S b - S s)) by lia. cbn [firstn skipn flat_map]. rewrite <- app_assoc. f_equal.
      apply Framework_Proofs.filter_all. intros m Hm. unfold in_interval. rewrite (H0 m Hm). apply negb_true_iff, andb_false_iff. left. apply N.leb_gt. lia.
    - replace (a - s) with 0 by lia. replace (a - S s) with 0 by lia. cbn [firstn flat_map app]. destruct (Nat.le_gt_cases s b) as [Hb|Hb].
      + replace (S b - s) with (S (S b - S s)) by lia. cbn [skipn]. rewrite Framework_Proofs.filter_none; [reflexivity|].
        intros m Hm. unfold in_interval. rewrite (H0 m Hm). apply negb_false_iff, andb_true_iff. split; apply N.leb_le; lia.
      + replace (S b - s) with 0 by lia. replace (S b - S s) with 0 by lia. cbn [skipn flat_map]. f_equal. apply Framework_Proofs.filter_all.
        intros m Hm. unfold in_interval. rewrite (H0 m Hm). apply negb_true_iff, andb_false_iff. right. apply N.leb_gt. lia. }
  intros St. rewrite (G recs 0 St), !Nat.sub_0_r. reflexivity.
Qed.
Print Assumptions c107_buffers.
(** The same with reads anywhere between the steps: each gives exactly what is buffered
    for its interval. *)
Theorem c107_reads pow2f expf gens ins outs calls pops projs turns x recs j c ss limit ops : sound_network pops projs ->
  executor_ran pow2f expf gens ins outs calls pops projs turns x recs -> own_ids ins calls pops ->
  nth_error outs j = Some (c, ss) -> incl ss (map fst pops) ->
  (N.of_nat (length recs) <= two64)%N -> (limit < two64)%N ->
  arriving ops = flat_map (fun r => nth j (xr_out r) []) recs -> Forall (read_ok limit) ops ->
  oc_run limit [] ops = Ret (oc_expected [] ops).
Proof.
  intros Hs Hr Hids Hj Hss HT Hl Ha Hro. destruct (column_is _ _ _ _ _ _ _ _ _ _ _ _ _ _ Hs Hr Hids Hj Hss) as (B & C).
  apply c47_reads_partial; auto. rewrite Ha. apply (slices_sorted _ _ 0). intros t y Hy. destruct (C t y Hy) as [-> H]. eapply Forall_impl; [|exact H]. intros m ->. apply N.mod_small.
  assert (t < length recs) by (apply nth_error_Some; congruence). cbn [plus]. lia.
Qed.
Print Assumptions c107_reads.

(** *** C108 *)
(** What a handler answers to the messages of step [t] is taken in by every projection it
    is connected to in step [t + 1], exactly once, stamped [t + 1]; before its first
    answer nothing from it is taken in. *)
Theorem c108_handlers pow2f expf gens ins outs calls pops projs turns x recs t rec rec' u ss rs f q w : sound_network pops projs ->
  executor_ran pow2f expf gens ins outs calls pops projs turns x recs -> own_ids ins calls pops ->
  In (AddHandler u ss rs f) calls -> nth_error projs q = Some w -> In (np_uid w) rs ->
  nth_error recs t = Some rec -> nth_error recs (S t) = Some rec' ->
  exists ms, nth_error (r_proj_in (nr_msgs (xr_net rec'))) q = Some ms /\
    filter (from u) ms =
      (let d := f t (received 0 ss (nr_msgs (xr_net rec))) in if Nat.eqb (length d) 0 then [] else [SpikeMsg u (N.of_nat (S t) mod two64) d]).
Proof.
  intros Hs Hr Hids Hh Hq Hp Ht Ht'. destruct (own_parts _ _ _ Hids) as (N1 & N2 & N3 & N4).
  destruct (taken_from _ _ _ _ _ _ _ _ _ _ _ (S t) rec' q w u Hs Hr Ht' Hq) as (ms & Hms & Hc). exists ms. split; [exact Hms|].
  destruct (ran_facts _ _ _ _ _ _ _ _ _ _ _ Hs Hr) as (turns' & k & _ & _ & _ & _ & _ & HL & F & _).
  assert (Hg : forall t r, nth_error recs t = Some r -> exists g, nth_error (rounds [] turns) t = Some g).
  { intros t0 r0 H0. destruct (nth_error (rounds [] turns) t0) as [g|] eqn:Eg; [eauto|]. apply nth_error_None in Eg.
    assert (nth_error recs t0 <> None) as Hx by congruence. apply nth_error_Some in Hx. lia. }
  destruct (Hg _ _ Ht) as [g Eg]. destruct (Hg _ _ Ht') as [g' Eg'].
  destruct (F _ _ _ Ht Eg) as (_ & _ & F3 & _). destruct (F _ _ _ Ht' Eg') as (F1' & _ & _ & _ & F5' & _).
  assert (Hin : In (u, ss, f) (handlers calls)). { unfold handlers. apply in_flat_map. eexists. split; [exact Hh|]. now left. }
  assert (Hu : In u (map (fun h => fst (fst h)) (handlers calls))). { apply (in_map (fun h => fst (fst h))) in Hin. exact Hin. }
  destruct (N4 u Hu) as [NI NP]. rewrite F1', !filter_app, (from_nobody u (inputs_for _ _ _ _)), (from_nobody u (sent_msgs _)), app_nil_r in Hc; cbn [app] in Hc.
  - unfold handled_before in Hc. rewrite Ht, F3, (replies_from t _ u ss f _ N2 Hin) in Hc. cbv zeta in Hc |- *. rewrite Hc. destruct (Nat.eqb _ _); [reflexivity|].
    cbn [filter to_nproj]. rewrite (wired_handler ins calls (np_uid w) u ss rs f Hh Hp), orb_true_r. reflexivity.
  - intros m Hm Em. destruct (spikes_senders _ _ _ _ F5' Hm) as [Hx _]. rewrite Em in Hx. contradiction.
  - intros m Hm Em. apply inputs_senders in Hm. rewrite Em in Hm. contradiction.
Qed.
Print Assumptions c108_handlers.
Theorem c108_first pow2f expf gens ins outs calls pops projs turns x recs rec u ss rs f q w : sound_network pops projs ->
  executor_ran pow2f expf gens ins outs calls pops projs turns x recs -> own_ids ins calls pops ->
  In (AddHandler u ss rs f) calls -> nth_error projs q = Some w -> nth_error recs 0 = Some rec ->
  exists ms, nth_error (r_proj_in (nr_msgs (xr_net rec))) q = Some ms /\ filter (from u) ms = [].
Proof.
  intros Hs Hr Hids Hh Hq Ht. destruct (own_parts _ _ _ Hids) as (N1 & N2 & N3 & N4).
  destruct (taken_from _ _ _ _ _ _ _ _ _ _ _ 0 rec q w u Hs Hr Ht Hq) as (ms & Hms & Hc). exists ms. split; [exact Hms|]. rewrite Hc.
  destruct (ran_facts _ _ _ _ _ _ _ _ _ _ _ Hs Hr) as (turns' & k & _ & _ & _ & _ & _ & HL & F & _).
  destruct (nth_error (rounds [] turns) 0) as [g|] eqn:Eg.
  2:{ apply nth_error_None in Eg. assert (nth_error recs 0 <> None) as Hx by congruence. apply nth_error_Some in Hx. lia. }
  destruct (F _ _ _ Ht Eg) as (F1' & _ & _ & _ & F5' & _).
  assert (Hin : In (u, ss, f) (handlers calls)). { unfold handlers. apply in_flat_map. eexists. split; [exact Hh|]. now left. }
  assert (Hu : In u (map (fun h => fst (fst h)) (handlers calls))). { apply (in_map (fun h => fst (fst h))) in Hin. exact Hin. }
  destruct (N4 u Hu) as [NI NP]. rewrite F1'. cbn [handled_before]. rewrite app_nil_r, filter_app, (from_nobody u (inputs_for _ _ _ _)), (from_nobody u (sent_msgs _)); [reflexivity| |].
  - intros m Hm Em. destruct (spikes_senders _ _ _ _ F5' Hm) as [Hx _]. rewrite Em in Hx. contradiction.
  - intros m Hm Em. apply inputs_senders in Hm. rewrite Em in Hm. contradiction.
Qed.
Print Assumptions c108_first.

(** *** A run that meets the hypotheses *)
Definition xe_ins : list (uid * list uid) := [(9, [21])]%N.
Definition xe_outs : list (uid * list uid) := [(60, [2; 1])]%N.
Definition xe_echo (n : nat) (ms : list message) : list N := match ms with [] => [] | _ => [0%N] end.
Definition xe_calls : list xcall := [AddHandler 70 [1] [22] xe_echo; AddObserver 0 80 [1; 9; 70]; AddObserver 1 81 [21; 22]]%N.
Definition xe_turn (d : list N) (go : bool) : xturn := mkXT [] (fun _ => d) go.
Definition xe_turns : list xturn :=
  [xe_turn [0]%N true; xe_turn [0]%N true; xe_turn [0]%N false; xe_turn [0]%N true; xe_turn [] true; xe_turn [] true].
Definition xe_see (r : xrecord) :=
  (r_ext (nr_msgs (xr_net r)), firstn 2 (r_proj_in (nr_msgs (xr_net r))), xr_out r, xr_handled r, firstn 1 (xr_observed r)).
Definition s9 (t : N) := SpikeMsg 9 t [0]%N.
Definition s1 (t : N) := SpikeMsg 1 t [0]%N.
Definition s2 (t : N) := SpikeMsg 2 t [0]%N.
Definition s70 (t : N) := SpikeMsg 70 t [0]%N.
Definition xe_literal :=
  ([([s9 0], [[s9 0]; []], [[]], [([], [])], [[s9 0]]);
    ([s9 1], [[s9 1]; [s1 1]], [[s1 1; s2 1]], [([s1 1], [s70 2])], [[s1 1; s9 1]]);
    ([s9 2; s9 2; s70 2], [[s9 2; s9 2]; [s70 2; s1 2]], [[s1 2; s2 2]], [([s1 2], [s70 3])], [[s1 2; s9 2; s9 2; s70 2]]);
    ([s70 3], [[]; [s70 3; s1 3]], [[s1 3; s2 3]], [([s1 3], [s70 4])], [[s1 3; s70 3]]);
    ([s70 4], [[]; [s70 4]], [[s2 4]], [([], [])], [[s70 4]])],
   [[s1 1; s2 1; s1 2; s2 2; s1 3; s2 3; s2 4]])%N.
Lemma seen {A} (lit : A) (see : xstate -> list xrecord -> A) (x0o : outcome xstate) (go : xstate -> outcome (xstate * list xrecord)) :
  obind (obind x0o go) (fun y => Ret (see (fst y) (snd y))) = Ret lit ->
  exists x0 x recs, x0o = Ret x0 /\ go x0 = Ret (x, recs) /\ see x recs = lit.
Proof.
  intros H. destruct x0o as [x0| |]; cbn [obind] in H; try discriminate H.
  destruct (go x0) as [[x recs]| |] eqn:E; cbn [obind fst snd] in H; try discriminate H. injection H as <-. eauto 6.
Qed.
Lemma xe_ran : exists x recs, executor_ran one1 one1 [9]%N xe_ins xe_outs xe_calls net_pops (net_projs 2) xe_turns x recs /\
  (map xe_see recs, x_buffers x) = xe_literal.
Proof.
  destruct (seen xe_literal (fun x recs => (map xe_see recs, x_buffers x)) (executor_init [9]%N xe_ins xe_outs xe_calls net_pops (net_projs 2))
    (executor_run one1 one1 xe_ins xe_outs xe_calls xe_turns)) as (x0 & x & recs & E0 & E1 & H).
  - vm_compute. reflexivity.
  - exists x, recs. split; [|exact H]. exists x0. split; [exact E0|exact E1].
Qed.
Lemma xe_ids : own_ids xe_ins xe_calls net_pops.
Proof. unfold own_ids. cbn. repeat constructor; cbn; intuition discriminate. Qed.
Example c105_case : sound_network net_pops (net_projs 2) /\ own_ids xe_ins xe_calls net_pops /\ incl [2; 1]%N (map fst net_pops) /\
  exists x recs, executor_ran one1 one1 [9]%N xe_ins xe_outs xe_calls net_pops (net_projs 2) xe_turns x recs /\
    (map xe_see recs, x_buffers x) = xe_literal.
Proof.
  split; [apply net_sound|]. split; [apply xe_ids|]. split; [|exact xe_ran]. intros u [<-|[<-|[]]]; cbn; auto.
Qed.
(** Steps 1 to 2 of the output channel. *)
Example c107_case : oc_read 100 1 2 [s1 1; s2 1; s1 2; s2 2; s1 3; s2 3; s2 4]%N = Ret ([s1 1; s2 1; s1 2; s2 2], [s1 3; s2 3; s2 4])%N.
Proof. vm_compute. reflexivity. Qed.
(** A round that the user's predicate refuses is not without effect: the channels have
    sent already, so the next start sends for the same step again and the projections
    get the data of one step twice. *)
Theorem c106_refused_refuted : exists x recs rec ms,
  executor_ran one1 one1 [9]%N xe_ins xe_outs xe_calls net_pops (net_projs 2) xe_turns x recs /\
  sound_network net_pops (net_projs 2) /\ own_ids xe_ins xe_calls net_pops /\
  nth_error recs 2 = Some rec /\ nth_error (r_proj_in (nr_msgs (xr_net rec))) 0 = Some ms /\
  filter (from 9) ms = [SpikeMsg 9 2 [0]; SpikeMsg 9 2 [0]]%N.
Proof.
  destruct xe_ran as (x & recs & Hr & Hv). pose proof (f_equal fst Hv) as H. cbn [fst] in H.
  assert (H2 : nth_error (map xe_see recs) 2 = nth_error (fst xe_literal) 2) by now rewrite H. rewrite nth_error_map in H2.
  destruct (nth_error recs 2) as [rec|] eqn:E; cbn [option_map] in H2; [|discriminate H2].
  pose proof (f_equal (fun o => match o with Some v => snd (fst (fst (fst v))) | None => [] end) H2) as H3.
  change (firstn 2 (r_proj_in (nr_msgs (xr_net rec))) = [[s9 2; s9 2]; [s70 2; s1 2]]%N) in H3. destruct (r_proj_in (nr_msgs (xr_net rec))) as [|ms l] eqn:El; [discriminate H3|]. cbn [firstn] in H3.
  injection H3 as H3 _. exists x, recs, rec, ms. split; [exact Hr|]. split; [apply net_sound|]. split; [apply xe_ids|]. split; [exact E|]. rewrite El.
  split; [reflexivity|]. rewrite H3. reflexivity.
Qed.
Print Assumptions c106_refused_refuted.
(** Messages of one step do not reach a listener in the order in which they were sent:
    what the populations sent in a step comes before what was sent before the step. *)
Theorem c105_order_refuted : exists x recs rec,
  executor_ran one1 one1 [9]%N xe_ins xe_outs xe_calls net_pops (net_projs 2) xe_turns x recs /\
  nth_error recs 1 = Some rec /\ r_ext (nr_msgs (xr_net rec)) = [SpikeMsg 9 1 [0]]%N /\
  nth_error (xr_observed rec) 0 = Some [SpikeMsg 1 1 [0]; SpikeMsg 9 1 [0]]%N.
Proof.
  destruct xe_ran as (x & recs & Hr & Hv). pose proof (f_equal fst Hv) as H. cbn [fst] in H.
  assert (H2 : nth_error (map xe_see recs) 1 = nth_error (fst xe_literal) 1) by now rewrite H. rewrite nth_error_map in H2.
  destruct (nth_error recs 1) as [rec|] eqn:E; cbn [option_map] in H2; [|discriminate H2].
  pose proof (f_equal (fun o => match o with Some v => fst (fst (fst (fst v))) | None => [] end) H2) as H3.
  pose proof (f_equal (fun o => match o with Some v => snd v | None => [] end) H2) as H4.
  change (r_ext (nr_msgs (xr_net rec)) = [s9 1]%N) in H3. change (firstn 1 (xr_observed rec) = [[s1 1; s9 1]]%N) in H4. exists x, recs, rec. split; [exact Hr|]. split; [exact E|]. split; [exact H3|].
  destruct (xr_observed rec) as [|o l]; [discriminate H4|]. cbn [firstn] in H4. cbn [nth_error]. injection H4 as ->. reflexivity.
Qed.
Print Assumptions c105_order_refuted.
