(** The model executor on the multi-threaded backend. *)
From Coq Require Import Sorting.Sorted.
From Verif Require Import Base ListLemmas Messaging_Model Messaging_Spec Messaging_Proofs Messaging_Proofs2 Projection_Model Delta_Model Delta_Spec Neuron_Model
  Pipeline_Model Pipeline_Spec Pipeline_Proofs Pipeline_Proofs2 Stdp_Model Additive_Model Train_Model Net_Model Net_Spec Net_Proofs Net_Proofs2 Net_Proofs3 Net_Proofs4 Net_Proofs5
  Props_Net Props_Net2 Props_Sched Mt_Model Mt_Spec Mt_Proofs Mt_Proofs2 Sched_Model Sched_Proofs MtNet_Model MtNet_Spec MtNet_Proofs MtNet_Proofs2 MtNet_Proofs3 Props_MtNet
  Framework_Model Framework_Spec Framework_Proofs Props_Framework Exec_Model Exec_Spec Exec_Proofs Exec_Proofs2 Exec_Proofs3 Exec_Proofs4 Exec_Proofs5 Exec_Proofs6 Props_Exec
  Same_Spec Same_Proofs Same_Proofs2 Same_Proofs3 Same_Proofs4 Props_Same MtExec_Model MtExec_Spec MtExec_Proofs MtExec_Proofs2 MtExec_Proofs3.

(** *** C123 *)
(** Whatever the schedules: the steps of the executor are the steps of the same network
    on the multi-threaded backend alone, under the same schedules, subscribed to the
    channels and the handlers and with other calls from outside (so that what was proved
    of such runs holds of them); as many as rounds that were not refused. *)
Theorem c123_network pow2f gens ins outs calls pops projs pp pj turns x recs : sound_network pops projs -> Forall loadable projs -> (0 < pp < two64)%N ->
  schedules_ok pp pj pops projs turns -> mt_executor_ran pow2f gens ins outs calls pops projs turns x recs ->
  exists turns' k, mt_net_run pow2f (connections ins calls) pops projs turns' k (map xr_net recs) /\
    Forall (fun c => forallb outside (tu_ops (fst c)) = true /\ nsched_ok pp pj pops projs (snd c)) turns' /\
    map snd turns' = step_schedules turns /\
    map (fun c => tu_learn (fst c)) turns' = map (flat_map xt_learn) (rounds [] (map fst turns)) /\
    length recs = length (filter (fun c => xt_go (fst c)) turns) /\ x_done x = length recs /\
    nb_pops (x_net x) = nb_pops k /\ nb_projs (x_net x) = learn_all (flat_map xt_learn (unfinished [] (map fst turns))) (nb_projs k).
Proof.
  intros Hs Hl Hpp Hsch Hr. destruct (mt_ran_facts _ _ _ _ _ _ _ _ _ _ _ _ Hs Hl Hpp Hsch Hr) as (turns' & k & H1 & H1' & H2 & H3 & H4 & H5 & H6 & _ & _ & _ & H10).
  exists turns', k. do 4 (split; [assumption|]). split; [|auto]. rewrite H6. clear. generalize (@nil xturn).
  induction turns as [|[u s] t IH]; intros l; cbn [rounds filter map fst]; [reflexivity|]. destruct (xt_go u); cbn [length]; now rewrite IH.
Qed.
(** In step [t], from outside come exactly what the input channels sent for [t] since the
    step before, and then what the handlers sent in the step before.  Every output
    channel adds to its buffer, every handler and every observer is called with, exactly
    the messages of the step of its type from its senders.  A handler sends at most one
    message, for the next step. *)
Theorem c123_messages pow2f gens ins outs calls pops projs pp pj turns x recs t rec g : sound_network pops projs -> Forall loadable projs -> (0 < pp < two64)%N ->
  schedules_ok pp pj pops projs turns -> mt_executor_ran pow2f gens ins outs calls pops projs turns x recs ->
  nth_error recs t = Some rec -> nth_error (rounds [] (map fst turns)) t = Some g ->
  let r := nr_msgs (xr_net rec) in
  r_ext r = inputs_for (N.of_nat t mod two64) 0 ins g ++ handled_before recs t /\
  xr_out rec = map (fun c => received 0 (snd c) r) outs /\
  xr_handled rec = map (reply t r) (handlers calls) /\
  xr_observed rec = map (fun o => received (fst o) (snd o) r) (observers calls).
Proof.
  intros Hs Hl Hpp Hsch Hr Ht Hg r. destruct (mt_ran_facts _ _ _ _ _ _ _ _ _ _ _ _ Hs Hl Hpp Hsch Hr) as (turns' & k & _ & _ & _ & _ & _ & _ & _ & F & _).
  destruct (F t rec g Ht Hg) as (F1 & F2 & F3 & F4 & _). auto.
Qed.
(** What reaches a projection, of the messages of one sender. *)
Lemma mt_taken_from pow2f gens ins outs calls pops projs pp pj turns x recs t rec q w c : sound_network pops projs -> Forall loadable projs -> (0 < pp < two64)%N -> schedules_ok pp pj pops projs turns ->
  mt_executor_ran pow2f gens ins outs calls pops projs turns x recs ->
  nth_error recs t = Some rec -> nth_error projs q = Some w ->
  exists ms, nth_error (r_proj_in (nr_msgs (xr_net rec))) q = Some ms /\
    filter (from c) ms = filter (to_nproj (connections ins calls) w)
      (filter (from c) (sent_msgs (r_pop_out (nr_msgs (xr_net rec))) ++ r_ext (nr_msgs (xr_net rec)))).
Proof.
  intros Hs Hl Hpp Hsch Hr Ht Hq. destruct (mt_ran_facts _ _ _ _ _ _ _ _ _ _ _ _ Hs Hl Hpp Hsch Hr) as (turns' & k & Hf & _ & _ & Hn & _).
  assert (Ht' : nth_error (map xr_net recs) t = Some (xr_net rec)) by (rewrite nth_error_map, Ht; reflexivity).
  destruct (mt_turn_at _ _ _ _ _ _ _ _ _ Hs Hl Hpp Hf Hn t _ Ht') as (u & _ & _ & MF & _).
  assert (Hw : exists w1, nth_error (nr_trained (xr_net rec)) q = Some w1 /\ fixed w1 = fixed w).
  { assert (E : nth_error (map fixed (nr_trained (xr_net rec))) q = Some (fixed w)) by (rewrite (mf_hs1 _ _ _ _ _ _ _ _ _ MF), nth_error_map, Hq; reflexivity).
    rewrite nth_error_map in E. destruct (nth_error (nr_trained (xr_net rec)) q) as [w1|]; [|discriminate]. cbn [option_map] in E. exists w1. split; congruence. }
  destruct Hw as (w1 & Hw1 & Ew). eexists. split; [rewrite (mf_jin _ _ _ _ _ _ _ _ _ MF), nth_error_map, Hw1; reflexivity|]. unfold spikes_for.
  rewrite filter_comm. apply filter_ext. intros m. now apply fixed_to.
Qed.
(** The data that input channel [j] yields in the rounds of step [t] reach, in
    step [t], stamped [t], in order and exactly once, every projection the channel is
    connected to, and no other one (but one whose presynaptic population or STDP
    population has the identifier of the channel). *)
Theorem c123_inputs pow2f gens ins outs calls pops projs pp pj turns x recs t rec g j c ps q w : sound_network pops projs -> Forall loadable projs -> (0 < pp < two64)%N -> schedules_ok pp pj pops projs turns ->
  mt_executor_ran pow2f gens ins outs calls pops projs turns x recs -> own_ids ins calls pops ->
  nth_error recs t = Some rec -> nth_error (rounds [] (map fst turns)) t = Some g ->
  nth_error ins j = Some (c, ps) -> nth_error projs q = Some w ->
  exists ms, nth_error (r_proj_in (nr_msgs (xr_net rec))) q = Some ms /\
    (In (np_uid w) ps -> filter (from c) ms =
       flat_map (fun u => if Nat.eqb (length (xt_data u j)) 0 then [] else [SpikeMsg c (N.of_nat t mod two64) (xt_data u j)]) g) /\
    (~ In (np_uid w) ps -> np_pre w <> c -> ~ In c (map fst (stdp_pops w)) -> filter (from c) ms = []).
Proof.
  intros Hs Hl Hpp Hsch Hr Hids Ht Hg Hj Hq. destruct (own_parts _ _ _ Hids) as (N1 & N2 & N3 & N4).
  destruct (mt_taken_from _ _ _ _ _ _ _ _ _ _ _ _ t rec q w c Hs Hl Hpp Hsch Hr Ht Hq) as (ms & Hms & Hc). exists ms. split; [exact Hms|].
  destruct (mt_ran_facts _ _ _ _ _ _ _ _ _ _ _ _ Hs Hl Hpp Hsch Hr) as (turns' & k & _ & _ & _ & _ & _ & _ & _ & F & _).
  destruct (F t rec g Ht Hg) as (F1 & _ & F3 & _ & F5 & _). assert (Hin : In c (map fst ins)).
  { apply nth_error_In in Hj. apply (in_map fst) in Hj. exact Hj. }
  destruct (N3 c Hin) as [NH NP].
  assert (E : filter (from c) (sent_msgs (r_pop_out (nr_msgs (xr_net rec))) ++ r_ext (nr_msgs (xr_net rec))) = sent_by c (N.of_nat t mod two64) j g).
  { rewrite F1, !filter_app, (inputs_from _ c ps g ins 0 j N1 Hj), (from_nobody c (handled_before recs t)), (from_nobody c (sent_msgs _)), app_nil_r; [reflexivity| |].
    - intros m Hm Em. destruct (spikes_senders _ _ _ _ F5 Hm) as [Hx _]. rewrite Em in Hx. contradiction.
    - intros m Hm Em. unfold handled_before in Hm. destruct t as [|t']; [contradiction|]. destruct (nth_error recs t') as [rec'|] eqn:E'; [|contradiction].
      destruct (nth_error (rounds [] (map fst turns)) t') as [g'|] eqn:Eg.
      2:{ apply nth_error_None in Eg. assert (nth_error (rounds [] (map fst turns)) (S t') <> None) as Hx by congruence. apply nth_error_Some in Hx. lia. }
      destruct (F t' rec' g' E' Eg) as (_ & _ & F3' & _). rewrite F3' in Hm. apply replies_senders in Hm. rewrite Em in Hm. contradiction. }
  rewrite E in Hc. split.
  - intros Hp. rewrite Hc. unfold sent_by at 1. fold (sent_by c (N.of_nat t mod two64) j g). apply Framework_Proofs.filter_all. intros m Hm.
    apply in_flat_map in Hm as (u & _ & Hm). destruct (Nat.eqb _ _); [contradiction|]. destruct Hm as [<-|[]]. cbn [to_nproj].
    apply orb_true_intro. right. eapply wired_in; [eapply nth_error_In; eauto|exact Hp].
  - intros Hp Hpre Hst. rewrite Hc. apply Framework_Proofs.filter_none. intros m Hm.
    apply in_flat_map in Hm as (u & _ & Hm). destruct (Nat.eqb _ _); [contradiction|]. destruct Hm as [<-|[]]. cbn [to_nproj].
    apply orb_false_intro.
    + apply andb_false_iff. right. apply orb_false_intro; [apply N.eqb_neq; congruence|].
      destruct (existsb (fun e => N.eqb c (fst e)) (stdp_pops w)) eqn:Ee; [|reflexivity]. exfalso. apply existsb_exists in Ee as (e & He & Ee). apply N.eqb_eq in Ee. subst c.
      apply Hst. now apply in_map.
    + destruct (subscribed _ _ _ _) eqn:Es; [|reflexivity]. exfalso. apply subscribed_inv in Es as [(ps' & H1 & H2)|(ss & rs & f & H1 & _)].
      * assert (E2 : (c, ps') = (c, ps)) by (eapply (NoDup_map_inj fst); [exact N1|exact H1|eapply nth_error_In; eauto|reflexivity]).
        injection E2 as ->. contradiction.
      * apply NH. apply in_map_iff. exists (c, ss, f). split; [reflexivity|]. unfold handlers. apply in_flat_map. eexists. split; [exact H1|]. now left.
Qed.

(** An output channel that listens to populations holds, after a run, exactly the spikes
    of these populations in all the steps, in order; reading steps [a] to [b] gives
    exactly those of steps [a] to [b] and leaves the others. *)
Lemma mt_column_is pow2f gens ins outs calls pops projs pp pj turns x recs j c ss : sound_network pops projs -> Forall loadable projs -> (0 < pp < two64)%N -> schedules_ok pp pj pops projs turns ->
  mt_executor_ran pow2f gens ins outs calls pops projs turns x recs -> own_ids ins calls pops ->
  nth_error outs j = Some (c, ss) -> incl ss (map fst pops) ->
  nth_error (x_buffers x) j = Some (flat_map (fun r => nth j (xr_out r) []) recs) /\
  (forall t rec, nth_error recs t = Some rec -> nth j (xr_out rec) [] = spikes_of ss rec /\ Forall (fun m => msg_time m = (N.of_nat t mod two64)%N) (spikes_of ss rec)).
Proof.
  intros Hs Hl Hpp Hsch Hr Hids Hj Hss. destruct (own_parts _ _ _ Hids) as (N1 & N2 & N3 & N4).
  destruct (mt_ran_facts _ _ _ _ _ _ _ _ _ _ _ _ Hs Hl Hpp Hsch Hr) as (turns' & k & _ & _ & _ & _ & _ & _ & HL & F & _ & B & _).
  split; [apply B; apply nth_error_Some; congruence|]. intros t rec Ht.
  destruct (nth_error (rounds [] (map fst turns)) t) as [g|] eqn:Eg.
  2:{ apply nth_error_None in Eg. assert (nth_error recs t <> None) as Hx by congruence. apply nth_error_Some in Hx. lia. }
  destruct (F t rec g Ht Eg) as (F1 & F2 & F3 & F4 & F5 & F6). split.
  - rewrite F2. erewrite nth_error_nth; [|rewrite nth_error_map, Hj; reflexivity]. cbn [snd]. unfold received, spikes_of. rewrite !filter_app.
    rewrite (Framework_Proofs.filter_none (wanted 0 ss) (sent_msgs (r_proj_out _))).
    2:{ intros m Hm. unfold impact_only in F6. rewrite Forall_forall in F6. unfold wanted. rewrite (F6 m Hm). reflexivity. }
    rewrite (Framework_Proofs.filter_none (wanted 0 ss) (r_ext _)), app_nil_r; cbn [app].
    + apply filter_ext_in. intros m Hm. destruct (spikes_senders _ _ _ _ F5 Hm) as (_ & Et & _). unfold wanted. rewrite Et. reflexivity.
    + intros m Hm. unfold wanted. apply andb_false_iff. right. destruct (mem (msg_sender m) ss) eqn:Em; [|reflexivity]. exfalso. apply mem_In in Em. apply Hss in Em.
      rewrite F1 in Hm. apply in_app_or in Hm as [Hm|Hm].
      * apply inputs_senders in Hm. destruct (N3 _ Hm). contradiction.
      * unfold handled_before in Hm. destruct t as [|t']; [contradiction|]. destruct (nth_error recs t') as [rec'|] eqn:E'; [|contradiction].
        destruct (nth_error (rounds [] (map fst turns)) t') as [g'|] eqn:Eg'.
        2:{ apply nth_error_None in Eg'. assert (nth_error (rounds [] (map fst turns)) (S t') <> None) as Hx by congruence. apply nth_error_Some in Hx. lia. }
        destruct (F t' rec' g' E' Eg') as (_ & _ & F3' & _). rewrite F3' in Hm. apply replies_senders in Hm. destruct (N4 _ Hm). contradiction.
  - apply Forall_forall. intros m Hm. unfold spikes_of in Hm. apply filter_In in Hm as [Hm _]. now destruct (spikes_senders _ _ _ _ F5 Hm) as (_ & _ & Et).
Qed.
Theorem c123_buffers pow2f gens ins outs calls pops projs pp pj turns x recs j c ss limit a b : sound_network pops projs -> Forall loadable projs -> (0 < pp < two64)%N -> schedules_ok pp pj pops projs turns ->
  mt_executor_ran pow2f gens ins outs calls pops projs turns x recs -> own_ids ins calls pops ->
  nth_error outs j = Some (c, ss) -> incl ss (map fst pops) ->
  (N.of_nat (length recs) <= two64)%N -> (limit < two64)%N -> a <= b -> (N.of_nat (a + b + 1) <= limit)%N ->
  exists buf, nth_error (x_buffers x) j = Some buf /\ buf = flat_map (spikes_of ss) recs /\
    oc_read limit (N.of_nat a) (N.of_nat b) buf =
      Ret (flat_map (spikes_of ss) (firstn (S b - a) (skipn a recs)),
           flat_map (spikes_of ss) (firstn a recs) ++ flat_map (spikes_of ss) (skipn (S b) recs)).
Proof.
  intros Hs Hl Hpp Hsch Hr Hids Hj Hss HT Hlm Hab Hlim. destruct (mt_column_is _ _ _ _ _ _ _ _ _ _ _ _ _ _ _ Hs Hl Hpp Hsch Hr Hids Hj Hss) as (B & C).
  exists (flat_map (spikes_of ss) recs).
  assert (E : flat_map (fun r => nth j (xr_out r) []) recs = flat_map (spikes_of ss) recs) by (apply flat_map_nth; intros t y Hy; apply (C t y Hy)).
  split; [now rewrite B, E|]. split; [reflexivity|].
  assert (St : forall t y, nth_error recs t = Some y -> Forall (fun m => msg_time m = N.of_nat (0 + t)) (spikes_of ss y)).
  { intros t y Hy. destruct (C t y Hy) as [_ H]. eapply Forall_impl; [|exact H]. intros m ->. apply N.mod_small.
    assert (t < length recs) by (apply nth_error_Some; congruence). cbn [plus]. lia. }
  pose proof (c47_reads_partial limit [OcUpdate (flat_map (spikes_of ss) recs); OcRead (N.of_nat a) (N.of_nat b)] Hlm) as R.
  cbn [arriving flat_map] in R. rewrite !app_nil_r in R. specialize (R (slices_sorted _ _ 0 St)).
  assert (RO : Forall (read_ok limit) [OcUpdate (flat_map (spikes_of ss) recs); OcRead (N.of_nat a) (N.of_nat b)]).
  { repeat constructor; cbn [read_ok]; lia. }
  specialize (R RO). cbn [oc_run oc_update oc_expected app] in R.
  destruct (oc_read limit (N.of_nat a) (N.of_nat b) (flat_map (spikes_of ss) recs)) as [[got rest]| |] eqn:Er; cbn [obind fst snd] in R; try discriminate.
  injection R as Hrest Hgot. rewrite (slice _ a b recs 0 St) in Hgot. rewrite !Nat.sub_0_r in Hgot. subst got rest. do 2 f_equal.
  (* the rest *)
  clear - St Hab. revert St. assert (G : forall l s, (forall t y, nth_error l t = Some y -> Forall (fun m => msg_time m = N.of_nat (s + t)) (spikes_of ss y)) ->
    filter (fun m => negb (in_interval (N.of_nat a) (N.of_nat b) m)) (flat_map (spikes_of ss) l) = flat_map (spikes_of ss) (firstn (a - s) l) ++ flat_map (spikes_of ss) (skipn (S b - s) l)).
  { induction l as [|y l IH]; intros s H; cbn [flat_map]; [now rewrite firstn_nil, skipn_nil|].
    rewrite filter_app, (IH (S s)) by (intros t z Hz; replace (S s + t) with (s + S t) by lia; now apply H).
    pose proof (H 0 y eq_refl) as H0. rewrite Nat.add_0_r in H0. rewrite Forall_forall in H0.
    destruct (Nat.lt_ge_cases s a) as [Ha|Ha].
    - replace (a - s) with (S (a - S s)) by lia. replace (S b - s) with (S (S b - S s)) by lia. cbn [firstn skipn flat_map]. rewrite <- app_assoc. f_equal.
      apply Framework_Proofs.filter_all. intros m Hm. unfold in_interval. rewrite (H0 m Hm). apply negb_true_iff, andb_false_iff. left. apply N.leb_gt. lia.
    - replace (a - s) with 0 by lia. replace (a - S s) with 0 by lia. cbn [firstn flat_map app]. destruct (Nat.le_gt_cases s b) as [Hb|Hb].
      + replace (S b - s) with (S (S b - S s)) by lia. cbn [skipn]. rewrite Framework_Proofs.filter_none; [reflexivity|].
        intros m Hm. unfold in_interval. rewrite (H0 m Hm). apply negb_false_iff, andb_true_iff. split; apply N.leb_le; lia.
      + replace (S b - s) with 0 by lia. replace (S b - S s) with 0 by lia. cbn [skipn flat_map]. f_equal. apply Framework_Proofs.filter_all.
        intros m Hm. unfold in_interval. rewrite (H0 m Hm). apply negb_true_iff, andb_false_iff. right. apply N.leb_gt. lia. }
  intros St. rewrite (G recs 0 St), !Nat.sub_0_r. reflexivity.
Qed.
(** What a handler answers to the messages of step [t] reaches every projection it
    is connected to in step [t + 1], exactly once, stamped [t + 1]. *)
Theorem c123_handlers pow2f gens ins outs calls pops projs pp pj turns x recs t rec rec' u ss rs f q w : sound_network pops projs -> Forall loadable projs -> (0 < pp < two64)%N -> schedules_ok pp pj pops projs turns ->
  mt_executor_ran pow2f gens ins outs calls pops projs turns x recs -> own_ids ins calls pops ->
  In (AddHandler u ss rs f) calls -> nth_error projs q = Some w -> In (np_uid w) rs ->
  nth_error recs t = Some rec -> nth_error recs (S t) = Some rec' ->
  exists ms, nth_error (r_proj_in (nr_msgs (xr_net rec'))) q = Some ms /\
    filter (from u) ms =
      (let d := f t (received 0 ss (nr_msgs (xr_net rec))) in if Nat.eqb (length d) 0 then [] else [SpikeMsg u (N.of_nat (S t) mod two64) d]).
Proof.
  intros Hs Hl Hpp Hsch Hr Hids Hh Hq Hp Ht Ht'. destruct (own_parts _ _ _ Hids) as (N1 & N2 & N3 & N4).
  destruct (mt_taken_from _ _ _ _ _ _ _ _ _ _ _ _ (S t) rec' q w u Hs Hl Hpp Hsch Hr Ht' Hq) as (ms & Hms & Hc). exists ms. split; [exact Hms|].
  destruct (mt_ran_facts _ _ _ _ _ _ _ _ _ _ _ _ Hs Hl Hpp Hsch Hr) as (turns' & k & _ & _ & _ & _ & _ & _ & HL & F & _).
  assert (Hg : forall t r, nth_error recs t = Some r -> exists g, nth_error (rounds [] (map fst turns)) t = Some g).
  { intros t0 r0 H0. destruct (nth_error (rounds [] (map fst turns)) t0) as [g|] eqn:Eg; [eauto|]. apply nth_error_None in Eg.
    assert (nth_error recs t0 <> None) as Hx by congruence. apply nth_error_Some in Hx. lia. }
  destruct (Hg _ _ Ht) as [g Eg]. destruct (Hg _ _ Ht') as [g' Eg'].
  destruct (F _ _ _ Ht Eg) as (_ & _ & F3 & _). destruct (F _ _ _ Ht' Eg') as (F1' & _ & _ & _ & F5' & _).
  assert (Hin : In (u, ss, f) (handlers calls)). { unfold handlers. apply in_flat_map. eexists. split; [exact Hh|]. now left. }
  assert (Hu : In u (map (fun h => fst (fst h)) (handlers calls))). { apply (in_map (fun h => fst (fst h))) in Hin. exact Hin. }
  destruct (N4 u Hu) as [NI NP]. rewrite F1', !filter_app, (from_nobody u (inputs_for _ _ _ _)), (from_nobody u (sent_msgs _)) in Hc; cbn [app] in Hc.
  - unfold handled_before in Hc. rewrite Ht, F3, (replies_from t _ u ss f _ N2 Hin) in Hc. cbv zeta in Hc |- *. rewrite Hc. destruct (Nat.eqb _ _); [reflexivity|].
    cbn [filter to_nproj]. rewrite (wired_handler ins calls (np_uid w) u ss rs f Hh Hp), orb_true_r. reflexivity.
  - intros m Hm Em. destruct (spikes_senders _ _ _ _ F5' Hm) as [Hx _]. rewrite Em in Hx. contradiction.
  - intros m Hm Em. apply inputs_senders in Hm. rewrite Em in Hm. contradiction.
Qed.

(** *** C124 *)
Lemma alike_refl m : alike m m.
Proof. destruct m; cbn; auto. Qed.
Lemma alike_all l : Forall2 alike l l.
Proof. induction l; constructor; auto using alike_refl. Qed.
Lemma alike_wanted ty ss a b : alike a b -> wanted ty ss a = wanted ty ss b.
Proof. destruct a, b; cbn [alike]; try contradiction; unfold wanted; cbn [msg_type msg_sender]; now intros [-> _]. Qed.
Lemma alike_filter ty ss l l' : Forall2 alike l l' -> Forall2 alike (filter (wanted ty ss) l) (filter (wanted ty ss) l').
Proof. induction 1 as [|a b l l' H _ IH]; cbn [filter]; [constructor|]. rewrite (alike_wanted ty ss a b H). destruct (wanted ty ss b); [constructor|]; auto. Qed.
Lemma alike_spikes_sent outs outs' : Forall2 same_spikes outs outs' -> Forall2 alike (sent_msgs outs) (sent_msgs outs').
Proof.
  induction 1 as [|a b l l' H _ IH]; [constructor|]. rewrite (sent_msgs_cons a l), (sent_msgs_cons b l'). destruct a as [[]|], b as [[]|]; cbn in H; try contradiction; cbn [sent_msgs flat_map app]; [|exact IH].
  constructor; [exact H|exact IH].
Qed.
Lemma alike_impacts_sent outs outs' : Forall2 same_output outs outs' -> Forall2 alike (sent_msgs outs) (sent_msgs outs').
Proof.
  induction 1 as [|a b l l' H _ IH]; [constructor|]. rewrite (sent_msgs_cons a l), (sent_msgs_cons b l'). destruct a as [[]|], b as [[]|]; cbn in H; try contradiction; cbn [sent_msgs flat_map app]; [|exact IH].
  constructor; [exact H|exact IH].
Qed.
Lemma alike_received ty ss r r' : same_record r r' -> r_ext (nr_msgs r') = r_ext (nr_msgs r) ->
  Forall2 alike (received ty ss (nr_msgs r)) (received ty ss (nr_msgs r')).
Proof.
  intros (_ & _ & _ & _ & _ & H1 & H2) He. unfold received. apply alike_filter. rewrite He. apply Forall2_app; [now apply alike_impacts_sent|].
  apply Forall2_app; [now apply alike_spikes_sent|apply alike_all].
Qed.
Lemma F2_map {A B C} (R : B -> C -> Prop) (f : A -> B) (g : A -> C) l : (forall a, In a l -> R (f a) (g a)) -> Forall2 R (map f l) (map g l).
Proof. induction l as [|a l IH]; intros H; cbn [map]; constructor; [apply H; now left|]. apply IH. intros b Hb. apply H. now right. Qed.
Lemma replies_alike t r r' h : order_blind (snd h) -> same_record r r' -> r_ext (nr_msgs r') = r_ext (nr_msgs r) ->
  Forall2 alike (fst (reply t (nr_msgs r) h)) (fst (reply t (nr_msgs r') h)) /\ snd (reply t (nr_msgs r') h) = snd (reply t (nr_msgs r) h).
Proof.
  destruct h as [[u ss] f]. cbn [snd]. intros Hb Hs He. pose proof (alike_received 0 ss r r' Hs He) as H. unfold reply. cbv zeta. cbn [fst snd].
  split; [exact H|]. now rewrite (Hb t _ _ H).
Qed.

(** The records of a round with a step on the two backends agree. *)
Definition same_round (r r' : xrecord) : Prop :=
  same_record (xr_net r) (xr_net r') /\ r_ext (nr_msgs (xr_net r')) = r_ext (nr_msgs (xr_net r)) /\
  Forall2 (Forall2 alike) (xr_out r) (xr_out r') /\
  Forall2 (fun h h' => Forall2 alike (fst h) (fst h') /\ snd h' = snd h) (xr_handled r) (xr_handled r') /\
  Forall2 (Forall2 alike) (xr_observed r) (xr_observed r').
(** The same program, on the same network, with the same data: on the multi-threaded
    backend, whatever the schedules, every step does what it does on the single-threaded
    one.  The output channels hold the same messages, the handlers and the observers are
    called with the same messages (up to the order of the spikes or impacts inside a
    message), the handlers answer the same, the neurons and the synapses are the same. *)
Theorem c124_same pow2f expf gens ins outs calls pops projs pp pj (turns : list (xturn * nsched)) x recs x' recs' :
  sound_network pops projs -> Forall loadable projs -> Forall numeric projs ->
  Forall (fun w => (N.of_nat (length (delta_synapses w)) <= 2 ^ 63)%N) projs ->
  (0 < pp < two64)%N -> (0 < pj < two64)%N -> schedules_ok pp pj pops projs turns -> (N.of_nat (length turns) < two64)%N ->
  executor_ran pow2f expf gens ins outs calls pops projs (map fst turns) x recs ->
  mt_executor_ran pow2f gens ins outs calls pops projs turns x' recs' ->
  Forall (fun h => order_blind (snd h)) (handlers calls) ->
  (forall r, In r recs -> plain_input (xr_net r)) -> indifferent (map xr_net recs) ->
  Forall2 same_round recs recs' /\ Forall2 (Forall2 alike) (x_buffers x) (x_buffers x') /\
  nb_pops (x_net x') = nb_pops (x_net x) /\ map bare (nb_projs (x_net x')) = map bare (nb_projs (x_net x)).
Proof.
  intros Hs Hl Hnum Hsyn Hpp Hpj Hsch Hlen Hr Hr' Hblind Hin Hfree.
  destruct (ran_facts _ _ _ _ _ _ _ _ _ _ _ Hs Hr) as (t0s & k & A1 & A2 & A3 & A4 & A5 & A6 & A7 & A8 & A9 & _).
  destruct (mt_ran_facts _ _ _ _ _ _ _ _ _ _ _ _ Hs Hl Hpp Hsch Hr') as (t1s & k' & B1 & _ & B2 & B3 & B4 & B5 & B6 & B7 & B8 & B9 & _).
  assert (L : length recs' = length recs) by congruence.
  assert (Hget : forall t r, nth_error recs t = Some r -> exists g, nth_error (rounds [] (map fst turns)) t = Some g).
  { intros t r Ht. destruct (nth_error (rounds [] (map fst turns)) t) as [g|] eqn:Eg; [eauto|]. apply nth_error_None in Eg.
    assert (nth_error recs t <> None) as Hx by congruence. apply nth_error_Some in Hx. lia. }
  assert (Hrl : length (rounds [] (map fst turns)) <= length turns).
  { clear. enough (G : forall l, length (rounds l (map fst turns)) <= length turns) by apply G. induction turns as [|[u s] t IH]; intros l; cbn [map rounds length fst]; [lia|].
    destruct (xt_go u); cbn [length]; [specialize (IH [])|specialize (IH (l ++ [u]))]; lia. }
  (* what comes from outside *)
  assert (Hnext : forall t, (forall t0 r r', t0 < t -> nth_error recs t0 = Some r -> nth_error recs' t0 = Some r' -> same_record (xr_net r) (xr_net r')) ->
    forall t0 r r', t0 <= t -> nth_error recs t0 = Some r -> nth_error recs' t0 = Some r' -> r_ext (nr_msgs (xr_net r')) = r_ext (nr_msgs (xr_net r))).
  { intros t Hprev. induction t0 as [|t0 IH]; intros r r' Hle H1 H2; destruct (Hget _ _ H1) as [g Hg];
      destruct (A7 _ _ _ H1 Hg) as (E1 & _); destruct (B7 _ _ _ H2 Hg) as (E2 & _); rewrite E1, E2; [reflexivity|]. f_equal.
    cbn [handled_before]. assert (P1 : t0 < length recs). { assert (S t0 < length recs) by (apply nth_error_Some; congruence). lia. }
    destruct (nth_error recs t0) as [q|] eqn:Q; [|apply nth_error_None in Q; lia]. destruct (nth_error recs' t0) as [q'|] eqn:Q'; [|apply nth_error_None in Q'; lia].
    destruct (Hget _ _ Q) as [g0 Hg0]. destruct (A7 _ _ _ Q Hg0) as (_ & _ & R1 & _). destruct (B7 _ _ _ Q' Hg0) as (_ & _ & R2 & _). rewrite R1, R2.
    assert (Hx : r_ext (nr_msgs (xr_net q')) = r_ext (nr_msgs (xr_net q))) by (apply IH; auto; lia).
    assert (Hsr : same_record (xr_net q) (xr_net q')) by (apply (Hprev t0); auto).
    rewrite !flat_map_concat_map, !map_map. f_equal. apply map_ext_in. intros h Hh. rewrite Forall_forall in Hblind. now apply (replies_alike t0 _ _ h (Hblind h Hh)). }
  assert (Hlt : (N.of_nat (length (map xr_net recs)) < two64)%N) by (rewrite map_length; lia).
  assert (Hin' : forall r, In r (map xr_net recs) -> plain_input r) by (intros r H; apply in_map_iff in H as (q & <- & H); auto).
  assert (Ll : length (map xr_net recs') = length (map xr_net recs)) by now rewrite !map_length.
  destruct (together_all pow2f expf (connections ins calls) pops projs pp pj t0s t1s k k' (map xr_net recs) (map xr_net recs')
    Hs Hl Hnum Hsyn Hpp Hpj B1 A1 (eq_trans A2 (eq_sym B2)) A3 B3 Hlt Hin' Hfree Ll) as (T & R).
  { intros t _ Hprev t0 a b Hle Ha Hb. rewrite nth_error_map in Ha, Hb. destruct (nth_error recs t0) as [r|] eqn:Er; [|discriminate]. destruct (nth_error recs' t0) as [r'|] eqn:Er'; [|discriminate].
    cbn [option_map] in Ha, Hb. injection Ha as <-. injection Hb as <-. apply (Hnext t) with (t0 := t0); auto.
    intros t1 q q' H1 H2 H3. apply (Hprev t1); [exact H1| |]; rewrite nth_error_map; [now rewrite H2|now rewrite H3]. }
  assert (Hrec : forall t r r', nth_error recs t = Some r -> nth_error recs' t = Some r' -> same_record (xr_net r) (xr_net r')).
  { intros t r r' H1 H2. apply (R t); rewrite nth_error_map; [now rewrite H1|now rewrite H2]. }
  assert (Hround : Forall2 same_round recs recs').
  { apply F2_build; [congruence|]. intros t r r' H1 H2. pose proof (Hrec t r r' H1 H2) as Hsr.
    assert (He : r_ext (nr_msgs (xr_net r')) = r_ext (nr_msgs (xr_net r))) by (apply (Hnext t) with (t0 := t); auto; intros t0 q q' _; apply Hrec).
    destruct (Hget _ _ H1) as [g Hg]. destruct (A7 _ _ _ H1 Hg) as (_ & O1 & O2 & O3 & _). destruct (B7 _ _ _ H2 Hg) as (_ & P1 & P2 & P3 & _).
    split; [exact Hsr|]. split; [exact He|]. rewrite O1, O2, O3, P1, P2, P3. split; [|split].
    - apply F2_map. intros c _. now apply alike_received.
    - apply F2_map. intros h Hh. apply replies_alike; auto. rewrite Forall_forall in Hblind. auto.
    - apply F2_map. intros c _. now apply alike_received. }
  split; [exact Hround|]. split; [|].
  - apply F2_build; [congruence|]. intros j a b Ha Hb. assert (Hj : j < length outs) by (rewrite <- A8; apply nth_error_Some; congruence).
    rewrite (A9 j Hj) in Ha. rewrite (B9 j Hj) in Hb. injection Ha as <-. injection Hb as <-. clear - Hround.
    induction Hround as [|r r' l l' H _ IH]; cbn [flat_map]; [constructor|]. apply Forall2_app; [|exact IH]. destruct H as (_ & _ & H & _). clear - H.
    revert j. induction H as [|p q P Q H _ IH]; intros [|j]; cbn [nth]; auto.
  - destruct (net_run_facts _ _ _ _ _ _ _ _ Hs A1 A3) as (_ & _ & E & _). destruct (mt_net_run_facts _ _ _ _ _ _ _ _ _ Hs Hl Hpp B1 B3) as (_ & _ & E' & _).
    destruct (T (length (map xr_net recs)) (le_n _)) as (T1 & T2 & _). rewrite Ll in E'.
    pose proof (f_equal fst E) as Z1. pose proof (f_equal snd E) as Z2. pose proof (f_equal fst E') as Y1. pose proof (f_equal snd E') as Y2. cbn [fst snd] in Z1, Z2, Y1, Y2.
    split; [congruence|]. rewrite A5, B5. rewrite !learn_all_map, !map_map.
    assert (Hb : Forall2 (fun w v => bare w = bare v) (nb_projs k) (nb_projs k')).
    { rewrite Z2, Y2. clear - T2. induction T2 as [|w v a b H _ IH]; constructor; [apply H|exact IH]. }
    clear - Hb. induction Hb as [|w v a b H _ IH]; cbn [map]; [reflexivity|]. rewrite IH. f_equal. symmetry. fold (relock (flat_map xt_learn (unfinished [] (map fst turns))) w).
    fold (relock (flat_map xt_learn (unfinished [] (map fst turns))) v). now apply bare_relock.
Qed.

(** *** Runs that meet the hypotheses *)
(** The example of C90 as an executor program: the channel feeds both projections, the
    handler answers spikes of the first population, and one round is refused. *)
Definition mxe_ins : list (uid * list uid) := [(9, [21; 22])]%N.
Definition mxe_outs : list (uid * list uid) := [(60, [1; 2])]%N.
Definition mxe_calls : list xcall := [AddHandler 70 [1] [22] xe_echo; AddObserver 0 80 [1; 9; 70]; AddObserver 1 81 [21; 22]]%N.
Definition mxe_turns : list (xturn * nsched) :=
  [(mkXT [true] (fun _ => [0]%N) true, ex_sched); (mkXT [] (fun _ => []) true, ex_sched); (mkXT [] (fun _ => []) false, mkNSched [] [] []); (mkXT [] (fun _ => []) true, ex_sched)].
Lemma echo_blind : order_blind xe_echo.
Proof. intros n ms ms' H. destruct H; reflexivity. Qed.
Lemma mxe_ids : own_ids mxe_ins mxe_calls Props_Sched.sc_pops.
Proof. unfold own_ids. cbn. repeat constructor; cbn; intuition discriminate. Qed.
Lemma mxe_schedules : schedules_ok 1 1 Props_Sched.sc_pops Props_Sched.sc_projs mxe_turns.
Proof. do 4 (constructor; [cbn [fst snd xt_go]; intros H; first [discriminate H|exact ex_sched_ok]|]). constructor. Qed.
Definition mxe_see (x : xstate) (recs : list xrecord) :=
  (map (fun r => (r_ext (nr_msgs (xr_net r)), r_pop_out (nr_msgs (xr_net r)), r_proj_in (nr_msgs (xr_net r)), map snd (xr_handled r), firstn 1 (xr_observed r))) recs, x_buffers x, map (fun r => plain_b (xr_net r)) recs).
Local Notation mxe_init calls := (executor_init [9]%N mxe_ins mxe_outs calls Props_Sched.sc_pops Props_Sched.sc_projs) (only parsing).
Definition q9 (t : N) := SpikeMsg 9 t [0]%N.
Definition q70 (t : N) := SpikeMsg 70 t [0]%N.
Definition mxe_literal (l : list N) :=
  ([([q9 0], [None; None], [[q9 0]; [q9 0]], [[]], [[q9 0]]);
    ([], [Some (SpikeMsg 1 1 l); Some (SpikeMsg 2 1 l)], [[]; []], [[q70 2]], [[SpikeMsg 1 1 l]]);
    ([q70 2], [None; None], [[]; [q70 2]], [[]], [[q70 2]])],
   [[SpikeMsg 1 1 l; SpikeMsg 2 1 l]], [true; true; true])%N.
(** All hypotheses of C123 and C124 hold; the schedule turns the order of the spikes around. *)
Example c124_case : exists x recs x' recs',
  sound_network Props_Sched.sc_pops Props_Sched.sc_projs /\ Forall loadable Props_Sched.sc_projs /\ Forall numeric Props_Sched.sc_projs /\
  Forall (fun w => (N.of_nat (length (delta_synapses w)) <= 2 ^ 63)%N) Props_Sched.sc_projs /\
  schedules_ok 1 1 Props_Sched.sc_pops Props_Sched.sc_projs mxe_turns /\ own_ids mxe_ins mxe_calls Props_Sched.sc_pops /\
  executor_ran one1 one1 [9]%N mxe_ins mxe_outs mxe_calls Props_Sched.sc_pops Props_Sched.sc_projs (map fst mxe_turns) x recs /\
  mt_executor_ran one1 [9]%N mxe_ins mxe_outs mxe_calls Props_Sched.sc_pops Props_Sched.sc_projs mxe_turns x' recs' /\
  Forall (fun h => order_blind (snd h)) (handlers mxe_calls) /\
  (forall r, In r recs -> plain_input (xr_net r)) /\ indifferent (map xr_net recs) /\
  mxe_see x recs = mxe_literal [0; 1]%N /\ mxe_see x' recs' = mxe_literal [1; 0]%N.
Proof.
  destruct (seen (mxe_literal [0; 1]%N) mxe_see (mxe_init mxe_calls) (executor_run one1 one1 mxe_ins mxe_outs mxe_calls (map fst mxe_turns))) as (x0 & x & recs & E0 & E1 & H);
    [vm_compute; reflexivity|].
  destruct (seen (mxe_literal [1; 0]%N) mxe_see (mxe_init mxe_calls) (mt_executor_run one1 mxe_ins mxe_outs mxe_calls mxe_turns)) as (x0' & x' & recs' & E0' & E1' & H');
    [vm_compute; reflexivity|].
  assert (Hp : forall r, In r recs -> plain_input (xr_net r) /\ Forall one_each (r_pop_in (nr_msgs (xr_net r)))).
  { intros r Hr. apply plain_b_ok. pose proof (f_equal snd H) as P. cbn [snd mxe_see mxe_literal] in P. apply (in_map (fun r => plain_b (xr_net r))) in Hr. rewrite P in Hr.
    destruct Hr as [<-|[<-|[<-|[]]]]; reflexivity. }
  exists x, recs, x', recs'. split; [apply sc_sound|]. split; [repeat constructor|]. split; [repeat constructor|]. split; [repeat constructor; cbn; discriminate|].
  split; [apply mxe_schedules|]. split; [apply mxe_ids|]. split; [exists x0; split; [exact E0|exact E1]|]. split; [exists x0'; split; [exact E0'|exact E1']|].
  split; [constructor; [exact echo_blind|constructor]|]. split; [intros r Hr; now apply Hp|]. split; [|split; [exact H|exact H']].
  intros t r i u a ms Ht _ Hm. apply one_each_free. rewrite nth_error_map in Ht. destruct (nth_error recs t) as [r0|] eqn:E; [|discriminate]. cbn [option_map] in Ht. injection Ht as <-.
  destruct (Hp r0 (nth_error_In _ _ E)) as [_ F]. rewrite Forall_forall in F. apply F. eapply nth_error_In; eauto.
Qed.
(** A handler that picks the first spike of its message, which is a possible winner,
    answers differently on the two backends: here the other neuron. *)
Definition pick_first (n : nat) (ms : list message) : list N := match ms with SpikeMsg _ _ (i :: _) :: _ => [i] | _ => [] end.
Definition pick_calls : list xcall := [AddHandler 70 [1] [22] pick_first]%N.
Definition pick_see (x : xstate) (recs : list xrecord) := map (fun r => (map snd (xr_handled r), plain_b (xr_net r))) recs.
Theorem c124_handler_refuted : exists x recs x' recs',
  schedules_ok 1 1 Props_Sched.sc_pops Props_Sched.sc_projs mxe_turns /\
  executor_ran one1 one1 [9]%N mxe_ins mxe_outs pick_calls Props_Sched.sc_pops Props_Sched.sc_projs (map fst mxe_turns) x recs /\
  mt_executor_ran one1 [9]%N mxe_ins mxe_outs pick_calls Props_Sched.sc_pops Props_Sched.sc_projs mxe_turns x' recs' /\
  (forall r, In r recs -> plain_input (xr_net r)) /\
  map (fun r => map snd (xr_handled r)) recs = [[[]]; [[SpikeMsg 70 2 [0]]]; [[]]]%N /\
  map (fun r => map snd (xr_handled r)) recs' = [[[]]; [[SpikeMsg 70 2 [1]]]; [[]]]%N.
Proof.
  destruct (seen [([[]], true); ([[SpikeMsg 70 2 [0]]], true); ([[]], true)]%N pick_see (mxe_init pick_calls) (executor_run one1 one1 mxe_ins mxe_outs pick_calls (map fst mxe_turns))) as (x0 & x & recs & E0 & E1 & H);
    [vm_compute; reflexivity|].
  destruct (seen [([[]], true); ([[SpikeMsg 70 2 [1]]], true); ([[]], true)]%N pick_see (mxe_init pick_calls) (mt_executor_run one1 mxe_ins mxe_outs pick_calls mxe_turns)) as (x0' & x' & recs' & E0' & E1' & H');
    [vm_compute; reflexivity|].
  exists x, recs, x', recs'. split; [apply mxe_schedules|]. split; [exists x0; split; [exact E0|exact E1]|]. split; [exists x0'; split; [exact E0'|exact E1']|]. unfold pick_see in *. split; [|split].
  - intros r Hr. apply plain_b_ok. apply (in_map (fun r => (map snd (xr_handled r), plain_b (xr_net r)))) in Hr. rewrite H in Hr.
    destruct Hr as [E|[E|[E|[]]]]; symmetry in E; exact (f_equal snd E).
  - apply (f_equal (map fst)) in H. rewrite map_map in H. exact H.
  - apply (f_equal (map fst)) in H'. rewrite map_map in H'. exact H'.
Qed.
(** What reaches a projection need not have an effect on this backend: a projection uses
    only the first message of a step.  Here the channel and the handler both send to
    projection 22 for step 2; on the single-threaded backend each of them leads to an
    impact from every synapse, on this one only the message of the channel does. *)
Definition lost_turns : list (xturn * nsched) :=
  [(mkXT [true] (fun _ => [0]%N) true, ex_sched); (mkXT [] (fun _ => []) true, ex_sched); (mkXT [] (fun _ => [0]%N) true, ex_sched)].
Definition impacts_in (o : option message) : list N := match o with Some (ImpactMsg _ _ _ _ _ l) => map i_post l | _ => [] end.
Definition lost_see (x : xstate) (recs : list xrecord) := map (fun r => (r_proj_in (nr_msgs (xr_net r)), map impacts_in (r_proj_out (nr_msgs (xr_net r))))) recs.
Definition lost_literal (a : list (list N)) (b : list (list N)) :=
  [([[q9 0]; [q9 0]], a); ([[]; []], [[]; []]); ([[q9 2]; [q9 2; q70 2]], b)]%N.
Theorem c123_lost_refuted : exists x recs x' recs',
  schedules_ok 1 1 Props_Sched.sc_pops Props_Sched.sc_projs lost_turns /\
  executor_ran one1 one1 [9]%N mxe_ins mxe_outs mxe_calls Props_Sched.sc_pops Props_Sched.sc_projs (map fst lost_turns) x recs /\
  mt_executor_ran one1 [9]%N mxe_ins mxe_outs mxe_calls Props_Sched.sc_pops Props_Sched.sc_projs lost_turns x' recs' /\
  lost_see x recs = lost_literal [[0; 1]; [0; 1]]%N [[0; 1]; [0; 1; 0; 1]]%N /\
  lost_see x' recs' = lost_literal [[1; 0]; [1; 0]]%N [[1; 0]; [1; 0]]%N.
Proof.
  destruct (seen (lost_literal [[0; 1]; [0; 1]]%N [[0; 1]; [0; 1; 0; 1]]%N) lost_see (mxe_init mxe_calls) (executor_run one1 one1 mxe_ins mxe_outs mxe_calls (map fst lost_turns))) as (x0 & x & recs & E0 & E1 & H);
    [vm_compute; reflexivity|].
  destruct (seen (lost_literal [[1; 0]; [1; 0]]%N [[1; 0]; [1; 0]]%N) lost_see (mxe_init mxe_calls) (mt_executor_run one1 mxe_ins mxe_outs mxe_calls lost_turns)) as (x0' & x' & recs' & E0' & E1' & H');
    [vm_compute; reflexivity|].
  exists x, recs, x', recs'. split; [|split; [exists x0; split; [exact E0|exact E1]|split; [exists x0'; split; [exact E0'|exact E1']|auto]]].
  do 3 (constructor; [cbn [fst snd xt_go]; intros _; exact ex_sched_ok|]). constructor.
Qed.

Print Assumptions c123_network.
Print Assumptions c123_messages.
Print Assumptions c123_inputs.
Print Assumptions c123_buffers.
Print Assumptions c123_handlers.
Print Assumptions c123_lost_refuted.
Print Assumptions c124_same.
Print Assumptions c124_handler_refuted.
