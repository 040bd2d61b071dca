(** What comes from whom in a run of the executor. *)
From Coq Require Import Sorting.Sorted.
From Verif Require Import Base ListLemmas Messaging_Model Messaging_Spec Messaging_Proofs Messaging_Proofs2 Neuron_Model
  Pipeline_Model Pipeline_Spec Pipeline_Proofs Pipeline_Proofs2 Stdp_Model Additive_Model Train_Model Net_Model Net_Spec Net_Proofs Net_Proofs2 Net_Proofs3 Net_Proofs4 Net_Proofs5
  Props_Net Framework_Model Framework_Spec Framework_Proofs Exec_Model Exec_Spec Exec_Proofs Exec_Proofs2 Exec_Proofs3 Exec_Proofs4 Exec_Proofs5.

(** ** What populations send *)
Definition spike_of (u : uid) (step : N) (o : option message) : Prop := match o with None => True | Some m => exists idx, m = SpikeMsg u step idx end.
Lemma spike_message_of u step l : spike_of u step (spike_message u step l).
Proof. destruct l; cbn; eauto. Qed.
Lemma apop_out u step ms a a' o : apop_step u step ms a = Ret (a', o) -> spike_of u step o.
Proof.
  intros H.
  assert (Hg : forall P S (pre : (P*S) -> (P*S)) imp post (l : list (P*S)) r, population_step pre imp post u step ms l = Ret r -> spike_of u step (snd r)).
  { intros P S pre imp post l r Hr. unfold population_step in Hr. destruct (impact_population _ _ _) as [n1| |]; cbn [obind] in Hr; try discriminate.
    destruct (post_part _ _ _ _) as [n2 idx]. injection Hr as <-. cbn [snd]. destruct (Nat.eqb _ _); cbn; eauto. }
  destruct a as [l|l|l]; cbn [apop_step] in H;
    (destruct (population_step _ _ _ _ _ _ _) as [r| |] eqn:E; cbn [obind] in H; [|discriminate|discriminate]); injection H as _ <-; eapply Hg; eauto.
Qed.
Lemma npop_out pow2f u step ms a projs a' projs' o : npop_step pow2f u step ms a projs = Ret (a', projs', o) -> spike_of u step o.
Proof.
  intros H. destruct a as [a|l|l]; cbn [npop_step] in H.
  - destruct (apop_step u step ms a) as [[a1 o1]| |] eqn:E; cbn [obind fst snd] in H; try discriminate. injection H as _ _ <-. eapply apop_out; eauto.
  - destruct (stdp_front _ _ _ _ _) as [f| |]; cbn [obind] in H; try discriminate. destruct (stdp_train _ _ _ _ _ _ _ _) as [r| |]; cbn [obind] in H; try discriminate.
    injection H as _ _ <-. apply spike_message_of.
  - destruct (stdp_front _ _ _ _ _) as [f| |]; cbn [obind] in H; try discriminate. destruct (stdp_train _ _ _ _ _ _ _ _) as [r| |]; cbn [obind] in H; try discriminate.
    injection H as _ _ <-. apply spike_message_of.
Qed.
Lemma npops_out pow2f step : forall pops projs b res, npops_phase pow2f step pops projs b = Ret res ->
  Forall2 (fun e o => spike_of (fst e) step o) pops (snd res).
Proof.
  induction pops as [|[u a] pops IH]; intros projs b res H; cbn [npops_phase] in H.
  - injection H as <-. constructor.
  - destruct (unload_own b 1 u) as [[b1 l]| |]; cbn [obind fst snd] in H; try discriminate.
    destruct (npop_step pow2f u step l a projs) as [[[a' projs1] o]| |] eqn:E; cbn [obind] in H; try discriminate.
    destruct (send_own b1 o) as [b2| |]; cbn [obind] in H; try discriminate.
    destruct (npops_phase pow2f step pops projs1 b2) as [z| |] eqn:E3; cbn [obind] in H; try discriminate.
    specialize (IH _ _ _ E3). destruct z as [[[[t' projs2] b3] ins] outs]. injection H as <-. cbn [fst snd] in *. constructor; [|exact IH]. eapply npop_out; eauto.
Qed.
Definition pop_spikes (us : list uid) (step : N) (ms : list message) : Prop := Forall (fun m => exists u idx, In u us /\ m = SpikeMsg u step idx) ms.
Lemma pops_sent us step : forall (pops : list (uid * npop)) outs, Forall2 (fun e o => spike_of (fst e) step o) pops outs -> incl (map fst pops) us ->
  pop_spikes us step (sent_msgs outs).
Proof.
  intros pops outs H. induction H as [|[u a] o pops outs H1 H IH]; intros Hi; [constructor|]. rewrite sent_msgs_cons. apply Forall_app. split.
  - destruct o as [m|]; [|constructor]. destruct H1 as [idx ->]. repeat constructor. exists u, idx. split; [apply Hi; now left|reflexivity].
  - apply IH. intros v Hv. apply Hi. now right.
Qed.
Lemma nstep_out pow2f expf ext k k' r : nbackend_step pow2f expf ext k = Ret (k', r) ->
  pop_spikes (map fst (nb_pops k)) (nb_step k) (sent_msgs (r_pop_out (nr_msgs r))).
Proof.
  intros H. unfold nbackend_step in H. destruct (route_receive_own (nb_bus k)) as [b1| |]; cbn [obind] in H; try discriminate.
  destruct (npops_phase pow2f (nb_step k) (nb_pops k) (nb_projs k) b1) as [[[[[pops' projs1] b2] pin] pout]| |] eqn:E; cbn [obind] in H; try discriminate.
  destruct (route_receive_own b2) as [b3| |]; cbn [obind] in H; try discriminate.
  destruct (nprojs_phase expf (nb_step k) projs1 b3) as [[[[projs' b4] jin] jout]| |]; cbn [obind] in H; try discriminate.
  destruct (route_receive_own b4) as [b5| |]; cbn [obind] in H; try discriminate. injection H as _ <-. cbn [nr_msgs r_pop_out].
  eapply pops_sent; [|apply incl_refl]. exact (npops_out _ _ _ _ _ _ E).
Qed.
Lemma nprojs_out expf step : forall projs b res, Forall nproj_ok projs -> nprojs_phase expf step projs b = Ret res -> impact_only (sent_msgs (snd res)).
Proof.
  induction projs as [|w projs IH]; intros b res Hk H; cbn [nprojs_phase] in H.
  - injection H as <-. constructor.
  - apply Forall_cons_iff in Hk as [Hw Hk]. destruct (unload_own b 0 (np_uid w)) as [[b1 l]| |]; cbn [obind fst snd] in H; try discriminate.
    destruct (nproj_step expf step l w) as [[w' o]| |] eqn:E; cbn [obind fst snd] in H; try discriminate.
    destruct (send_own b1 o) as [b2| |]; cbn [obind] in H; try discriminate.
    destruct (nprojs_phase expf step projs b2) as [z| |] eqn:E3; cbn [obind] in H; try discriminate.
    specialize (IH _ _ Hk E3). destruct z as [[[t' b3] ins] outs]. injection H as <-. cbn [fst snd] in *. rewrite sent_msgs_cons. apply Forall_app.
    split; [|exact IH]. apply (nproj_step_queue expf step l w w' o Hw E).
Qed.
Lemma nstep_out' pow2f expf ext k k' r : Forall nproj_ok (nr_trained r) -> nbackend_step pow2f expf ext k = Ret (k', r) ->
  impact_only (sent_msgs (r_proj_out (nr_msgs r))).
Proof.
  intros Hk H. unfold nbackend_step in H. destruct (route_receive_own (nb_bus k)) as [b1| |]; cbn [obind] in H; try discriminate.
  destruct (npops_phase pow2f (nb_step k) (nb_pops k) (nb_projs k) b1) as [[[[[pops' projs1] b2] pin] pout]| |] eqn:E; cbn [obind] in H; try discriminate.
  destruct (route_receive_own b2) as [b3| |]; cbn [obind] in H; try discriminate.
  destruct (nprojs_phase expf (nb_step k) projs1 b3) as [[[[projs' b4] jin] jout]| |] eqn:E4; cbn [obind] in H; try discriminate.
  destruct (route_receive_own b4) as [b5| |]; cbn [obind] in H; try discriminate. injection H as _ <-. cbn [nr_msgs r_proj_out nr_trained] in *.
  exact (nprojs_out _ _ _ _ _ Hk E4).
Qed.
(** In a run. *)
Lemma run_out pow2f expf : forall turns k k' tr, nbackend_run pow2f expf turns k = Ret (k', tr) -> (nb_step k < two64)%N ->
  forall t r, nth_error tr t = Some r ->
    pop_spikes (map fst (nr_pops r)) ((nb_step k + N.of_nat t) mod two64) (sent_msgs (r_pop_out (nr_msgs r))) /\
    (Forall nproj_ok (nr_trained r) -> impact_only (sent_msgs (r_proj_out (nr_msgs r)))).
Proof.
  induction turns as [|u turns IH]; intros k k' tr H Hlt t r Ht; cbn [nbackend_run] in H.
  - injection H as _ <-. destruct t; discriminate.
  - destruct (run (nb_bus k) (tu_ops u)) as [[b trb]| |]; cbn [obind fst] in H; try discriminate.
    destruct (nbackend_step pow2f expf (pending b) _) as [[k1 r1]| |] eqn:E; cbn [obind fst snd] in H; try discriminate.
    destruct (nbackend_run pow2f expf turns k1) as [[k2 tr1]| |] eqn:E2; cbn [obind fst snd] in H; try discriminate. injection H as _ <-.
    assert (E0 : nr_pops r1 = nb_pops k /\ nb_step k1 = add64 (nb_step k) 1).
    { unfold nbackend_step in E. cbn [nb_bus nb_pops nb_projs nb_step] in E. destruct (route_receive_own b) as [b1| |]; cbn [obind] in E; try discriminate.
      destruct (npops_phase _ _ _ _ _) as [[[[[pops' projs1] b2] pin] pout]| |]; cbn [obind] in E; try discriminate.
      destruct (route_receive_own b2) as [b3| |]; cbn [obind] in E; try discriminate.
      destruct (nprojs_phase _ _ _ _) as [[[[projs' b4] jin] jout]| |]; cbn [obind] in E; try discriminate.
      destruct (route_receive_own b4) as [b5| |]; cbn [obind] in E; try discriminate. injection E as <- <-. auto. }
    destruct E0 as [E0 E1]. destruct t as [|t]; cbn [nth_error] in Ht.
    + injection Ht as <-. split; [|intros Hk; eapply nstep_out'; eauto]. pose proof (nstep_out _ _ _ _ _ _ E) as Q. cbn [nb_pops nb_step] in Q.
      rewrite E0. cbn [N.of_nat]. rewrite N.add_0_r, N.mod_small by exact Hlt. exact Q.
    + assert (Hlt1 : (nb_step k1 < two64)%N) by (rewrite E1; unfold add64, w64; apply N.mod_lt; discriminate).
      destruct (IH _ _ _ E2 Hlt1 t r Ht) as [I1 I2]. split; [|exact I2].
      replace ((nb_step k + N.of_nat (S t)) mod two64)%N with ((nb_step k1 + N.of_nat t) mod two64)%N; [exact I1|].
      rewrite E1. unfold add64, w64. rewrite N.add_mod_idemp_l by discriminate. f_equal. lia.
Qed.

(** ** A whole run *)
Lemma told_received ty ss r : filter (wanted ty ss) (told r) = received ty ss r.
Proof. reflexivity. Qed.
Lemma answer_reply t r h : answer t (N.of_nat (S t) mod two64) (told r) h = reply t r h.
Proof. destruct h as [[u ss] f]. unfold answer, reply. cbv zeta. rewrite told_received. now destruct (f t (received 0 ss r)). Qed.
Lemma ran_facts pow2f expf gens ins outs calls pops projs turns x recs : sound_network pops projs ->
  executor_ran pow2f expf gens ins outs calls pops projs turns x recs ->
  exists turns' k, Forall (fun u => forallb outside (tu_ops u) = true) turns' /\
    map tu_learn turns' = map (flat_map xt_learn) (rounds [] turns) /\
    net_run pow2f expf (connections ins calls) pops projs turns' k (map xr_net recs) /\
    nb_pops (x_net x) = nb_pops k /\ nb_projs (x_net x) = learn_all (flat_map xt_learn (unfinished [] turns)) (nb_projs k) /\
    length recs = length (rounds [] turns) /\
    (forall t rec g, nth_error recs t = Some rec -> nth_error (rounds [] turns) t = Some g ->
      r_ext (nr_msgs (xr_net rec)) = inputs_for (N.of_nat t mod two64) 0 ins g ++ handled_before recs t /\
      xr_out rec = map (fun c => received 0 (snd c) (nr_msgs (xr_net rec))) outs /\
      xr_handled rec = map (reply t (nr_msgs (xr_net rec))) (handlers calls) /\
      xr_observed rec = map (fun o => received (fst o) (snd o) (nr_msgs (xr_net rec))) (observers calls) /\
      pop_spikes (map fst pops) (N.of_nat t mod two64) (sent_msgs (r_pop_out (nr_msgs (xr_net rec)))) /\
      impact_only (sent_msgs (r_proj_out (nr_msgs (xr_net rec))))) /\
    length (x_buffers x) = length outs /\
    (forall j, j < length outs -> nth_error (x_buffers x) j = Some (flat_map (fun r => nth j (xr_out r) []) recs)) /\
    x_done x = length recs.
Proof.
  intros Hs (x0 & Hi & Hr).
  assert (Hg : forallb (fun c => mem (fst c) gens) ins = true).
  { destruct (forallb (fun c => mem (fst c) gens) ins) eqn:E; [reflexivity|]. unfold executor_init in Hi. rewrite gen_inputs_throw in Hi by exact E. discriminate. }
  destruct (set_up gens ins outs calls pops projs Hg Hs) as (y0 & k0 & e0 & ops & tr & Ei & Ek & F & E & L & T & P & J & S_ & B & D).
  rewrite Hi in Ei. injection Ei as <-.
  destruct (nbackend_init_ready (connections ins calls) pops projs Hs) as (k1 & Ek1 & K1 & K2 & K3 & R). rewrite Ek in Ek1. injection Ek1 as <-.
  assert (X : xinv ins outs calls projs (map fst pops) [] [] [] x0 k0).
  { split; [exact R|now exists ops, tr|congruence|unfold learn_all; cbn [flat_map fold_left]; congruence|congruence|exact T|].
    exists none, e0. split; [exact L|]. split; [reflexivity|]. split; [reflexivity|]. now apply sends_nil. }
  assert (Hlt : (nb_step k0 < two64)%N) by (rewrite K3; reflexivity).
  destruct (xrun pow2f expf ins outs calls projs (map fst pops) (sn_projs _ _ Hs) (sn_pops _ _ Hs) turns [] [] [] x0 k0 x recs X Hlt Hr)
    as (turns' & k' & I1 & I2 & I3 & I4 & I5 & I6 & I7 & prev' & h' & X').
  assert (Hn : net_run pow2f expf (connections ins calls) pops projs turns' k' (map xr_net recs)) by (exists k0; auto).
  exists turns', k'. split; [exact I1|]. split; [exact I2|]. split; [exact Hn|]. split; [apply (xi_pops _ _ _ _ _ _ _ _ _ _ X')|].
  split; [apply (xi_projs _ _ _ _ _ _ _ _ _ _ X')|]. split; [exact I4|]. split; [|split; [|split]].
  - intros t rec g Ht Hgt. destruct (I5 t rec g Ht Hgt) as (J1 & J2 & J3 & J4). rewrite K3, N.add_0_l in J1. rewrite K3, N.add_0_l, D in J3.
    assert (Ht' : nth_error (map xr_net recs) t = Some (xr_net rec)) by (rewrite nth_error_map, Ht; reflexivity).
    destruct (run_out _ _ _ _ _ _ I3 Hlt t _ Ht') as [O1 O2]. rewrite K3, N.add_0_l in O1.
    destruct (turn_at _ _ _ _ _ _ _ _ Hs I1 Hn t _ Ht') as (u & Hu). destruct (net_run_facts _ _ _ _ _ _ _ _ Hs I1 Hn) as (_ & FF & _).
    destruct (FF t _ u Ht' Hu) as (SF & _). rewrite (sf_us _ _ _ _ _ _ _ _ SF) in O1.
    split; [rewrite J1; f_equal; now destruct t|]. split; [exact J2|]. split; [|split; [exact J4|split; [exact O1|apply O2, (sf_ok1 _ _ _ _ _ _ _ _ SF)]]].
    rewrite J3. apply map_ext. intros h. apply answer_reply.
  - destruct I6 as [Q _]; [rewrite B; apply map_length|exact Q].
  - intros j Hj. destruct I6 as [_ Q]; [rewrite B; apply map_length|]. apply (Q j []). rewrite B, nth_error_map.
    destruct (nth_error outs j) eqn:Ej; [reflexivity|]. apply nth_error_None in Ej. lia.
  - rewrite I7, D. reflexivity.
Qed.

(** ** Messages of one sender *)
Lemma filter_comm {A} (p q : A -> bool) l : filter p (filter q l) = filter q (filter p l).
Proof.
  induction l as [|a l IH]; cbn [filter]; [reflexivity|].
  destruct (q a) eqn:Q; destruct (p a) eqn:P; cbn [filter]; rewrite ?P, ?Q, ?IH; reflexivity.
Qed.
Lemma from_nobody u l : (forall m, In m l -> msg_sender m <> u) -> filter (from u) l = [].
Proof.
  induction l as [|m l IH]; intros H; cbn [filter]; [reflexivity|]. unfold from at 1. destruct (N.eqb_spec (msg_sender m) u) as [E|E].
  - exfalso. apply (H m); [now left|exact E].
  - apply IH. intros m' Hm. apply H. now right.
Qed.
Lemma inputs_senders step : forall ins j g m, In m (inputs_for step j ins g) -> In (msg_sender m) (map fst ins).
Proof.
  induction ins as [|[c ps] t IH]; intros j g m H; cbn [inputs_for map fst] in *; [contradiction|]. apply in_app_or in H as [H|H].
  - apply in_flat_map in H as (u & _ & H). destruct (Nat.eqb _ _); [contradiction|]. destruct H as [<-|[]]. now left.
  - right. eapply IH; eauto.
Qed.
Lemma from_all u l : (forall m, In m l -> msg_sender m = u) -> filter (from u) l = l.
Proof.
  induction l as [|m l IH]; intros H; cbn [filter]; [reflexivity|]. unfold from at 1. rewrite (H m) by now left. rewrite N.eqb_refl. f_equal.
  apply IH. intros m' Hm. apply H. now right.
Qed.
Definition sent_by (c : uid) (step : N) (j : nat) (g : list xturn) : list message :=
  flat_map (fun u => if Nat.eqb (length (xt_data u j)) 0 then [] else [SpikeMsg c step (xt_data u j)]) g.
Lemma sent_by_sender c step j g m : In m (sent_by c step j g) -> msg_sender m = c.
Proof. intros H. apply in_flat_map in H as (u & _ & H). destruct (Nat.eqb _ _); [contradiction|]. destruct H as [<-|[]]. reflexivity. Qed.
Lemma inputs_from step c ps g : forall ins i j, NoDup (map fst ins) -> nth_error ins j = Some (c, ps) ->
  filter (from c) (inputs_for step i ins g) = sent_by c step (i + j) g.
Proof.
  induction ins as [|[d qs] t IH]; intros i j Hn Hj; [destruct j; discriminate|]. cbn [inputs_for map fst] in *. apply NoDup_cons_iff in Hn as [Hd Hn].
  rewrite filter_app. destruct j as [|j]; cbn [nth_error] in Hj.
  - injection Hj as -> ->. rewrite Nat.add_0_r. fold (sent_by c step i g). rewrite from_all by apply sent_by_sender.
    rewrite from_nobody, app_nil_r; [reflexivity|]. intros m Hm E. apply inputs_senders in Hm. rewrite E in Hm. contradiction.
  - fold (sent_by d step i g). rewrite from_nobody.
    + cbn [app]. rewrite (IH (S i) j Hn Hj). f_equal. lia.
    + intros m Hm E. apply sent_by_sender in Hm. apply Hd. rewrite <- Hm, E. apply nth_error_In in Hj. apply (in_map fst) in Hj. exact Hj.
Qed.
Lemma replies_senders t r hs m : In m (flat_map snd (map (reply t r) hs)) -> In (msg_sender m) (map (fun h => fst (fst h)) hs).
Proof.
  intros H. apply in_flat_map in H as (x & Hx & H). apply in_map_iff in Hx as ([[u ss] f] & <- & Hh). unfold reply in H. cbn [snd] in H.
  destruct (Nat.eqb _ _); [contradiction|]. destruct H as [<-|[]]. cbn [msg_sender]. apply (in_map (fun h => fst (fst h))) in Hh. exact Hh.
Qed.
Lemma replies_from t r u ss f : forall hs, NoDup (map (fun h => fst (fst h)) hs) -> In (u, ss, f) hs ->
  filter (from u) (flat_map snd (map (reply t r) hs)) =
  (let d := f t (received 0 ss r) in if Nat.eqb (length d) 0 then [] else [SpikeMsg u (N.of_nat (S t) mod two64) d]).
Proof.
  induction hs as [|h hs IH]; intros Hn Hin; [contradiction|]. cbn [map flat_map] in *. apply NoDup_cons_iff in Hn as [Hd Hn]. rewrite filter_app.
  destruct Hin as [-> |Hin].
  - cbn [fst] in Hd. rewrite (from_nobody u (flat_map snd (map (reply t r) hs))).
    + rewrite app_nil_r. unfold reply. cbv zeta. cbn [snd]. destruct (Nat.eqb _ _); [reflexivity|]. apply from_all. intros m [<-|[]]. reflexivity.
    + intros m Hm E. apply Hd. rewrite <- E. eapply replies_senders; eauto.
  - rewrite (IH Hn Hin). rewrite from_nobody; [reflexivity|]. intros m Hm E. destruct h as [[v vs] vf]. unfold reply in Hm. cbn [snd fst] in *.
    match type of Hm with context [Nat.eqb ?a 0] => destruct (Nat.eqb a 0) end; [contradiction|]. destruct Hm as [<-|[]]. cbn [msg_sender] in E. subst v. apply Hd.
    apply (in_map (fun h => fst (fst h))) in Hin. exact Hin.
Qed.
Lemma spikes_senders us step l m : pop_spikes us step l -> In m l -> In (msg_sender m) us /\ msg_type m = 0 /\ msg_time m = step.
Proof. intros H Hm. unfold pop_spikes in H. rewrite Forall_forall in H. destruct (H m Hm) as (u & idx & Hu & ->). auto. Qed.

(** ** Steps of an interval *)
Lemma slice {A} (F : A -> list message) a b : forall (l : list A) s,
  (forall t x, nth_error l t = Some x -> Forall (fun m => msg_time m = N.of_nat (s + t)) (F x)) ->
  filter (in_interval (N.of_nat a) (N.of_nat b)) (flat_map F l) = flat_map F (firstn (S b - s - (a - s)) (skipn (a - s) l)).
Proof.
  induction l as [|x l IH]; intros s H; cbn [flat_map].
  - rewrite skipn_nil, firstn_nil. reflexivity.
  - rewrite filter_app, (IH (S s)) by (intros t y Hy; replace (S s + t) with (s + S t) by lia; now apply H).
    pose proof (H 0 x eq_refl) as H0. rewrite Nat.add_0_r in H0. rewrite Forall_forall in H0.
    destruct (Nat.lt_ge_cases s a) as [Ha|Ha].
    + replace (a - s) with (S (a - S s)) by lia. cbn [skipn]. rewrite Framework_Proofs.filter_none.
      * cbn [app]. do 2 f_equal. lia.
      * intros m Hm. unfold in_interval. rewrite (H0 m Hm). apply andb_false_iff. left. apply N.leb_gt. lia.
    + replace (a - s) with 0 by lia. replace (a - S s) with 0 by lia. cbn [skipn]. rewrite !Nat.sub_0_r. destruct (Nat.le_gt_cases s b) as [Hb|Hb].
      * replace (S b - s) with (S (S b - S s)) by lia. cbn [firstn flat_map]. f_equal. apply Framework_Proofs.filter_all.
        intros m Hm. unfold in_interval. rewrite (H0 m Hm). apply andb_true_iff. split; apply N.leb_le; lia.
      * replace (S b - s) with 0 by lia. replace (S b - S s) with 0 by lia. cbn [firstn flat_map]. rewrite app_nil_r. apply Framework_Proofs.filter_none.
        intros m Hm. unfold in_interval. rewrite (H0 m Hm). apply andb_false_iff. right. apply N.leb_gt. lia.
Qed.
Lemma slices_sorted {A} (F : A -> list message) : forall (l : list A) s,
  (forall t x, nth_error l t = Some x -> Forall (fun m => msg_time m = N.of_nat (s + t)) (F x)) -> StronglySorted earlier (flat_map F l).
Proof.
  induction l as [|x l IH]; intros s H; cbn [flat_map]; [constructor|].
  assert (I : StronglySorted earlier (flat_map F l)) by (apply (IH (S s)); intros t y Hy; replace (S s + t) with (s + S t) by lia; now apply H).
  pose proof (H 0 x eq_refl) as H0. rewrite Nat.add_0_r in H0.
  assert (Hall : Forall (fun m => (N.of_nat s <= msg_time m)%N) (flat_map F l)).
  { apply Forall_forall. intros m Hm. apply in_flat_map in Hm as (y & Hy & Hm). apply In_nth_error in Hy as [t Ht].
    pose proof (H (S t) y Ht) as Q. rewrite Forall_forall in Q. rewrite (Q m Hm). lia. }
  induction (F x) as [|m ms IHm]; cbn [app]; [exact I|]. apply Forall_cons_iff in H0 as [E H0]. constructor; [auto|]. apply Forall_app. split.
  - eapply Forall_impl; [|exact H0]. intros m' E'. unfold earlier. cbn beta in E'. rewrite E, E'. lia.
  - eapply Forall_impl; [|exact Hall]. intros m' E'. unfold earlier. cbn beta in E'. rewrite E. exact E'.
Qed.
