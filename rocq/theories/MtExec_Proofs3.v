(** What comes from whom in a run of the executor on the multi-threaded backend. *)
From Verif Require Import Base ListLemmas Messaging_Model Messaging_Spec Messaging_Proofs Messaging_Proofs2 Neuron_Model
  Pipeline_Model Pipeline_Spec Pipeline_Proofs Pipeline_Proofs2 Stdp_Model Additive_Model Train_Model Net_Model Net_Spec Net_Proofs Net_Proofs2 Net_Proofs3 Net_Proofs4 Net_Proofs5
  Mt_Model Mt_Spec Mt_Proofs Mt_Proofs2 Sched_Model MtNet_Model MtNet_Spec MtNet_Proofs MtNet_Proofs2
  Framework_Model Exec_Model Exec_Spec Exec_Proofs Exec_Proofs2 Exec_Proofs3 Exec_Proofs4 Exec_Proofs5 Exec_Proofs6 MtExec_Model MtExec_Spec MtExec_Proofs MtExec_Proofs2.

Lemma jobs_sent step jobs : pop_spikes (map jb_uid jobs) step (sent_msgs (map (job_message step) jobs)).
Proof.
  unfold pop_spikes. enough (G : forall us, incl (map jb_uid jobs) us -> Forall (fun m => exists u idx, In u us /\ m = SpikeMsg u step idx) (sent_msgs (map (job_message step) jobs))) by (apply G, incl_refl).
  induction jobs as [|jb jobs IH]; intros us Hi; cbn [map]; [constructor|]. rewrite sent_msgs_cons. apply Forall_app. split.
  - pose proof (spike_message_of (jb_uid jb) step (jb_fired jb)) as H. unfold job_message. destruct (spike_message _ _ _) as [m|]; [|constructor].
    destruct H as [idx ->]. repeat constructor. exists (jb_uid jb), idx. split; [apply Hi; now left|reflexivity].
  - apply IH. intros v Hv. apply Hi. now right.
Qed.
Lemma mt_nprojs_out step : forall projs ins os res, Forall nproj_ok projs -> Forall loadable projs ->
  mt_nprojs step ins os projs = Ret res -> impact_only (sent_msgs (snd res)).
Proof.
  induction projs as [|w projs IH]; intros ins os res Hk Hl H; cbn [mt_nprojs] in H; [destruct ins, os; injection H as <-; constructor|].
  destruct ins as [|ms ins]; [injection H as <-; constructor|]. destruct os as [|o os]; [injection H as <-; constructor|].
  cbn [mt_nprojs] in H.   apply Forall_cons_iff in Hk as [Hk1 Hk]. apply Forall_cons_iff in Hl as [Hl1 Hl].
  destruct (mt_nproj_spec step ms o w Hk1 Hl1) as (w' & m & E & _ & _ & HI & _). rewrite E in H. cbn [obind fst snd] in H.
  destruct (mt_nprojs step ins os projs) as [z| |] eqn:Ez; cbn [obind fst snd] in H; try discriminate. injection H as <-. cbn [snd].
  rewrite sent_msgs_cons. apply Forall_app. split; [exact HI|]. eapply IH; eauto.
Qed.
Lemma mt_nstep_out pow2f s ext k k' r : mt_nbackend_step pow2f s ext k = Ret (k', r) ->
  pop_spikes (map fst (nr_pops' r)) (nb_step k) (sent_msgs (r_pop_out (nr_msgs r))) /\
  (Forall nproj_ok (nr_trained r) -> Forall loadable (nr_trained r) -> impact_only (sent_msgs (r_proj_out (nr_msgs r)))) /\
  nb_step k' = add64 (nb_step k) 1.
Proof.
  intros H. unfold mt_nbackend_step in H.
  destruct (unload_all 1 _ _) as [x| |]; cbn [obind] in H; try discriminate. destruct (mt_fronts _ _ _ _) as [jobs| |]; cbn [obind] in H; try discriminate.
  destruct (train_at _ _ _ _ _) as [[jobs2 projs1]| |]; cbn [obind fst snd] in H; try discriminate.
  destruct (send_all _ _) as [b1| |]; cbn [obind] in H; try discriminate. destruct (route_receive_own b1) as [b2| |]; cbn [obind] in H; try discriminate.
  destruct (unload_all 0 _ _) as [z| |]; cbn [obind] in H; try discriminate.
  destruct (mt_nprojs _ _ _ _) as [v| |] eqn:Ev; cbn [obind] in H; try discriminate.
  destruct (send_all (snd v) _) as [b3| |]; cbn [obind] in H; try discriminate. destruct (route_receive_own b3) as [b4| |]; cbn [obind] in H; try discriminate.
  injection H as <- <-. cbn [nr_msgs r_pop_out r_proj_out nr_pops' nr_trained nb_step]. split; [|split; [|reflexivity]].
  - rewrite map_map. cbn [fst]. apply jobs_sent.
  - intros Hk Hl. exact (mt_nprojs_out _ _ _ _ _ Hk Hl Ev).
Qed.
Lemma mt_run_out pow2f : forall turns k k' tr, mt_nbackend_run pow2f turns k = Ret (k', tr) -> (nb_step k < two64)%N ->
  forall t r, nth_error tr t = Some r ->
    pop_spikes (map fst (nr_pops' r)) ((nb_step k + N.of_nat t) mod two64) (sent_msgs (r_pop_out (nr_msgs r))) /\
    (Forall nproj_ok (nr_trained r) -> Forall loadable (nr_trained r) -> impact_only (sent_msgs (r_proj_out (nr_msgs r)))).
Proof.
  induction turns as [|[u s] turns IH]; intros k k' tr H Hlt t r Ht; cbn [mt_nbackend_run] in H.
  - injection H as _ <-. destruct t; discriminate.
  - destruct (run (nb_bus k) (tu_ops u)) as [[b trb]| |]; cbn [obind fst] in H; try discriminate.
    destruct (mt_nbackend_step pow2f s (pending b) _) as [[k1 r1]| |] eqn:E; cbn [obind fst snd] in H; try discriminate.
    destruct (mt_nbackend_run pow2f turns k1) as [[k2 tr1]| |] eqn:E2; cbn [obind fst snd] in H; try discriminate. injection H as _ <-.
    destruct (mt_nstep_out _ _ _ _ _ _ E) as (E0 & E0' & E1). cbn [nb_step] in E0, E1. destruct t as [|t]; cbn [nth_error] in Ht.
    + injection Ht as <-. split; [|exact E0']. cbn [N.of_nat]. rewrite N.add_0_r, N.mod_small by exact Hlt. exact E0.
    + assert (Hlt1 : (nb_step k1 < two64)%N) by (rewrite E1; unfold add64, w64; apply N.mod_lt; discriminate).
      destruct (IH _ _ _ E2 Hlt1 t r Ht) as [I1 I2]. split; [|exact I2].
      replace ((nb_step k + N.of_nat (S t)) mod two64)%N with ((nb_step k1 + N.of_nat t) mod two64)%N; [exact I1|].
      rewrite E1. unfold add64, w64. rewrite N.add_mod_idemp_l by discriminate. f_equal. lia.
Qed.

Lemma mt_ran_facts pow2f gens ins outs calls pops projs pp pj turns x recs : sound_network pops projs -> Forall loadable projs -> (0 < pp < two64)%N ->
  schedules_ok pp pj pops projs turns -> mt_executor_ran pow2f gens ins outs calls pops projs turns x recs ->
  exists turns' k, Forall (fun c => forallb outside (tu_ops (fst c)) = true /\ nsched_ok pp pj pops projs (snd c)) turns' /\
    map snd turns' = step_schedules turns /\
    map (fun c => tu_learn (fst c)) turns' = map (flat_map xt_learn) (rounds [] (map fst turns)) /\
    mt_net_run pow2f (connections ins calls) pops projs turns' k (map xr_net recs) /\
    nb_pops (x_net x) = nb_pops k /\ nb_projs (x_net x) = learn_all (flat_map xt_learn (unfinished [] (map fst turns))) (nb_projs k) /\
    length recs = length (rounds [] (map fst turns)) /\
    (forall t rec g, nth_error recs t = Some rec -> nth_error (rounds [] (map fst turns)) t = Some g ->
      r_ext (nr_msgs (xr_net rec)) = inputs_for (N.of_nat t mod two64) 0 ins g ++ handled_before recs t /\
      xr_out rec = map (fun c => received 0 (snd c) (nr_msgs (xr_net rec))) outs /\
      xr_handled rec = map (reply t (nr_msgs (xr_net rec))) (handlers calls) /\
      xr_observed rec = map (fun o => received (fst o) (snd o) (nr_msgs (xr_net rec))) (observers calls) /\
      pop_spikes (map fst pops) (N.of_nat t mod two64) (sent_msgs (r_pop_out (nr_msgs (xr_net rec)))) /\
      impact_only (sent_msgs (r_proj_out (nr_msgs (xr_net rec))))) /\
    length (x_buffers x) = length outs /\
    (forall j, j < length outs -> nth_error (x_buffers x) j = Some (flat_map (fun r => nth j (xr_out r) []) recs)) /\
    x_done x = length recs.
Proof.
  intros Hs Hl Hpp Hsch (x0 & Hi & Hr).
  assert (Hg : forallb (fun c => mem (fst c) gens) ins = true).
  { destruct (forallb (fun c => mem (fst c) gens) ins) eqn:E; [reflexivity|]. unfold executor_init in Hi. rewrite gen_inputs_throw in Hi by exact E. discriminate. }
  destruct (set_up gens ins outs calls pops projs Hg Hs) as (y0 & k0 & e0 & ops & tr & Ei & Ek & F & E & L & T & P & J & S_ & B & D).
  rewrite Hi in Ei. injection Ei as <-.
  destruct (mt_init_ready (connections ins calls) pops projs Hs Hl) as (k1 & Ek1 & K1 & K2 & K3 & R). rewrite Ek in Ek1. injection Ek1 as <-.
  assert (X : mt_xinv ins outs calls projs (map fst pops) pops [] [] [] x0 k0).
  { split; [|exact R]. split; [apply R|now exists ops, tr|congruence|unfold learn_all; cbn [flat_map fold_left]; congruence|congruence|exact T|].
    exists none, e0. split; [exact L|]. split; [reflexivity|]. split; [reflexivity|]. now apply sends_nil. }
  assert (Hlt : (nb_step k0 < two64)%N) by (rewrite K3; reflexivity).
  destruct (mt_xrun pow2f ins outs calls projs (map fst pops) pops pp pj (sn_projs _ _ Hs) (sn_pops _ _ Hs) Hpp turns [] [] [] x0 k0 x recs X Hlt Hsch Hr)
    as (turns' & k' & I1 & I1' & I2 & I3 & I4 & I5 & I6 & I7 & prev' & h' & [X' MR']).
  assert (Hn : mt_net_run pow2f (connections ins calls) pops projs turns' k' (map xr_net recs)) by (exists k0; auto).
  exists turns', k'. split; [exact I1|]. split; [exact I1'|]. split; [exact I2|]. split; [exact Hn|]. split; [apply (xi_pops _ _ _ _ _ _ _ _ _ _ X')|].
  split; [apply (xi_projs _ _ _ _ _ _ _ _ _ _ X')|]. split; [exact I4|]. split; [|split; [|split]].
  - intros t rec g Ht Hgt. destruct (I5 t rec g Ht Hgt) as (J1 & J2 & J3 & J4). rewrite K3, N.add_0_l in J1. rewrite K3, N.add_0_l, D in J3.
    assert (Ht' : nth_error (map xr_net recs) t = Some (xr_net rec)) by (rewrite nth_error_map, Ht; reflexivity).
    destruct (mt_run_out _ _ _ _ _ I3 Hlt t _ Ht') as [O1 O2]. rewrite K3, N.add_0_l in O1.
    destruct (mt_net_run_facts _ _ _ _ _ _ _ _ _ Hs Hl Hpp I1 Hn) as (LL & FF & _).
    destruct (nth_error turns' t) as [u|] eqn:Hu.
    2:{ exfalso. apply nth_error_None in Hu. assert (nth_error (map xr_net recs) t <> None) as Hx by congruence. apply nth_error_Some in Hx. lia. }
    destruct (FF t _ u Ht' Hu) as (SF & _). rewrite (mf_us' _ _ _ _ _ _ _ _ _ SF) in O1.
    split; [rewrite J1; f_equal; now destruct t|]. split; [exact J2|]. split; [|split; [exact J4|split; [exact O1|apply O2; [apply (mf_ok1 _ _ _ _ _ _ _ _ _ SF)|apply (mf_load1 _ _ _ _ _ _ _ _ _ SF)]]]].
    rewrite J3. apply map_ext. intros h. apply answer_reply.
  - destruct I6 as [Q _]; [rewrite B; apply map_length|exact Q].
  - intros j Hj. destruct I6 as [_ Q]; [rewrite B; apply map_length|]. apply (Q j []). rewrite B, nth_error_map.
    destruct (nth_error outs j) eqn:Ej; [reflexivity|]. apply nth_error_None in Ej. lia.
  - rewrite I7, D. reflexivity.
Qed.
