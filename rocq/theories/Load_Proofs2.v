(** Projections that are loaded after the first start. *)
From Verif Require Import Base ListLemmas Messaging_Model Messaging_Spec Messaging_Proofs Messaging_Proofs2 Projection_Model
  Delta_Model Delta_Spec Neuron_Model Pipeline_Model Pipeline_Spec Pipeline_Proofs Pipeline_Proofs2 Stdp_Model Additive_Model Train_Model
  Net_Model Net_Spec Net_Proofs Net_Proofs2 Net_Proofs3 Net_Proofs4 Load_Model Load_Spec Load_Proofs.

Definition shape (w : nproj) : uid * queue := (np_uid w, np_queue w).
Lemma put_back_shape u : forall l ps, map shape (put_back u l ps) = map shape l.
Proof.
  induction l as [|w l IH]; intros ps; cbn [put_back map]; [reflexivity|]. destruct (working u w) eqn:E; [destruct ps|]; cbn [map]; rewrite IH; try reflexivity.
  f_equal. unfold set_rproj. destruct (np_kind w); reflexivity.
Qed.
Lemma npop_step_shape pow2f u step ms a projs a' projs' o : npop_step pow2f u step ms a projs = Ret (a', projs', o) -> map shape projs' = map shape projs.
Proof.
  unfold npop_step, stdp_train. destruct a as [a|l|l].
  - destruct (apop_step u step ms a) as [[x y]| |]; cbn [obind]; intros H; try discriminate. now injection H as _ <- _.
  - destruct (stdp_front _ _ _ _ _) as [[x y]| |]; cbn [obind fst snd]; try discriminate.
    destruct (train_f _ _ _ _) as [[v w]| |]; cbn [obind fst snd]; intros H; try discriminate. injection H as _ <- _. apply put_back_shape.
  - destruct (stdp_front _ _ _ _ _) as [[x y]| |]; cbn [obind fst snd]; try discriminate.
    destruct (train_f _ _ _ _) as [[v w]| |]; cbn [obind fst snd]; intros H; try discriminate. injection H as _ <- _. apply put_back_shape.
Qed.
(** A projection without input and with an empty queue. *)
Lemma idle_step expf step w w' o : np_queue w = [] -> nproj_step expf step [] w = Ret (w', o) ->
  o = None /\ np_queue w' = [] /\ np_uid w' = np_uid w.
Proof.
  intros Hq. unfold nproj_step. rewrite Hq. destruct (np_kind w) as [p|l p|l p].
  - cbn. intros H. injection H as <- <-. auto.
  - unfold additive_step, init_projection. cbn.
    intros H. injection H as <- <-. auto.
  - cbn. intros H. injection H as <- <-. auto.
Qed.
Section Late.
Variables pow2f expf : flt -> flt.
Variable S_ : nat -> uid -> option (list uid).
Variable u : uid.
Hypothesis Hu : sender_list (S_ 0 u) = [].
Definition deaf (b : bus) : Prop := good S_ b /\ waiting b 0 u = [].
Lemma deaf_route b b' : deaf b -> route_receive_own b = Ret b' -> deaf b'.
Proof.
  intros [G W] H. destruct (route_good S_ b G) as (b1 & E & G1 & _ & _ & _ & R). rewrite E in H. injection H as <-. split; [exact G1|].
  rewrite R, W, Hu. cbn [app]. clear R. induction (pending b) as [|m l IH]; cbn [filter]; [reflexivity|]. replace (wanted 0 [] m) with false; [exact IH|]. unfold wanted. cbn [mem existsb]. now rewrite andb_false_r.
Qed.
Lemma deaf_unload b ty r b' ms : deaf b -> unload_own b ty r = Ret (b', ms) -> deaf b' /\ ms = waiting b ty r.
Proof.
  intros [G W] H. destruct (unload_good S_ b ty r G) as (b1 & E & G1 & R & _). rewrite E in H. injection H as <- <-. split; [|reflexivity].
  split; [exact G1|]. rewrite R. destruct (key_eqb _ _); auto.
Qed.
Lemma deaf_send b o b' : deaf b -> send_own b o = Ret b' -> deaf b'.
Proof. intros [G W] H. destruct (send_good S_ b o G) as (b1 & E & G1 & _ & R & _). rewrite E in H. injection H as <-. split; [exact G1|]. now rewrite R. Qed.
Lemma deaf_pops step : forall pops projs b pops' projs' b' ins outs, deaf b ->
  npops_phase pow2f step pops projs b = Ret (pops', projs', b', ins, outs) -> deaf b' /\ map shape projs' = map shape projs.
Proof.
  induction pops as [|[v a] t IH]; intros projs b pops' projs' b' ins outs D H; cbn [npops_phase] in H; [injection H as <- <- <- <- <-; auto|].
  destruct (unload_own b 1 v) as [[b1 ms]| |] eqn:E1; cbn [obind fst snd] in H; try discriminate.
  destruct (npop_step pow2f v step ms a projs) as [[[a' projs1] o]| |] eqn:E2; cbn [obind fst snd] in H; try discriminate.
  destruct (send_own b1 o) as [b2| |] eqn:E3; cbn [obind fst snd] in H; try discriminate.
  destruct (npops_phase pow2f step t projs1 b2) as [[[[[t' projs2] b3] i2] o2]| |] eqn:E4; cbn [obind fst snd] in H; try discriminate.
  injection H as <- <- <- <- <-. destruct (IH _ _ _ _ _ _ _ (deaf_send _ _ _ (proj1 (deaf_unload _ _ _ _ _ D E1)) E3) E4) as [H1 H2].
  split; [exact H1|]. rewrite H2. eapply npop_step_shape; eauto.
Qed.
(** What holds of every projection with the identifier [u]. *)
Definition idle (l : list nproj) : Prop := forall w, In w l -> np_uid w = u -> np_queue w = [].
Lemma idle_shape l l' : map shape l' = map shape l -> idle l -> idle l'.
Proof.
  intros E H w Hw Huw. apply (in_map shape) in Hw. rewrite E in Hw. apply in_map_iff in Hw as (x & Ex & Hx). unfold shape in Ex.
  injection Ex as E1 E2. rewrite <- E2. apply H; congruence.
Qed.
Lemma deaf_projs step : forall projs b projs' b' ins outs, deaf b -> idle projs ->
  nprojs_phase expf step projs b = Ret (projs', b', ins, outs) -> deaf b' /\ idle projs' /\
  forall j w, nth_error projs j = Some w -> np_uid w = u -> nth_error ins j = Some [] /\ nth_error outs j = Some None.
Proof.
  induction projs as [|w t IH]; intros b projs' b' ins outs D I H; cbn [nprojs_phase] in H.
  { injection H as <- <- <- <-. split; [exact D|]. split; [exact I|]. intros [|j]; discriminate. }
  destruct (unload_own b 0 (np_uid w)) as [[b1 ms]| |] eqn:E1; cbn [obind fst snd] in H; try discriminate.
  destruct (nproj_step expf step ms w) as [[w' o]| |] eqn:E2; cbn [obind fst snd] in H; try discriminate.
  destruct (send_own b1 o) as [b2| |] eqn:E3; cbn [obind fst snd] in H; try discriminate.
  destruct (nprojs_phase expf step t b2) as [[[[t' b3] i2] o2]| |] eqn:E4; cbn [obind fst snd] in H; try discriminate.
  injection H as <- <- <- <-. destruct (deaf_unload _ _ _ _ _ D E1) as [D1 Ems].
  destruct (IH _ _ _ _ _ (deaf_send _ _ _ D1 E3) (fun x Hx => I x (or_intror Hx)) E4) as (H1 & H2 & H3). split; [exact H1|].
  assert (Hw : np_uid w = u -> ms = [] /\ o = None /\ np_queue w' = []).
  { intros Ew. rewrite Ew in Ems. destruct D as [_ W]. rewrite W in Ems. subst ms. split; [reflexivity|].
    destruct (idle_step _ _ _ _ _ (I w (or_introl eq_refl) Ew) E2) as (X1 & X2 & _). auto. }
  assert (Hu' : np_uid w' = np_uid w).
  { revert E2. unfold nproj_step. destruct (np_kind w) as [p|l p|l p].
    - destruct (calculate_projection _ _ _ _ _) as [[[x y] z]| |]; cbn [obind]; intros X; try discriminate. injection X as <- _. reflexivity.
    - destruct (additive_step _ _ _ _ _ _ _) as [[[x y] z]| |]; cbn [obind]; intros X; try discriminate. injection X as <- _. reflexivity.
    - destruct (resource_step _ _ _ _ _) as [[[x y] z]| |]; cbn [obind]; intros X; try discriminate. injection X as <- _. reflexivity. }
  split.
  - intros x [<-|Hx] Ex; [|now apply H2]. apply Hw. congruence.
  - intros [|j] x Hj Ex; cbn [nth_error] in *; [|eauto]. injection Hj as <-. destruct (Hw Ex) as (-> & -> & _). auto.
Qed.
(** What a record says of the projections called [u]. *)
Definition unheard (r : nrecord) : Prop := forall j w, nth_error (nr_projs r) j = Some w -> np_uid w = u ->
  nth_error (r_proj_in (nr_msgs r)) j = Some [] /\ nth_error (r_proj_out (nr_msgs r)) j = Some None.
Lemma shape_nth l l' j w : map shape l' = map shape l -> nth_error l j = Some w -> exists w', nth_error l' j = Some w' /\ np_uid w' = np_uid w.
Proof.
  intros E Hj. apply (f_equal (fun x => nth_error x j)) in E. rewrite !nth_error_map, Hj in E. cbn [option_map] in E.
  destruct (nth_error l' j) as [w'|]; [|discriminate]. exists w'. split; [reflexivity|]. cbn [option_map] in E. injection E as E _. exact E.
Qed.
Lemma deaf_step ext k k' r : deaf (nb_bus k) -> idle (nb_projs k) -> nbackend_step pow2f expf ext k = Ret (k', r) ->
  deaf (nb_bus k') /\ idle (nb_projs k') /\ unheard r.
Proof.
  intros D I H. unfold nbackend_step in H.
  destruct (route_receive_own (nb_bus k)) as [b1| |] eqn:E1; cbn [obind] in H; try discriminate.
  destruct (npops_phase pow2f (nb_step k) (nb_pops k) (nb_projs k) b1) as [[[[[pops projs1] b2] pin] pout]| |] eqn:E2; cbn [obind] in H; try discriminate.
  destruct (route_receive_own b2) as [b3| |] eqn:E3; cbn [obind] in H; try discriminate.
  destruct (nprojs_phase expf (nb_step k) projs1 b3) as [[[[projs b4] jin] jout]| |] eqn:E4; cbn [obind] in H; try discriminate.
  destruct (route_receive_own b4) as [b5| |] eqn:E5; cbn [obind] in H; try discriminate. injection H as <- <-.
  cbn [nb_bus nb_projs nr_projs nr_msgs r_proj_in r_proj_out].
  destruct (deaf_pops _ _ _ _ _ _ _ _ _ (deaf_route _ _ D E1) E2) as [D2 Sh].
  destruct (deaf_projs _ _ _ _ _ _ _ (deaf_route _ _ D2 E3) (idle_shape _ _ Sh I) E4) as (D4 & I4 & U4).
  split; [exact (deaf_route _ _ D4 E5)|]. split; [exact I4|]. intros j w Hj Ew. cbn [nr_projs] in Hj.
  destruct (shape_nth _ _ _ _ Sh Hj) as (w' & Hj' & Ew'). apply (U4 j w'); congruence.
Qed.
Lemma learn_all_shape bs l : map shape (learn_all bs l) = map shape l.
Proof.
  pose proof (learn_all_spec (fun w w' => shape w' = shape w) (fun w => eq_refl) (fun w w' b H => H) bs l) as H. induction H; cbn [map]; congruence.
Qed.
Lemma deaf_run : forall turns k k' tr, deaf (nb_bus k) -> idle (nb_projs k) -> Forall (fun t => forallb outside (tu_ops t) = true) turns ->
  nbackend_run pow2f expf turns k = Ret (k', tr) -> deaf (nb_bus k') /\ idle (nb_projs k') /\ Forall unheard tr.
Proof.
  induction turns as [|t turns IH]; intros k k' tr D I Hf H; cbn [nbackend_run] in H; [injection H as <- <-; auto|].
  apply Forall_cons_iff in Hf as [Ho Hf]. destruct (run (nb_bus k) (tu_ops t)) as [[b x]| |] eqn:R; cbn [obind fst snd] in H; try discriminate.
  destruct (nbackend_step pow2f expf _ _) as [[k1 r]| |] eqn:E; cbn [obind fst snd] in H; try discriminate.
  destruct (nbackend_run pow2f expf turns k1) as [[k2 tr2]| |] eqn:E2; cbn [obind fst snd] in H; try discriminate. injection H as <- <-.
  destruct D as [G W]. destruct (outside_run S_ _ _ _ _ G Ho R) as (G' & W' & _).
  assert (D0 : deaf (nb_bus (mkNB b (nb_pops k) (learn_all (tu_learn t) (nb_projs k)) (nb_step k)))) by (split; [exact G'|exact (eq_trans (W' 0 u) W)]).
  assert (I0 : idle (nb_projs (mkNB b (nb_pops k) (learn_all (tu_learn t) (nb_projs k)) (nb_step k)))) by (exact (idle_shape _ _ (learn_all_shape (tu_learn t) (nb_projs k)) I)).
  destruct (deaf_step _ _ _ _ D0 I0 E) as (D1 & I1 & U).
  destruct (IH _ _ _ D1 I1 Hf E2) as (H1 & H2 & H3). auto.
Qed.
Lemma deaf_life : forall ss l l' tr, deaf (nb_bus (lf_net l)) -> idle (nb_projs (lf_net l)) -> lf_init l = true -> Forall settled ss ->
  life_run pow2f expf l ss = Ret (l', tr) -> deaf (nb_bus (lf_net l')) /\ idle (nb_projs (lf_net l')) /\ Forall unheard tr.
Proof.
  assert (Wr : forall l, idle (map wrapped l)).
  { intros l w Hw _. apply in_map_iff in Hw as (x & <- & _). reflexivity. }
  induction ss as [|s ss IH]; intros l l' tr D I Hi Hf H; cbn [life_run] in H; [injection H as <- <-; auto|].
  apply Forall_cons_iff in Hf as [Hs Hf]. destruct (life_stage pow2f expf l s) as [[l1 t1]| |] eqn:E; cbn [obind fst snd] in H; try discriminate.
  destruct (life_run pow2f expf l1 ss) as [[l2 t2]| |] eqn:E2; cbn [obind fst snd] in H; try discriminate. injection H as <- <-.
  destruct s as [x|p q| |turns]; try easy; cbn [life_stage settled] in *.
  - injection E as <- <-. exact (IH (mkLife (mkNB (nb_bus (lf_net l)) p (map wrapped q) (nb_step (lf_net l))) (lf_init l)) _ _ D (Wr q) Hi Hf E2).
  - injection E as <- <-. exact (IH (mkLife (mkNB (nb_bus (lf_net l)) (nb_pops (lf_net l)) (map wrapped (nb_projs (lf_net l))) (nb_step (lf_net l))) (lf_init l)) _ _ D (Wr _) Hi Hf E2).
  - rewrite Hi in E. cbn [obind] in E. destruct (nbackend_run pow2f expf turns (lf_net l)) as [[k r]| |] eqn:N; cbn [obind fst snd] in E; try discriminate.
    injection E as <- <-. destruct (deaf_run _ _ _ _ D I Hs N) as (D1 & I1 & U1). destruct (IH (mkLife k true) _ _ D1 I1 eq_refl Hf E2) as (H1 & H2 & H3).
    split; [exact H1|]. split; [exact H2|]. apply Forall_app. auto.
Qed.
End Late.
Lemma run_turns_app pow2f expf : forall t1 t2 k, nbackend_run pow2f expf (t1 ++ t2) k =
  obind (nbackend_run pow2f expf t1 k) (fun x => obind (nbackend_run pow2f expf t2 (fst x)) (fun y => Ret (fst y, snd x ++ snd y))).
Proof.
  induction t1 as [|u t1 IH]; intros t2 k; cbn [app nbackend_run obind fst snd].
  - destruct (nbackend_run pow2f expf t2 k) as [[a b]| |]; reflexivity.
  - destruct (run (nb_bus k) (tu_ops u)) as [[b x]| |]; cbn [obind fst snd]; try reflexivity.
    destruct (nbackend_step pow2f expf _ _) as [[k1 r]| |]; cbn [obind fst snd]; try reflexivity. rewrite IH.
    destruct (nbackend_run pow2f expf t1 k1) as [[k2 r2]| |]; cbn [obind fst snd]; try reflexivity.
    destruct (nbackend_run pow2f expf t2 k2) as [[k3 r3]| |]; reflexivity.
Qed.
