(** The multi-threaded backend against single-threaded runs of its parts. *)
From Verif Require Import Base ListLemmas Messaging_Model Messaging_Spec Messaging_Proofs Messaging_Proofs2
  Projection_Model Projection_Spec Delta_Model Delta_Spec Delta_Proofs Delta_Proofs2 Neuron_Model Props_Neuron Pipeline_Model Pipeline_Spec
  Pipeline_Proofs Pipeline_Proofs2 Mt_Model Mt_Spec Mt_Proofs.

Lemma population_step_length {A} (pre : A -> A) imp post u step ms ns ns' m o : (N.of_nat (length ns) <= two32)%N ->
  population_step pre imp post u step ms ns = Ret (ns', m, o) -> length ns' = length ns.
Proof.
  intros Hn H. apply (c37_population_step pre imp post u step ms ns Hn) in H as (_ & rs & idx & L & _ & -> & _).
  now rewrite map_length.
Qed.
Lemma population_step_distinct {A} (pre : A -> A) imp post u step ms ns ns' m o : (N.of_nat (length ns) <= two32)%N ->
  population_step pre imp post u step ms ns = Ret (ns', m, o) -> distinct_spikes m.
Proof.
  intros Hn H. apply (c37_population_step pre imp post u step ms ns Hn) in H as (_ & rs & idx & L & _ & _ & Hs & _ & -> & _).
  cbn [distinct_spikes]. apply FinFun.Injective_map_NoDup; [intros x y; lia|].
  clear -Hs. induction Hs as [|x l Hs IH Hf]; constructor; auto. intros Hin. rewrite Forall_forall in Hf. specialize (Hf x Hin). lia.
Qed.
Lemma apop_step_size u step ms a a' o : (apop_size a <= two32)%N -> apop_step u step ms a = Ret (a', o) ->
  apop_size a' = apop_size a.
Proof.
  unfold apop_step. destruct a; cbn [apop_size]; intros Hn H;
  match type of H with obind ?e _ = _ => destruct e as [[[x y] z]| |] eqn:E end; cbn [obind fst snd] in H; try discriminate;
  injection H as <- <-; cbn [apop_size]; f_equal; eapply population_step_length; eauto.
Qed.
Lemma apop_step_distinct u step ms a a' m : (apop_size a <= two32)%N -> apop_step u step ms a = Ret (a', Some m) ->
  distinct_spikes m.
Proof.
  unfold apop_step. destruct a; cbn [apop_size]; intros Hn H;
  match type of H with obind ?e _ = _ => destruct e as [[[x y] z]| |] eqn:E end; cbn [obind fst snd] in H; try discriminate;
  injection H as _ ->; pose proof (population_step_distinct _ _ _ _ _ _ _ _ _ _ Hn E) as D;
  apply (c37_population_step _ _ _ _ _ _ _ Hn) in E as (_ & rs & idx & _ & _ & _ & _ & _ & -> & Hs);
  (destruct idx; [discriminate|injection Hs as ->; exact D]).
Qed.

Lemma mt_apop_step_same pp u step ms o a : (0 < pp < two64)%N -> (apop_size a <= two32)%N ->
  any_order pp (apop_size a) (fst o) -> any_order pp (apop_size a) (snd o) ->
  match apop_step u step ms a, mt_apop_step u step ms o a with
  | Ret (a1, m1), Ret (a2, m2) => a1 = a2 /\ same_spikes m1 m2
  | Throw, Throw => True
  | UB, UB => True
  | _, _ => False
  end.
Proof.
  intros Hp Hn (ps & fuel & E1 & P1) (ps' & fuel' & E2 & P2).
  assert (Hps : ps' = ps).
  { pose proof (parts_fuel _ pp fuel (fuel + fuel') 0 ps E1 ltac:(lia)) as H1.
    pose proof (parts_fuel _ pp fuel' (fuel + fuel') 0 ps' E2 ltac:(lia)) as H2. congruence. }
  subst ps'.
  destruct a as [l|l|l]; cbn [apop_size] in *; unfold apop_step, mt_apop_step.
  - pose proof (c37_population_step_mt (lift_pre lif_pre) (lift_imp lif_impact) (lift_post lif_post) u step ms l pp ps (fst o) (snd o) fuel Hp Hn E1 P1 P2) as H.
    destruct (population_step _ _ _ _ _ _ _) as [[[ns1 m1] s1]| |], (mt_population_step _ _ _ _ _ _ _ _ _) as [[[ns2 m2] s2]| |]; cbn [obind fst snd]; auto.
    destruct H as (-> & i1 & i2 & -> & -> & P & -> & ->). split; [reflexivity|]. destruct i1, i2; cbn [same_spikes]; auto.
    + apply Permutation_nil in P. discriminate. + apply Permutation_sym, Permutation_nil in P. discriminate.
  - pose proof (c37_population_step_mt (lift_pre (bl_prestep false)) (lift_imp bl_impact) (lift_post bl_post) u step ms l pp ps (fst o) (snd o) fuel Hp Hn E1 P1 P2) as H.
    destruct (population_step _ _ _ _ _ _ _) as [[[ns1 m1] s1]| |], (mt_population_step _ _ _ _ _ _ _ _ _) as [[[ns2 m2] s2]| |]; cbn [obind fst snd]; auto.
    destruct H as (-> & i1 & i2 & -> & -> & P & -> & ->). split; [reflexivity|]. destruct i1, i2; cbn [same_spikes]; auto.
    + apply Permutation_nil in P. discriminate. + apply Permutation_sym, Permutation_nil in P. discriminate.
  - pose proof (c37_population_step_mt (lift_pre (al_prestep false)) (lift_imp al_impact) (lift_post al_post) u step ms l pp ps (fst o) (snd o) fuel Hp Hn E1 P1 P2) as H.
    destruct (population_step _ _ _ _ _ _ _) as [[[ns1 m1] s1]| |], (mt_population_step _ _ _ _ _ _ _ _ _) as [[[ns2 m2] s2]| |]; cbn [obind fst snd]; auto.
    destruct H as (-> & i1 & i2 & -> & -> & P & -> & ->). split; [reflexivity|]. destruct i1, i2; cbn [same_spikes]; auto.
    + apply Permutation_nil in P. discriminate. + apply Permutation_sym, Permutation_nil in P. discriminate.
Qed.

(** ** Populations of a step *)
Definition sizes (pops : list (uid * apop)) : list N := map (fun p => apop_size (snd p)) pops.
Lemma mt_pops_same pp step : (0 < pp < two64)%N -> forall pops ins os pops' outs,
  Forall (fun p => (apop_size (snd p) <= two32)%N) pops -> length ins = length pops ->
  Forall2 (fun p o => any_order pp (apop_size (snd p)) (fst o) /\ any_order pp (apop_size (snd p)) (snd o)) pops os ->
  mt_pops step ins os pops = Ret (pops', outs) ->
  sizes pops' = sizes pops /\ Forall distinct_spikes (sent_msgs outs) /\
  forall i u a ms, nth_error pops i = Some (u, a) -> nth_error ins i = Some ms ->
    exists a' o o', apop_step u step ms a = Ret (a', o) /\ same_spikes o o' /\
      nth_error pops' i = Some (u, a') /\ nth_error outs i = Some o'.
Proof.
  intros Hp. induction pops as [|[u a] pops IH]; intros ins os pops' outs Hs L HF H.
  - inversion HF; subst. destruct ins; [|discriminate]. cbn [mt_pops] in H. injection H as <- <-.
    split; [reflexivity|]. split; [constructor|]. intros i ? ? ? Hi. destruct i; discriminate.
  - inversion HF as [|? o ? os' [Ho1 Ho2] HF']; subst. destruct ins as [|ms ins]; [discriminate|]. cbn [length] in L.
    inversion Hs as [|? ? Hs1 Hs']; subst. cbn [snd] in *.
    cbn [mt_pops] in H. pose proof (mt_apop_step_same pp u step ms o a Hp Hs1 Ho1 Ho2) as HS.
    destruct (mt_apop_step u step ms o a) as [[a' m]| |] eqn:E; cbn [obind fst snd] in H; try discriminate.
    destruct (apop_step u step ms a) as [[a1 m1]| |] eqn:Ea; try contradiction. destruct HS as (-> & HS).
    destruct (mt_pops step ins os' pops) as [[t' l]| |] eqn:E'; cbn [obind fst snd] in H; try discriminate.
    injection H as <- <-. destruct (IH ins os' t' l Hs' ltac:(lia) HF' E') as (I1 & I2 & I3). split; [|split].
    + unfold sizes in *. cbn [map snd]. f_equal; [eapply apop_step_size; eauto|exact I1].
    + rewrite sent_msgs_cons. apply Forall_app. split; [|exact I2]. destruct m as [m|]; cbn [sent_msgs flat_map app]; [|constructor].
      constructor; [|constructor]. destruct m1 as [m1|]; [|contradiction]. pose proof (apop_step_distinct _ _ _ _ _ _ Hs1 Ea) as D.
      destruct m1 as [u1 t1 l1|], m as [u2 t2 l2|]; cbn [same_spikes distinct_spikes] in *; try contradiction; auto.
      destruct HS as (_ & _ & P). eapply Permutation_NoDup; eauto.
    + intros i v b ms' Hi Hm. destruct i as [|i]; cbn [nth_error] in *.
      * injection Hi as <- <-. injection Hm as <-. eauto 8.
      * eauto.
Qed.
Lemma mt_projs_nth step : forall projs ins os i w ms o, length ins = length projs -> length os = length projs ->
  nth_error projs i = Some w -> nth_error ins i = Some ms -> nth_error os i = Some o ->
  exists q m, mt_calculate (wp_head w) step ms (p_syn (wp_proj w)) o (wp_queue w) = (q, m) /\
    nth_error (fst (mt_projs step ins os projs)) i = Some (mkWP (wp_head w) (wp_proj w) q) /\
    nth_error (snd (mt_projs step ins os projs)) i = Some m.
Proof.
  induction projs as [|v projs IH]; intros ins os i w ms o L1 L2 Hw Hm Ho; [destruct i; discriminate|].
  destruct ins as [|ms0 ins]; [discriminate|]. destruct os as [|o0 os]; [discriminate|]. cbn [mt_projs length] in *.
  destruct (mt_calculate (wp_head v) step ms0 (p_syn (wp_proj v)) o0 (wp_queue v)) as [q m] eqn:E.
  destruct (mt_projs step ins os projs) as [t' l] eqn:E'. cbn [fst snd].
  destruct i as [|i]; cbn [nth_error] in *.
  - injection Hw as <-. injection Hm as <-. injection Ho as <-. eauto.
  - pose proof (IH ins os i w ms o ltac:(lia) ltac:(lia) Hw Hm Ho) as H. rewrite E' in H. exact H.
Qed.
Lemma mt_projs_syn step : forall projs ins os, length ins = length projs -> length os = length projs ->
  map wp_proj (fst (mt_projs step ins os projs)) = map wp_proj projs.
Proof.
  induction projs as [|v projs IH]; intros ins os L1 L2; [destruct ins, os; reflexivity|].
  destruct ins as [|ms0 ins]; [discriminate|]. destruct os as [|o0 os]; [discriminate|]. cbn [mt_projs length] in *.
  destruct (mt_calculate _ _ _ _ _ _) as [q m]. specialize (IH ins os ltac:(lia) ltac:(lia)).
  destruct (mt_projs step ins os projs) as [t' l]. cbn [fst map wp_proj] in *. now rewrite IH.
Qed.

(** ** Runs *)
Section Run.
Variables (extra : list subscr) (projs0 : list wproj) (us : list uid) (pp pj : N).
Hypothesis Hpd : NoDup (map (fun w => ph_uid (wp_head w)) projs0).
Hypothesis Hud : NoDup us.
Hypothesis Hpp : (0 < pp < two64)%N.
Local Notation hs := (heads projs0).
Local Notation ready := (ready extra projs0 us).

Definition late_from (prev : list message) (tr : list record) (t : nat) : list message :=
  match t with 0 => prev | S _ => late tr t end.

Lemma Forall2_sizes_ok (R : N -> list (nat * nat) * list (nat * nat) -> Prop) : forall (pops pops' : list (uid * apop)) os, sizes pops = sizes pops' ->
  Forall2 (fun p o => R (apop_size (snd p)) o) pops os -> Forall2 (fun p o => R (apop_size (snd p)) o) pops' os.
Proof.
  induction pops as [|p pops IH]; intros [|p' pops'] os E H; try discriminate; inversion H; subst; [constructor|].
  unfold sizes in *. cbn [map] in E. injection E as E1 E2. constructor; [now rewrite <- E1|eauto].
Qed.
Lemma Forall2_syn_ok (R : dproj -> list (nat * nat) -> Prop) : forall (l l' : list wproj) os, map wp_proj l = map wp_proj l' ->
  Forall2 (fun w o => R (wp_proj w) o) l os -> Forall2 (fun w o => R (wp_proj w) o) l' os.
Proof.
  induction l as [|p l IH]; intros [|p' l'] os E H; try discriminate; inversion H; subst; [constructor|].
  cbn [map] in E. injection E as E1 E2. constructor; [now rewrite <- E1|eauto].
Qed.
Lemma sched_ok_transport pops pops' projs projs' s : sizes pops = sizes pops' -> map wp_proj projs = map wp_proj projs' ->
  sched_ok pp pj pops projs s -> sched_ok pp pj pops' projs' s.
Proof.
  intros E1 E2 (H1 & H2). split.
  - exact (Forall2_sizes_ok (fun n o => any_order pp n (fst o) /\ any_order pp n (snd o)) pops pops' _ E1 H1).
  - exact (Forall2_syn_ok (fun p o => any_order pj (N.of_nat (length (p_syn p))) o) projs projs' _ E2 H2).
Qed.
Lemma Forall2_len {A B} (R : A -> B -> Prop) : forall l l', Forall2 R l l' -> length l = length l'.
Proof. induction 1; cbn [length]; congruence. Qed.

Lemma sizes_bound pops pops' : sizes pops = sizes pops' -> Forall (fun p => (apop_size (snd p) <= two32)%N) pops ->
  Forall (fun p => (apop_size (snd p) <= two32)%N) pops'.
Proof.
  intros E H. assert (Hf : Forall (fun n => (n <= two32)%N) (sizes pops)) by (unfold sizes; now apply Forall_map).
  rewrite E in Hf. unfold sizes in Hf. apply (proj1 (Forall_map _ _ _)) in Hf. exact Hf.
Qed.

Lemma mt_run_ind : forall calls prev k k' tr, ready prev k -> front (k_bus k) ->
  Forall (fun c => forallb outside (fst c) = true /\ sched_ok pp pj (k_pops k) (k_projs k) (snd c)) calls ->
  Forall (fun p => (apop_size (snd p) <= two32)%N) (k_pops k) ->
  mt_backend_run calls k = Ret (k', tr) ->
  length tr = length calls /\
  (forall r, In r tr -> Forall distinct_spikes (sent_msgs (r_pop_out r))) /\
  (forall t r i u a, nth_error tr t = Some r -> nth_error (k_pops k) i = Some (u, a) ->
     nth_error (r_pop_in r) i = Some (filter (to_population hs extra u) (late_from prev tr t))) /\
  (forall t r j w, nth_error tr t = Some r -> nth_error (k_projs k) j = Some w ->
     nth_error (r_proj_in r) j = Some (filter (to_projection extra (wp_head w)) (sent_msgs (r_pop_out r) ++ r_ext r))) /\
  (forall i u a, nth_error (k_pops k) i = Some (u, a) -> exists ins outs outs0 a',
     column i r_pop_in tr = map Some ins /\ column i r_pop_out tr = map Some outs /\
     apop_run u (k_step k) ins a = Ret (a', outs0) /\ Forall2 same_spikes outs0 outs /\ nth_error (k_pops k') i = Some (u, a')) /\
  (forall j w, nth_error (k_projs k) j = Some w -> exists ins ords outs,
     column j r_proj_in tr = map Some ins /\ column j r_proj_out tr = map Some outs /\ length ords = length ins /\
     Forall (any_order pj (N.of_nat (length (p_syn (wp_proj w))))) ords /\
     mt_run (wp_head w) (k_step k) (map (fun x => mkMtIn (p_syn (wp_proj w)) (fst x) (snd x)) (combine ins ords)) (wp_queue w) = outs).
Proof.
  induction calls as [|[ops s] calls IH]; intros prev k k' tr R F Hf Hsz H; cbn [mt_backend_run] in H.
  - injection H as <- <-. split; [reflexivity|]. split; [intros r Hr; destruct Hr|]. split; [|split; [|split]].
    + intros t r i u a Ht. destruct t; discriminate.
    + intros t r j w Ht. destruct t; discriminate.
    + intros i u a Hi. exists [], [], [], a. repeat split; auto.
    + intros j w Hj. exists [], [], []. repeat split; auto.
  - inversion Hf as [|? ? [Hops Hsch] Hf']; subst. cbn [fst snd] in *.
    destruct (run (k_bus k) ops) as [[b trb]| |] eqn:Er; cbn [obind fst] in H; try discriminate.
    pose proof (outside_ready extra projs0 us prev k ops b trb R Hops Er) as R1.
    pose proof (outside_run_front ops (k_bus k) b trb (g_ids _ _ (rd_good _ _ _ _ _ R)) F Hops Er) as F1.
    set (k1 := mkBackend b (k_pops k) (k_projs k) (k_step k)) in *.
    pose proof Hsch as (Hs1 & Hs2). apply Forall2_len in Hs1 as L1. apply Forall2_len in Hs2 as L2.
    pose proof (mt_step_eq extra projs0 us Hpd Hud s prev k1 R1 F1 (eq_sym L1) (eq_sym L2)) as HS.
    cbn [k_bus k_pops k_projs k_step k1] in HS.
    destruct (mt_pops _ _ _ _) as [[pops' pout]| |] eqn:EP in HS;
      [|rewrite HS in H; discriminate|rewrite HS in H; discriminate].
    cbv zeta in HS. set (jins := mt_proj_ins extra (sent_msgs pout) (pending b) (k_projs k)) in *.
    set (x := mt_projs (k_step k) jins (sc_projs s) (k_projs k)) in *.
    destruct HS as (b' & Es & R' & F'). rewrite Es in H. cbn [obind fst snd] in H.
    destruct (mt_backend_run calls _) as [[k2 tr2]| |] eqn:Eb in H; cbn [obind fst snd] in H; try discriminate.
    injection H as <- <-.
    assert (Lp : length (mt_pop_ins extra projs0 prev (k_pops k)) = length (k_pops k)) by (unfold mt_pop_ins; apply map_length).
    assert (Lj : length jins = length (k_projs k)) by (unfold jins, mt_proj_ins; apply map_length).
    destruct (mt_pops_same pp (k_step k) Hpp (k_pops k) _ (sc_pops s) pops' pout Hsz Lp Hs1 EP) as (M1 & M2 & M3).
    pose proof (mt_projs_syn (k_step k) (k_projs k) jins (sc_projs s) Lj (eq_sym L2)) as Msyn. fold x in Msyn.
    destruct (IH _ _ k2 tr2 R' F') as (L & ID & IP & IJ & CP & CJ).
    { cbn [k_pops k_projs]. eapply Forall_impl; [|exact Hf']. intros c [Hc1 Hc2]. split; [exact Hc1|].
      eapply sched_ok_transport; [| |exact Hc2]; [symmetry; exact M1|symmetry; exact Msyn]. }
    { cbn [k_pops]. exact (sizes_bound _ _ (eq_sym M1) Hsz). }
    { exact Eb. }
    cbn [k_pops k_projs k_step] in *.
    split; [cbn [length]; congruence|]. split; [|split; [|split; [|split]]].
    + intros r [<-|Hr]; [exact M2|auto].
    + intros t r i u a Ht Hi. destruct t as [|t]; cbn [nth_error] in Ht.
      * injection Ht as <-. cbn [r_pop_in late_from]. unfold mt_pop_ins. rewrite nth_error_map, Hi. reflexivity.
      * assert (Hm : nth_error (mt_pop_ins extra projs0 prev (k_pops k)) i = Some (filter (to_population hs extra u) prev)).
        { unfold mt_pop_ins. rewrite nth_error_map, Hi. reflexivity. }
        destruct (M3 i u a _ Hi Hm) as (a' & o & o' & _ & _ & Hi' & _).
        rewrite (IP t r i u a' Ht Hi'). destruct t; reflexivity.
    + intros t r j w Ht Hj. destruct t as [|t]; cbn [nth_error] in Ht.
      * injection Ht as <-. cbn [r_proj_in r_ext r_pop_out]. unfold jins, mt_proj_ins. rewrite nth_error_map, Hj. reflexivity.
      * destruct (nth_error (fst x) j) as [w'|] eqn:Ew.
        2:{ exfalso. apply nth_error_None in Ew. assert (length (fst x) = length (k_projs k)) as Hl.
            { rewrite <- (map_length wp_proj (fst x)), Msyn. apply map_length. }
            assert (nth_error (k_projs k) j <> None) as Hn by congruence. apply nth_error_Some in Hn. lia. }
        rewrite (IJ t r j w' Ht Ew). do 2 f_equal.
        pose proof (rd_hs _ _ _ _ _ R') as H1. pose proof (rd_hs _ _ _ _ _ R) as H2. cbn [k_projs] in H1. rewrite <- H2 in H1.
        unfold heads in H1. pose proof (f_equal (fun l => nth_error l j) H1) as H3. cbn beta in H3.
        rewrite !nth_error_map, Ew, Hj in H3. cbn [option_map] in H3. injection H3 as H3. now rewrite H3.
    + intros i u a Hi.
      assert (Hm : nth_error (mt_pop_ins extra projs0 prev (k_pops k)) i = Some (filter (to_population hs extra u) prev)).
      { unfold mt_pop_ins. rewrite nth_error_map, Hi. reflexivity. }
      destruct (M3 i u a _ Hi Hm) as (a' & o & o' & Ea & Hso & Hi' & Ho).
      destruct (CP i u a' Hi') as (ins & outs & outs0 & a2 & C1 & C2 & C3 & C4 & C5).
      exists (filter (to_population hs extra u) prev :: ins), (o' :: outs), (o :: outs0), a2. unfold column in *. cbn [map r_pop_in r_pop_out].
      rewrite C1, C2, Ho, Hm. repeat split; auto.
      cbn [apop_run]. rewrite Ea. cbn [obind fst snd]. rewrite C3. reflexivity.
    + intros j w Hj.
      assert (Hm : nth_error jins j = Some (filter (to_projection extra (wp_head w)) (sent_msgs pout ++ pending b))).
      { unfold jins, mt_proj_ins. rewrite nth_error_map, Hj. reflexivity. }
      destruct (nth_error (sc_projs s) j) as [o|] eqn:Eo.
      2:{ exfalso. apply nth_error_None in Eo. assert (nth_error (k_projs k) j <> None) as Hn by congruence.
          apply nth_error_Some in Hn. lia. }
      destruct (mt_projs_nth (k_step k) (k_projs k) jins (sc_projs s) j w _ o Lj (eq_sym L2) Hj Hm Eo) as (q & m & Ec & Hw' & Hm').
      fold x in Hw', Hm'.
      destruct (CJ j _ Hw') as (ins & ords & outs & C1 & C2 & C3 & C4 & C5). cbn [wp_head wp_proj wp_queue] in *.
      eexists (_ :: ins), (o :: ords), (m :: outs). unfold column in *. cbn [map r_proj_in r_proj_out].
      rewrite C1, C2, Hm, Hm'. split; [reflexivity|]. split; [reflexivity|]. split; [cbn [length]; congruence|]. split.
      * constructor; [|exact C4]. clear -Hs2 Hj Eo. revert j Hj Eo. induction Hs2 as [|w0 o0 ws os H HF IHF]; intros j Hj Eo; [destruct j; discriminate|].
        destruct j as [|j]; cbn [nth_error] in *; [injection Hj as ->; injection Eo as ->; exact H|eauto].
      * cbn [combine map mt_run mi_msgs mi_syn mi_order fst snd]. rewrite Ec. now rewrite C5.
Qed.
End Run.

(** ** A projection against its single-threaded run over the first messages *)
Lemma mt_run_first h l : forall ins s q, 
  mt_run h s (map (fun x => mkMtIn l (fst x) (snd x)) ins) q =
  mt_run h s (map (fun x => mkMtIn l (firstn 1 (fst x)) (snd x)) ins) q.
Proof.
  induction ins as [|[ms o] ins IH]; intros s q; cbn [map mt_run mi_msgs mi_syn mi_order fst snd]; [reflexivity|].
  assert (E : mt_calculate h s (firstn 1 ms) l o q = mt_calculate h s ms l o q) by (destruct ms; reflexivity).
  rewrite E. destruct (mt_calculate h s ms l o q) as [q' m]. now rewrite IH.
Qed.
Lemma mt_run_same h part l : (0 < part < two64)%N -> (N.of_nat (length l) <= 2 ^ 63)%N ->
  Forall (fun s => valid_binary 24 128 (d_weight (sy_params s)) = true) l ->
  forall p ins ords, sound_projection p -> p_syn p = l -> length ords = length ins ->
  Forall (any_order part (N.of_nat (length l))) ords ->
  Forall (fun ms => one_message (firstn 1 ms)) ins ->
  (N.of_nat (length ins) < two64)%N ->
  exists outs, run_projection h 0 (map (fun ms => mkIn l (firstn 1 ms)) ins) p [] = Ret outs /\
    Forall2 same_output outs (mt_run h 0 (map (fun x => mkMtIn l (fst x) (snd x)) (combine ins ords)) []).
Proof.
  intros Hp Hn Hv p ins ords Hsp Hl Hlen Ho Hone Hb. rewrite mt_run_first.
  apply (runs_agree h part Hp (map (fun ms => mkIn l (firstn 1 ms)) ins) _ 0 p [] [] 0).
  - revert ords Hlen Ho. induction Hone as [|ms ins H1 HF IH]; intros ords Hlen Ho; destruct ords as [|o ords]; try discriminate; cbn [map combine]; constructor.
    + inversion Ho as [|? ? (ps & fuel & E & P) Ho']; subst. unfold corresponds. cbn [mi_syn mi_msgs in_syn in_msgs mi_order fst snd].
      repeat split; auto. exists ps, fuel. auto.
    + inversion Ho; subst. cbn [length] in *. apply IH; auto; lia.
  - lia.
  - rewrite map_length. lia.
  - apply Forall_map, Forall_forall. intros ms _. exact Hn.
  - exists (ends_of l). split; [apply Forall_map, Forall_forall; intros ms _; reflexivity|now rewrite Hl].
  - now apply sound_index_ok.
  - intros k m H. discriminate.
  - intros k m H. discriminate.
  - intros k. exact I.
Qed.

Lemma own_run_front : forall ops b b' tr, ids_ok b -> front b -> Forall (fun o => op_id o = Some 0) ops ->
  run b ops = Ret (b', tr) -> front b'.
Proof.
  induction ops as [|o ops IH]; intros b b' tr Hi F Ho Hr; cbn [run] in Hr.
  - injection Hr as <- _. exact F.
  - inversion Ho as [|? ? Ho1 Ho2]; subst.
    destruct (exec b o) as [[b1 x]| |] eqn:Ex; cbn [obind fst] in Hr; try discriminate.
    destruct (run b1 ops) as [[b2 tr2]| |] eqn:Er; cbn [obind fst] in Hr; try discriminate.
    injection Hr as <- _. eapply (IH b1); eauto.
    + eapply ids_ok_exec; eauto.
    + exact (proj1 (method_front b o b1 x Hi F Ho1 Ex)).
Qed.
Lemma backend_init_front extra pops projs k : backend_init extra pops projs = Ret k -> front (k_bus k).
Proof.
  unfold backend_init. destruct (run bus_init _) as [[b tr]| |] eqn:E; cbn [obind fst]; try discriminate.
  intros H. injection H as <-. cbn [k_bus]. cbn [run exec obind fst] in E.
  destruct (run (create_endpoint bus_init) _) as [[b' tr']| |] eqn:E'; cbn [obind fst snd] in E; try discriminate.
  injection E as <- _. apply (own_run_front _ _ _ _ (ids_ok_exec bus_init OCreate _ _ ids_ok_init eq_refl)) in E'; auto.
  - split; [reflexivity|]. eexists. eexists. split; [reflexivity|]. auto.
  - apply Forall_app. split.
    + unfold extra_ops. apply Forall_map, Forall_forall. reflexivity.
    + eapply Forall_impl; [|apply init_ops_subscribe]. intros o (ty & r & ss & ->). reflexivity.
Qed.
