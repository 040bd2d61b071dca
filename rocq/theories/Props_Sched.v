(** Property theorem C87: the order of training tasks does not matter. *)
From Verif Require Import Base ListLemmas Messaging_Model Messaging_Spec Projection_Model Projection_Spec Projection_Proofs
  Delta_Model Delta_Spec Delta_Proofs Neuron_Model Pipeline_Model Pipeline_Spec Pipeline_Proofs Pipeline_Proofs2
  Stdp_Model Additive_Model Additive_Spec Additive_Proofs Train_Model Train_Proofs Net_Model Net_Spec Net_Proofs Net_Proofs2 Net_Proofs3 Net_Proofs4 Net_Proofs5
  Props_Net Props_Net2 Sched_Model Sched_Proofs.

(** *** C87 *)
Lemma sizes_after pow2f expf extra pops projs turns k tr : sound_network pops projs ->
  Forall (fun u => forallb outside (tu_ops u) = true) turns -> net_run pow2f expf extra pops projs turns k tr ->
  forall t, t <= length tr -> Forall (fun e => (N.of_nat (size (snd e)) <= two32)%N) (fst (after tr pops projs t)).
Proof.
  intros Hs Hf Hr. induction t as [|t IH]; intros Ht; [apply (sn_sizes _ _ Hs)|]. destruct (nth_error tr t) as [r|] eqn:Er; [|apply nth_error_None in Er; lia].
  rewrite (after_S pops projs tr t r Er). cbn [fst]. destruct (turn_at _ _ _ _ _ _ _ _ Hs Hf Hr t r Er) as (tu & Hu).
  destruct (net_run_facts _ _ _ _ _ _ _ _ Hs Hf Hr) as (_ & F & _). destruct (F t r tu Er Hu) as (SF & Ep & _).
  apply Forall_forall. intros [u a'] Hin. apply In_nth_error in Hin as (i & Hi). cbn [snd].
  assert (exists u0 a, nth_error (nr_pops r) i = Some (u0, a)) as (u0 & a & Ha).
  { destruct (nth_error (nr_pops r) i) as [[u0 a]|] eqn:E; [eauto|]. apply nth_error_None in E.
    assert (nth_error (nr_pops' r) i <> None) as Hx by congruence. apply nth_error_Some in Hx.
    pose proof (f_equal (@length _) (sf_us _ _ _ _ _ _ _ _ SF)) as L1. pose proof (f_equal (@length _) (sf_us' _ _ _ _ _ _ _ _ SF)) as L2.
    rewrite !map_length in *. lia. }
  destruct (sf_pops _ _ _ _ _ _ _ _ SF i u0 a Ha) as (a1 & o & _ & H2 & _ & H4). rewrite Hi in H2. injection H2 as -> <-.
  assert (Hs0 : (N.of_nat (size a) <= two32)%N).
  { rewrite Ep in Ha. specialize (IH ltac:(lia)). rewrite Forall_forall in IH. apply (IH (u0, a)). eapply nth_error_In; eauto. }
  destruct a as [x|l|l], a' as [x'|l'|l']; cbn [pop_result] in H4; try contradiction.
  - now rewrite (apop_step_size _ _ _ _ _ _ H4).
  - destruct H4 as (ns & sp & E & _ & L & _). cbn [size] in *. destruct (stdp_front_spec _ _ _ _ _ _ _ E Hs0) as (L' & _). rewrite L, L'. exact Hs0.
  - destruct H4 as (ns & sp & E & _ & L & _). cbn [size] in *. destruct (stdp_front_spec _ _ _ _ _ _ _ E Hs0) as (L' & _). rewrite L, L'. exact Hs0.
Qed.
(** The spikes of a plain population: distinct neurons of it. *)
Lemma apop_fired u step ms a a' o : (N.of_nat (size (NPlain a)) <= two32)%N -> apop_step u step ms a = Ret (a', o) ->
  let idx := match o with Some (SpikeMsg _ _ idx) => idx | _ => [] end in
  o = spike_message u step idx /\ NoDup idx /\ Forall (fun i => (i < N.of_nat (size (NPlain a')))%N) idx.
Proof.
  intros Hs H. assert (Hz := apop_step_size _ _ _ _ _ _ H).
  assert (Hg : forall P S (pre : (P*S) -> (P*S)) imp post (l : list (P*S)) n2 m o1, (N.of_nat (length l) <= two32)%N ->
     population_step pre imp post u step ms l = Ret (n2, m, o1) -> o1 = o ->
     let idx := match o with Some (SpikeMsg _ _ idx) => idx | _ => [] end in
     o = spike_message u step idx /\ NoDup idx /\ Forall (fun i => (i < N.of_nat (length l))%N) idx).
  { intros P S pre imp post l n2 m o1 Hl E Eo. unfold population_step in E. rewrite (Neuron_Proofs2.pre_part_all pre imp post) in E.
    destruct (impact_population imp (impacts_of ms) (map pre l)) as [n1| |] eqn:E1; cbn [obind] in E; try discriminate.
    assert (L : length n1 = length l).
    { rewrite <- (map_length pre l). revert E1. generalize (map pre l). generalize (impacts_of ms).
      induction l0 as [|i t IH]; intros l1 E1; cbn [impact_population] in E1; [now injection E1 as <-|].
      destruct (update_at _ _ _) as [n3| |] eqn:E2; cbn [obind] in E1; try discriminate. rewrite (IH _ E1). eapply update_at_len; eauto. }
    pose proof (Neuron_Proofs2.post_part_all_idx pre imp post n1) as E2.
    destruct (post_part post 0 0 (length n1) n1) as [n3 idx]. cbn [snd] in E2. injection E as _ _ Eo1. rewrite Eo in Eo1. clear Eo.
    destruct (positions_facts (map snd (map post n1))) as [Hnd Hin]. rewrite <- E2 in *. rewrite !map_length in Hin.
    assert (Hw : forall i, In i idx -> w32 (N.of_nat i) = N.of_nat i).
    { intros i Hi. specialize (Hin i Hi). unfold w32. apply N.mod_small. lia. }
    destruct idx as [|i0 idx]; cbn [length Nat.eqb] in Eo1; subst o; [split; [reflexivity|]; split; constructor|].
    cbv zeta. split; [reflexivity|]. split.
    - rewrite (map_ext_in _ N.of_nat) by exact Hw. clear -Hnd. induction Hnd; cbn [map]; constructor; auto.
      intros H0. apply in_map_iff in H0 as (y & Hy & Hin). apply Nat2N.inj in Hy. now subst.
    - rewrite (map_ext_in _ N.of_nat) by exact Hw. apply Forall_forall. intros x Hx. apply in_map_iff in Hx as (y & <- & Hy).
      specialize (Hin y Hy). lia. }
  cbv zeta. rewrite Hz. unfold apop_step in H. destruct a as [l|l|l]; cbn [size] in *;
    (match type of H with obind ?e _ = _ => destruct e as [[[n2 m] o1]| |] eqn:E end); cbn [obind fst snd] in H; try discriminate;
    injection H as _ Eo; exact (Hg _ _ _ _ _ _ _ _ _ Hs E Eo).
Qed.
(** In every step of every run of the single-threaded backend: let every population go
    up to its spike message; then run the training tasks of the multi-threaded backend,
    in any order, and with the indexes in each message in any order.  The populations
    and the synapses of all projections are those of the single-threaded step, which
    trains each population before the next begins. *)
Theorem c87_any_schedule pow2f expf extra pops projs turns k tr t r :
  sound_network pops projs -> Forall (fun u => forallb outside (tu_ops u) = true) turns ->
  net_run pow2f expf extra pops projs turns k tr -> nth_error tr t = Some r ->
  exists jobs : list job,
    map jb_uid jobs = map fst (nr_pops r) /\
    (forall i u a, nth_error (nr_pops r) i = Some (u, a) -> exists b fired,
       nth_error jobs i = Some (mkJob u b fired) /\
       front u (N.of_nat t mod two64) (filter (to_population (map np_head projs) extra u) (sent_before (map nr_msgs tr) t ++ r_ext (nr_msgs r))) a = Ret (b, fired) /\
       nth_error (r_pop_out (nr_msgs r)) i = Some (spike_message u (N.of_nat t mod two64) fired)) /\
    forall jobs', reordered jobs jobs' -> exists res projs',
      train_jobs pow2f (N.of_nat t mod two64) jobs' (nr_projs r) = Ret (res, projs') /\
      Permutation (nr_pops' r) res /\ map forget (nr_trained r) = map forget projs'.
Proof.
  intros Hs Hf Hr Ht. destruct (turn_at _ _ _ _ _ _ _ _ Hs Hf Hr t r Ht) as (tu & Hu).
  destruct (net_run_facts _ _ _ _ _ _ _ _ Hs Hf Hr) as (_ & F & _). destruct (F t r tu Ht Hu) as (SF & Ep & _).
  assert (Hsz : Forall (fun e => (N.of_nat (size (snd e)) <= two32)%N) (nr_pops r)).
  { rewrite Ep. apply (sizes_after _ _ _ _ _ _ _ _ Hs Hf Hr). assert (t < length tr) by (apply nth_error_Some; congruence). lia. }
  set (step := (N.of_nat t mod two64)%N) in *.
  set (box := fun u => filter (to_population (map np_head projs) extra u) (sent_before (map nr_msgs tr) t ++ r_ext (nr_msgs r))).
  set (job_of := fun e : uid * npop => match front (fst e) step (box (fst e)) (snd e) with Ret (b, f) => mkJob (fst e) b f | _ => mkJob (fst e) (snd e) [] end).
  assert (Hjob : forall i u a, nth_error (nr_pops r) i = Some (u, a) -> exists b fired a',
     job_of (u, a) = mkJob u b fired /\ front u step (box u) a = Ret (b, fired) /\ job_ok (mkJob u b fired) /\ stdp_pop b = stdp_pop a /\
     nth_error (r_pop_out (nr_msgs r)) i = Some (spike_message u step fired) /\
     nth_error (nr_pops' r) i = Some (u, a') /\ job_result pow2f step (nr_projs r) (nr_trained r) (mkJob u b fired) a').
  { intros i u a Hi. destruct (sf_pops _ _ _ _ _ _ _ _ SF i u a Hi) as (a' & o & _ & H2 & H3 & H4). fold (box u) in H4.
    change (npop_box extra projs (sent_before (map nr_msgs tr) t) (r_ext (nr_msgs r)) u) with (box u) in H4.
    assert (Hsa : (N.of_nat (size a) <= two32)%N) by (rewrite Forall_forall in Hsz; apply (Hsz (u, a)); eapply nth_error_In; eauto).
    unfold job_of. cbn [fst snd].
    destruct a as [x|l|l], a' as [x'|l'|l']; cbn [pop_result] in H4; try contradiction.
    - destruct (apop_fired u step (box u) x x' o Hsa H4) as (E1 & E2 & E3). cbn [front]. rewrite H4. cbn [obind fst snd].
      do 3 eexists. split; [reflexivity|]. split; [reflexivity|]. split; [split; assumption|]. split; [reflexivity|].
      split; [rewrite <- E1; exact H3|]. split; [exact H2|]. reflexivity.
    - destruct H4 as (ns & sp & E & Eo & R). cbn [front size] in *. unfold bl_front in E. rewrite E. cbn [obind fst snd].
      destruct (stdp_front_spec _ _ _ _ _ _ _ E Hsa) as (L' & E2 & E3).
      do 3 eexists. split; [reflexivity|]. split; [reflexivity|]. split; [split; assumption|]. split; [reflexivity|].
      split; [rewrite <- Eo; exact H3|]. split; [exact H2|]. exact R.
    - destruct H4 as (ns & sp & E & Eo & R). cbn [front size] in *. unfold al_front in E. rewrite E. cbn [obind fst snd].
      destruct (stdp_front_spec _ _ _ _ _ _ _ E Hsa) as (L' & E2 & E3).
      do 3 eexists. split; [reflexivity|]. split; [reflexivity|]. split; [split; assumption|]. split; [reflexivity|].
      split; [rewrite <- Eo; exact H3|]. split; [exact H2|]. exact R. }
  exists (map job_of (nr_pops r)).
  assert (Hu1 : map jb_uid (map job_of (nr_pops r)) = map fst (nr_pops r)).
  { rewrite map_map. apply map_ext. intros [u a]. unfold job_of. cbn [fst snd]. destruct (front _ _ _ _) as [[b f]| |]; reflexivity. }
  split; [exact Hu1|]. split.
  - intros i u a Hi. destruct (Hjob i u a Hi) as (b & fired & a' & J1 & J2 & _ & _ & J4 & _). exists b, fired. split; [|auto].
    rewrite nth_error_map, Hi. cbn [option_map]. now rewrite J1.
  - intros jobs' Hre. apply (jobs_reordered pow2f step (map job_of (nr_pops r)) jobs' (nr_projs r) (nr_pops' r) (nr_trained r)); [| | |exact Hre| |].
    + pose proof (sf_ok _ _ _ _ _ _ _ _ SF) as H. eapply Forall_impl; [|exact H]. intros w; apply proj1.
    + apply Forall_forall. intros jb Hin. apply in_map_iff in Hin as ([u a] & <- & Hin). apply In_nth_error in Hin as (i & Hi).
      destruct (Hjob i u a Hi) as (b & fired & a' & J1 & _ & J3 & _). now rewrite J1.
    + rewrite Hu1, (sf_us _ _ _ _ _ _ _ _ SF). apply (sn_pops _ _ Hs).
    + assert (job_uids (map job_of (nr_pops r)) = stdp_uids (nr_pops r)) as ->; [|exact (sf_train _ _ _ _ _ _ _ _ SF)].
      assert (forall e, In e (nr_pops r) -> jb_uid (job_of e) = fst e /\ stdp_pop (jb_pop (job_of e)) = stdp_pop (snd e)) as Hx.
      { intros [u a] Hin. apply In_nth_error in Hin as (i & Hi). destruct (Hjob i u a Hi) as (b & fired & a' & J1 & _ & _ & J4 & _). rewrite J1. cbn [jb_uid jb_pop fst snd]. auto. }
      unfold job_uids, stdp_uids. clear -Hx. induction (nr_pops r) as [|e l IH]; cbn [map filter]; [reflexivity|].
      destruct (Hx e (or_introl eq_refl)) as [H1 H2]. rewrite H2. destruct (stdp_pop (snd e)); cbn [map]; rewrite IH by (intros; apply Hx; now right); [now rewrite H1|reflexivity].
    + assert (length (nr_pops' r) = length (nr_pops r)) as L.
      { pose proof (f_equal (@length _) (sf_us _ _ _ _ _ _ _ _ SF)) as L1. pose proof (f_equal (@length _) (sf_us' _ _ _ _ _ _ _ _ SF)) as L2. rewrite !map_length in *. lia. }
      assert (forall i e e', nth_error (nr_pops r) i = Some e -> nth_error (nr_pops' r) i = Some e' -> fst e' = jb_uid (job_of e) /\ job_result pow2f step (nr_projs r) (nr_trained r) (job_of e) (snd e')) as Hx.
      { intros i [u a] e' Hi Hi'. destruct (Hjob i u a Hi) as (b & fired & a' & J1 & _ & _ & _ & _ & J6 & J7). rewrite Hi' in J6. injection J6 as ->. rewrite J1. auto. }
      clear -L Hx. revert L Hx. generalize (nr_pops' r) (nr_pops r). intros l' l. revert l'. induction l as [|e l IH]; intros [|e' l'] L Hx; cbn [length map] in *; try discriminate; constructor.
      * apply (Hx 0); reflexivity.
      * apply IH; [lia|]. intros i. apply (Hx (S i)).
Qed.
Print Assumptions c87_any_schedule.

(** Two populations of two neurons each with resource STDP, both fed by input channel 9;
    at step 1 all four neurons fire and are trained.  The tasks in the other order with
    the indexes of both messages reversed: the same result, different from no training. *)
Definition sc_pops : list (uid * npop) := [(1%N, NStdpBlifat [ex_neuron; ex_neuron]); (2%N, NStdpBlifat [ex_neuron; ex_neuron])].
Definition gen2 {P} (s s' : synapse P) : proj P := proj_generated (fun i => nth_error [s; s'] i) 2.
Definition to1 (s : rsyn) : rsyn := mkSyn (sy_params s) (sy_from s) 1.
Definition sc_projs : list nproj :=
  [mkNP 21 0 1 true (NResource [] (gen2 (ex_rsyn 2) (to1 (ex_rsyn 1)))) []; mkNP 22 0 2 true (NResource [] (gen2 (ex_rsyn 1) (to1 (ex_rsyn 2)))) []].
Definition sc_extra : list subscr := [mkSubscr 0 21 [9]%N; mkSubscr 0 22 [9]%N].
Definition sc_turns : list turn := [mkTurn [OCreate; OSend 1 (SpikeMsg 9 0 [0]%N)] [true]; mkTurn [] []].
Lemma sc_sound : sound_network sc_pops sc_projs.
Proof.
  split; cbn [sc_pops sc_projs map fst np_uid].
  - repeat constructor; cbn; intuition discriminate.
  - repeat constructor; cbn; intuition discriminate.
  - repeat constructor; cbn [np_kind sound_kind]; (eexists _, true, [], []; split; [right; split; [unfold gen2; eauto|reflexivity]|]; split; [reflexivity|exact I]).
  - repeat constructor.
  - repeat constructor; cbn; discriminate.
Qed.
Definition sc_run := obind (nbackend_init sc_extra sc_pops sc_projs) (nbackend_run one1 one1 sc_turns).
Definition sc_jobs (r : nrecord) (ms : uid -> list message) : list job :=
  map (fun e => match front (fst e) 1 (ms (fst e)) (snd e) with Ret (b, f) => mkJob (fst e) b f | _ => mkJob (fst e) (snd e) [] end) (nr_pops r).
Definition sc_box (tr : list nrecord) (r : nrecord) (u : uid) : list message :=
  filter (to_population (map np_head sc_projs) sc_extra u) (sent_before (map nr_msgs tr) 1 ++ r_ext (nr_msgs r)).
Definition f_same (x y : flt) : bool := match x, y with
  | S754_zero a, S754_zero b => Bool.eqb a b | S754_infinity a, S754_infinity b => Bool.eqb a b | S754_nan, S754_nan => true
  | S754_finite a m e, S754_finite b n f => Bool.eqb a b && Pos.eqb m n && Z.eqb e f | _, _ => false end.
Fixpoint list_eqb {A} (eqb : A -> A -> bool) (l m : list A) : bool := match l, m with
  | [], [] => true | x :: l, y :: m => eqb x y && list_eqb eqb l m | _, _ => false end.
Lemma list_eqb_same {A} (eqb : A -> A -> bool) l : (forall x, eqb x x = true) -> list_eqb eqb l l = true.
Proof. intros H. induction l; cbn [list_eqb]; [reflexivity|]. now rewrite H, IHl. Qed.
Lemma weights_same l : list_eqb (list_eqb f_same) l l = true.
Proof.
  apply list_eqb_same. intros. apply list_eqb_same. intros [b|b| |b m e]; cbn [f_same]; rewrite ?Bool.eqb_reflx, ?Pos.eqb_refl, ?Z.eqb_refl; reflexivity.
Qed.
Definition sc_view (o : outcome (nbackend * list nrecord)) := match o with
  | Ret (k, tr) => match nth_error tr 1 with
    | Some r => Some (map jb_fired (sc_jobs r (sc_box tr r)), map jb_uid (sc_jobs r (sc_box tr r)), list_eqb (list_eqb f_same) (weights (nr_trained r)) (weights (nr_projs r)))
    | None => None end
  | _ => None end.
Lemma sc_view_inv o f u : sc_view o = Some (f, u, false) -> exists k tr r, o = Ret (k, tr) /\ nth_error tr 1 = Some r /\
    map jb_fired (sc_jobs r (sc_box tr r)) = f /\ map jb_uid (sc_jobs r (sc_box tr r)) = u /\ weights (nr_trained r) <> weights (nr_projs r).
Proof.
  intros H. destruct o as [[k tr]| |]; cbn [sc_view] in H; try discriminate H.
  destruct (nth_error tr 1) as [r|] eqn:Er; [|discriminate H]. exists k, tr, r. injection H as H1 H2 H3.
  split; [reflexivity|]. split; [exact Er|]. split; [exact H1|]. split; [exact H2|]. intros Hx. rewrite Hx, weights_same in H3. discriminate.
Qed.
Lemma sc_view_is : sc_view sc_run = Some ([[0; 1]; [0; 1]]%N, [1; 2]%N, false).
Proof. vm_compute. reflexivity. Qed.
Lemma sc_facts : exists k tr r, sc_run = Ret (k, tr) /\ nth_error tr 1 = Some r /\
    map jb_fired (sc_jobs r (sc_box tr r)) = [[0; 1]; [0; 1]]%N /\ map jb_uid (sc_jobs r (sc_box tr r)) = [1; 2]%N /\ weights (nr_trained r) <> weights (nr_projs r).
Proof. exact (sc_view_inv _ _ _ sc_view_is). Qed.
Lemma sc_net k tr : sc_run = Ret (k, tr) -> net_run one1 one1 sc_extra sc_pops sc_projs sc_turns k tr.
Proof.
  unfold sc_run, net_run. intros H. destruct (nbackend_init _ _ _) as [k0| |] eqn:E; cbn [obind] in H; try discriminate. eauto.
Qed.
Example c87_case : exists k tr r,
  sound_network sc_pops sc_projs /\ Forall (fun u => forallb outside (tu_ops u) = true) sc_turns /\
  net_run one1 one1 sc_extra sc_pops sc_projs sc_turns k tr /\ nth_error tr 1 = Some r /\
  let box u := filter (to_population (map np_head sc_projs) sc_extra u) (sent_before (map nr_msgs tr) 1 ++ r_ext (nr_msgs r)) in
  let jobs := sc_jobs r box in
  let jobs' := map (fun jb => mkJob (jb_uid jb) (jb_pop jb) (rev (jb_fired jb))) (rev jobs) in
  map jb_fired jobs = [[0; 1]; [0; 1]]%N /\ reordered jobs jobs' /\ jobs <> jobs' /\
  weights (nr_trained r) <> weights (nr_projs r).
Proof.
  destruct sc_facts as (k & tr & r & E & Er & Hfi & Hui & Hw). exists k, tr, r. split; [apply sc_sound|]. split; [repeat constructor|]. split.
  { now apply sc_net. }
  split; [exact Er|]. cbv zeta. revert Hfi Hui. change (fun u => filter (to_population (map np_head sc_projs) sc_extra u) (sent_before (map nr_msgs tr) 1 ++ r_ext (nr_msgs r))) with (sc_box tr r). generalize (sc_jobs r (sc_box tr r)) as jobs.
  intros jobs Hfi Hui. split; [exact Hfi|]. split; [|split; [|exact Hw]].
  - exists (rev jobs). split; [apply Permutation_rev|]. clear. induction (rev jobs); constructor; auto. cbn [jb_uid jb_pop jb_fired]. split; [reflexivity|]. split; [reflexivity|apply Permutation_rev].
  - intros Hx. apply (f_equal (map jb_uid)) in Hx. rewrite Hui, map_map in Hx. cbn [jb_uid] in Hx. change (map (fun x => jb_uid x) (rev jobs)) with (map jb_uid (rev jobs)) in Hx.
    rewrite map_rev, Hui in Hx. discriminate.
Qed.
