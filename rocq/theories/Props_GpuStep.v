(** Whole runs of the CUDA backend: C101, C102. *)
From Verif Require Import Base ListLemmas Messaging_Model Projection_Model Delta_Model Delta_Spec Neuron_Model
  Gpu_Model Gpu_Spec GpuBus_Model GpuBus_Spec GpuBus_Proofs GpuBus_Proofs2
  GpuNet_Model GpuNet_Spec GpuNet_Proofs GpuNet_Proofs2 Props_Gpu Props_GpuBus Props_GpuNet GpuStep_Model GpuStep_Spec GpuStep_Proofs GpuStep_Proofs2.

Lemma run_opened sz pops projs turns h0 d h recs : gpu_run sz pops projs turns h0 d h recs -> turns <> [] ->
  exists subs h1 tr0 t' d0, NoDup (map gkey subs) /\
    (forall r ty u, listens subs r ty u <-> told (map fst projs) (first_order turns) r ty u) /\
    run h0 (match turns with t :: _ => gt_ops t | [] => [] end ++ sync_calls (first_order turns)) = Ret (h1, tr0) /\ gt_ops t' = [] /\
    gd_pops d0 = pops /\ gd_projs d0 = map (fun x => load_projection (fst x) (snd x)) projs /\
    run_facts sz subs 0 d0 [] h1 (t' :: tl turns) recs d h.
Proof.
  intros [Z F [o [d0 [O [I H]]]] L T B S] N. destruct turns as [|t turns]; [congruence|]. cbn [first_order tl] in *.
  destruct (whole_run sz o pops projs d0 t turns h0 d h recs Z O F L T ltac:(change two32 with 4294967296%N in B; lia) I H S) as [subs [h1 [tr [t' [A1 [A2 [A3 [A4 [A5 [A6 A7]]]]]]]]]].
  exists subs, h1, tr, t', d0. auto 10.
Qed.
Lemma run_empty sz pops projs h0 d h recs : gpu_run sz pops projs [] h0 d h recs -> recs = [] /\ gd_pops d = pops.
Proof.
  intros [Z F [o [d0 [O [I H]]]] L T B S]. cbn [g_steps] in H. injection H as <- _ <-. split; [reflexivity|].
  unfold g_init in I. destruct (g_subscribe _ _ _); cbn [obind] in I; try discriminate. now injection I as <-.
Qed.
Lemma reads_places heads order subs l r ty idx : (forall r ty u, listens subs r ty u <-> told heads order r ty u) ->
  places subs l r ty idx -> reads heads order l r ty idx.
Proof.
  intros L [N P]. split; [exact N|]. intros k. rewrite P. unfold mine. split; intros [m [A [B C]]]; exists m; (split; [exact A|split; [exact B|]]).
  - apply L. exact C.
  - apply L in C. exact C.
Qed.

(** ** C101: what populations and projections of a running network read and send *)
(** The bus is empty at the first step and then holds exactly the messages the
    projections sent in the step before. *)
Theorem c101_bus sz pops projs turns h0 d h recs : gpu_run sz pops projs turns h0 d h recs ->
  length recs = length turns /\
  (forall r, nth_error recs 0 = Some r -> gr_bus r = []) /\
  (forall t r r', nth_error recs t = Some r -> nth_error recs (S t) = Some r' -> gr_bus r' = concat (gr_out r)).
Proof.
  intros R. destruct turns as [|t0 turns].
  { destruct (run_empty _ _ _ _ _ _ _ R) as [-> _]. split; [reflexivity|]. split; [discriminate|]. intros [|k]; discriminate. }
  destruct (run_opened _ _ _ _ _ _ _ _ R ltac:(discriminate)) as [subs [h1 [tr [t' [d0 [_ [_ [_ [_ [_ [_ [F1 F2 _ _ _ _ _ _]]]]]]]]]]]].
  cbn [tl length] in *. split; [exact F1|].
  assert (C : forall recs L, chain L recs -> (forall r, nth_error recs 0 = Some r -> gr_bus r = L) /\
    forall t r r', nth_error recs t = Some r -> nth_error recs (S t) = Some r' -> gr_bus r' = concat (gr_out r)).
  { clear. induction recs as [|r recs IH]; intros L H.
    - split; [discriminate|]. intros [|t]; discriminate.
    - cbn [chain] in H. destruct H as [H1 H2]. destruct (IH _ H2) as [A B]. split.
      + intros x [= <-]. exact H1.
      + intros [|t] x y Hx Hy; cbn [nth_error] in Hx, Hy.
        * injection Hx as <-. now apply A.
        * now apply (B t). }
  exact (C recs [] F2).
Qed.
(** A population reads in every step exactly the impact messages on the bus (and
    from the host) of the projections onto it and of the senders the host's
    endpoint named for it; its neurons go through the run as C100 says, step by
    step. *)
Theorem c101_populations sz pops projs turns h0 d h recs : gpu_run sz pops projs turns h0 d h recs ->
  forall i u ns, nth_error pops i = Some (u, ns) ->
  (forall t r, nth_error recs t = Some r -> reads (map fst projs) (first_order turns) (for_pops r) u 1 (nth i (gr_pidx r) [])) /\
  exists ns' outs, pop_run u 0 (map (pop_read i) recs) ns = Ret (ns', outs) /\ nth_error (gd_pops d) i = Some (u, ns') /\
    map (fun r => nth_error (gr_pout r) i) recs = map (fun o => Some (left_by o)) outs.
Proof.
  intros R i u ns Hi. destruct turns as [|t0 turns].
  { destruct (run_empty _ _ _ _ _ _ _ R) as [-> E]. split; [intros [|k]; discriminate|]. exists ns, []. rewrite E. auto. }
  destruct (run_opened _ _ _ _ _ _ _ _ R ltac:(discriminate)) as [subs [h1 [tr [t' [d0 [_ [Lk [_ [_ [Ep [_ [F1 F2 F3 F4 F5 F6 F7 F8]]]]]]]]]]]].
  rewrite <- Ep in Hi. split.
  - intros t r Hr. apply (reads_places _ _ subs); [exact Lk|]. exact (F5 t r i u ns Hr Hi).
  - exact (F4 i u ns Hi).
Qed.
(** A projection reads in every step exactly the spike messages of its
    presynaptic population made in this very step (and those from the host), and
    sends exactly the impacts due, in one message with the number of the step:
    the restrictions of C99 hold in every run that was completed. *)
Theorem c101_projections sz pops projs turns h0 d h recs : gpu_run sz pops projs turns h0 d h recs ->
  forall i hd l, nth_error projs i = Some (hd, l) -> Forall syn_ok l -> Forall (fun s => 1 <= d_delay (sy_params s))%N l ->
  forall t r, nth_error recs t = Some r ->
    reads (map fst projs) (first_order turns) (for_projs r) (ph_uid hd) 0 (nth i (gr_qidx r) []) /\
    proj_sent i r = match due (map (proj_told i l) recs) t with
                    | [] => []
                    | l => [GImpact (ph_uid hd) (N.of_nat t) false (ph_pre hd) (ph_post hd) true l]
                    end.
Proof.
  intros R i hd l Hi Sok Dly t r Hr. destruct turns as [|t0 turns].
  { destruct (run_empty _ _ _ _ _ _ _ R) as [-> E]. destruct t; discriminate. }
  destruct (run_opened _ _ _ _ _ _ _ _ R ltac:(discriminate)) as [subs [h1 [tr [t' [d0 [_ [Lk [_ [_ [_ [Eq [F1 F2 F3 F4 F5 F6 F7 F8]]]]]]]]]]]].
  assert (Hp : nth_error (gd_projs d0) i = Some (load_projection hd l)) by (rewrite Eq, nth_error_map, Hi; reflexivity).
  split.
  - apply (reads_places _ _ subs); [exact Lk|]. exact (F7 t r i _ Hr Hp).
  - destruct (F6 i _ Hp) as [ords [Lo [Fo Rg]]]. set (ins := map (proj_input i) (combine ords recs)) in *.
    assert (Lc : length ins = length recs) by (unfold ins; rewrite map_length, combine_length; lia).
    assert (Fi : Forall (fun x => any_orders (gi_ord x)) ins).
    { unfold ins. apply Forall_map, Forall_forall. intros [o q] H. cbn. rewrite Forall_forall in Fo. apply Fo. eapply in_combine_l. exact H. }
    assert (Ei : map (as_in l) ins = map (proj_told i l) recs).
    { unfold ins. rewrite map_map. clear - Lo. revert ords Lo. induction recs as [|x recs IH]; intros [|o ords] Lo; try discriminate; [reflexivity|].
      cbn [combine map]. f_equal. apply IH. cbn [length] in Lo. lia. }
    pose proof (run_steps _ _ _ _ _ _ _ _ R) as B. cbn [tl length] in F1, B.
    assert (Bd : (0 + N.of_nat (length ins) + two32 <= two64)%N) by (rewrite Lc, F1; lia).
    pose proof (run_size _ _ _ _ _ _ _ _ R) as Z.
    assert (No : forall k, k < length ins -> ~ (crowded l ins k \/ exists x, nth_error ins k = Some x /\ 2 < length (read_by x))).
    { intros k Hk C. pose proof (c99_third_refuted sz hd l 0 ins k Z Sok Dly Fi Bd Hk C) as U. congruence. }
    destruct (c99_exactly_once sz hd l 0 ins Z Sok Dly Fi Bd) as [outs [Ro [_ H]]].
    { intros k Hk C. apply (No k Hk). now left. }
    { apply Forall_forall. intros x Hx. apply In_nth_error in Hx. destruct Hx as [k Hk].
      destruct (Nat.leb_spec (length (read_by x)) 2); [lia|]. exfalso. apply (No k); [apply nth_error_Some; congruence|]. right. exists x. auto. }
    rewrite Rg in Ro. injection Ro as <-. specialize (H t (proj_sent i r)). rewrite nth_error_map, Hr in H. cbn [option_map] in H.
    specialize (H eq_refl). rewrite Ei, N.add_0_l in H. exact H.
Qed.

(** ** C102: what the host gets *)
Lemma filter_id {A} (f : A -> bool) l : Forall (fun x => f x = true) l -> filter f l = l.
Proof. induction 1 as [|x l H _ IH]; cbn [filter]; [reflexivity|]. now rewrite H, IH. Qed.
Lemma pop_outs u : forall rd s ns ns' outs, pop_run u s rd ns = Ret (ns', outs) ->
  forall t m, nth_error outs t = Some (Some m) -> exists k, m = GSpike u (s + N.of_nat t) false (repeat 0%N k) /\ 1 <= k.
Proof.
  induction rd as [|ms rd IH]; intros s ns ns' outs H t m Hm; cbn [pop_run] in H.
  - injection H as _ <-. destruct t; discriminate.
  - destruct (g_population u s ms ns) as [[n1 o]| |] eqn:E; cbn [obind fst snd] in H; try discriminate.
    destruct (pop_run u (s + 1) rd n1) as [[n2 os]| |] eqn:E2; cbn [obind fst snd] in H; try discriminate.
    injection H as _ <-. destruct t as [|t]; cbn [nth_error] in Hm.
    + injection Hm as ->. destruct (c100_first_neuron_refuted _ _ _ _ _ _ E) as [k [is [-> [_ K]]]]. exists k. rewrite N.add_0_r. split; [reflexivity|lia].
    + replace (s + N.of_nat (S t))%N with (s + 1 + N.of_nat t)%N by lia. exact (IH _ _ _ _ E2 t m Hm).
Qed.
(** In every step the host is sent all impact messages of the step before twice
    (C01 promises once); the messages that came from the host are not sent back;
    the populations' messages are sent once, and in the first two steps also an
    empty message from nobody for every silent population. *)
Theorem c102_twice_refuted sz pops projs turns h0 d h recs : gpu_run sz pops projs turns h0 d h recs ->
  forall t r, nth_error recs t = Some r ->
    to_send (N.of_nat t) (gr_bus r) = send_calls (gr_bus r) /\
    to_send (N.of_nat t) (for_projs r) = send_calls (gr_bus r) ++
      send_calls (if t <=? 1 then gr_pout r else filter (fun m => 0 <? payload (as_host m)) (gr_pout r)).
Proof.
  intros R t r Hr. pose proof (c101_bus _ _ _ _ _ _ _ _ R) as [Lr [B0 Bs]].
  pose proof (c101_populations _ _ _ _ _ _ _ _ R) as P. pose proof (run_steps _ _ _ _ _ _ _ _ R) as Bd.
  destruct turns as [|t0 turns].
  { destruct (run_empty _ _ _ _ _ _ _ R) as [-> E]. destruct t; discriminate. }
  destruct (run_opened _ _ _ _ _ _ _ _ R ltac:(discriminate)) as [subs [h1 [tr [t' [d0 [_ [Lk [_ [_ [Ep [Eq [F1 F2 F3 F4 F5 F6 F7 F8]]]]]]]]]]]].
  assert (Ht : t < length recs) by (apply nth_error_Some; congruence).
  assert (Fb : filter (for_host (N.of_nat t)) (gr_bus r) = gr_bus r).
  { destruct t as [|t]; [now rewrite (B0 r Hr)|]. destruct (nth_error recs t) as [q|] eqn:Hq; [|apply nth_error_None in Hq; lia].
    rewrite (Bs t q r Hq Hr). apply filter_id. destruct (F3 t q Hq) as [T _]. unfold timed in T. eapply Forall_impl; [|exact T].
    intros m [u [p [x [l [-> _]]]]]. unfold for_host. cbn [g_external g_time negb andb]. rewrite N.add_0_l.
    replace (sub64 (N.of_nat (S t)) 1) with (N.of_nat t); [now rewrite N.eqb_refl, orb_true_r|].
    unfold sub64, w64. change two64 with 18446744073709551616%N in *. change two32 with 4294967296%N in *. lia. }
  split; [unfold to_send; now rewrite Fb|]. unfold to_send, send_calls, for_projs, for_pops. rewrite !filter_app, Fb, !map_app, <- app_assoc. f_equal.
  replace (filter (for_host (N.of_nat t)) (map as_gpu (gr_host r))) with (@nil gmsg).
  2: { symmetry. induction (gr_host r) as [|m l IH]; [reflexivity|]. cbn [map filter]. rewrite IH. now destruct m. }
  cbn [map app]. f_equal.
  assert (K : forall m, In m (gr_pout r) -> (exists u k, m = GSpike u (N.of_nat t) false (repeat 0%N k) /\ 1 <= k) \/ m = GSpike 0 0 false []).
  { intros m Hm. apply In_nth_error in Hm. destruct Hm as [i Hi]. destruct (F3 t r Hr) as [_ [_ Lp]]. rewrite Ep in Lp.
    destruct (nth_error pops i) as [[u ns]|] eqn:Np.
    2: { apply nth_error_None in Np. assert (i < length (gr_pout r)) by (apply nth_error_Some; congruence). lia. }
    destruct (P i u ns Np) as [_ [ns' [outs [Ro [_ Eo]]]]]. apply (f_equal (fun l => nth_error l t)) in Eo.
    rewrite !nth_error_map, Hr in Eo. cbn [option_map] in Eo. destruct (nth_error outs t) as [o|] eqn:Ho; cbn [option_map] in Eo; [|discriminate].
    rewrite Hi in Eo. injection Eo as Em. destruct o as [x|]; cbn [left_by] in Em; subst m; [|now right].
    left. destruct (pop_outs u _ _ _ _ _ Ro t x Ho) as [k [-> Hk]]. rewrite N.add_0_l. eauto. }
  assert (X : forall m, In m (gr_pout r) -> for_host (N.of_nat t) m = if t <=? 1 then true else 0 <? payload (as_host m)).
  { intros m Hm. destruct (K m Hm) as [[u [k [-> Hk]]]| -> ]; unfold for_host; cbn [g_external g_time negb andb as_host payload].
    - rewrite N.eqb_refl, repeat_length. cbn [orb]. destruct (t <=? 1); [reflexivity|]. symmetry. now apply Nat.ltb_lt.
    - cbn [length Nat.ltb Nat.leb]. destruct (Nat.leb_spec t 1) as [L|L].
      + destruct t as [|[|t]]; [reflexivity|reflexivity|lia].
      + replace (sub64 (N.of_nat t) 1) with (N.of_nat (t - 1)).
        2: { unfold sub64, w64. change two64 with 18446744073709551616%N in *. change two32 with 4294967296%N in *. cbn [length] in *. lia. }
        apply orb_false_intro; apply N.eqb_neq; lia. }
  destruct (t <=? 1).
  - apply filter_id, Forall_forall. exact X.
  - apply filter_ext_in. exact X.
Qed.
(** All calls a run makes on the host's bus, between the user's own. *)
Theorem c102_calls sz pops projs t turns h0 d h recs : gpu_run sz pops projs (t :: turns) h0 d h recs ->
  exists subs, NoDup (map (fun s => (gs_type s, gs_receiver s)) subs) /\
    (forall r ty u, listens subs r ty u <-> told (map fst projs) (gt_order t) r ty u) /\
    exists tr, run h0 (gt_ops t ++ sync_calls (gt_order t) ++
      match recs with [] => [] | r :: recs => step_ops subs 0 r ++ host_calls subs 1 turns recs end) = Ret (h, tr).
Proof.
  intros R. destruct (run_opened _ _ _ _ _ _ _ _ R ltac:(discriminate)) as [subs [h1 [tr [t' [d0 [Nk [Lk [Rh [Et [Ep [Eq [F1 F2 F3 F4 F5 F6 F7 [tr2 F8]]]]]]]]]]]]].
  exists subs. split; [exact Nk|]. split; [exact Lk|]. rewrite app_assoc. destruct recs as [|r recs]; [discriminate F1|].
  cbn [host_calls tl] in F8. rewrite Et in F8. exact (run_join _ _ _ _ _ _ _ Rh F8).
Qed.

(** ** A concrete run *)
(** Outside 7 -> projection 10 -> population 1 -> projection 11 -> population 2;
    the user, endpoint 1, listens to everything. *)
Definition st_pops : list (uid * list (bl_par * bl)) := [(1%N, [(par d_zero 0, cell0 0)]); (2%N, [(par d_zero 0, cell0 0)])].
Definition st_syn (d from to : N) : dsyn := mkSyn (mkDP (f_of_Z 20) d EXCITATORY) from to.
Definition st_projs : list (phead * list dsyn) :=
  [(mkPH 10 7 1 true, [st_syn 1 0 0; st_syn 2 1 0]); (mkPH 11 1 2 true, [st_syn 1 0 0])].
Definition st_ord : nat -> nat -> nat -> nat -> orders := fun _ _ _ _ => in_turns.
Definition st_turns : list gturn :=
  [mkGT [OSubscribe 0 0 10%N [7%N]; OSubscribe 1 1 50%N [10; 11]%N; OSubscribe 1 0 50%N [0; 1; 2]%N;
         OSend 1 (SpikeMsg 7 0 [0%N])] st_ord [((0, 10%N), mkSub [7%N] [])];
   mkGT [] st_ord []; mkGT [] st_ord []; mkGT [OSend 1 (SpikeMsg 7 0 [1%N])] st_ord []; mkGT [] st_ord []].
Definition st_host : bus := match run bus_init [OCreate; OCreate] with Ret (b, _) => b | _ => bus_init end.
Definition st_result : outcome (gdev * bus * list grec) :=
  obind (g_init (fun _ _ _ => in_turns) st_pops st_projs) (fun d => g_steps 64 st_turns d st_host).
(** Bus, populations' and projections' messages of every step; what the user got. *)
Definition st_view (r : outcome (gdev * bus * list grec)) : option (list (list gmsg * list gmsg * list (list gmsg)) * list message) :=
  match r with
  | Ret (_, h, recs) => Some (map (fun r => (gr_bus r, gr_pout r, gr_out r)) recs,
      match run h [OReceiveAll 1; OUnload 1 0 50%N; OUnload 1 1 50%N] with Ret (_, tr) => unloaded_msgs tr | _ => [] end)
  | _ => None
  end.
Definition w20 (k : N) : impact := mkImpact k (f_of_Z 20) EXCITATORY k 0.
Definition quiet : gmsg := GSpike 0 0 false [].
Definition st_m (u t p q : N) (k : N) : gmsg := GImpact u t false p q true [w20 k].
Lemma st_runs : st_view st_result =
  Some ([([], [quiet; quiet], [[st_m 10 0 7 1 0]; []]);
         ([st_m 10 0 7 1 0], [GSpike 1 1 false [0%N]; quiet], [[]; [st_m 11 1 1 2 0]]);
         ([st_m 11 1 1 2 0], [quiet; GSpike 2 2 false [0%N]], [[]; []]);
         ([], [quiet; quiet], [[]; []]);
         ([], [quiet; quiet], [[st_m 10 4 7 1 1]; []])],
        [SpikeMsg 2 2 [0%N]; SpikeMsg 1 1 [0%N]; SpikeMsg 0 0 []; SpikeMsg 0 0 []; SpikeMsg 0 0 [];
         as_host (st_m 11 1 1 2 0); as_host (st_m 11 1 1 2 0); as_host (st_m 10 0 7 1 0); as_host (st_m 10 0 7 1 0)]).
Proof. vm_compute. reflexivity. Qed.
Definition st_smalls (r : outcome (gdev * bus * list grec)) : bool :=
  match r with
  | Ret (_, _, recs) => forallb (fun r => (length (for_pops r) + 2 <=? 8) && forallb (fun m => payload (as_host m) <=? 8) (for_pops r) &&
                                          (length (concat (gr_out r)) <=? 8)) recs
  | _ => false
  end.
Lemma st_case res : obind (g_init (fun _ _ _ => in_turns) st_pops st_projs) (fun d => g_steps 64 st_turns d st_host) = res ->
  st_view res =
  Some ([([], [quiet; quiet], [[st_m 10 0 7 1 0]; []]);
         ([st_m 10 0 7 1 0], [GSpike 1 1 false [0%N]; quiet], [[]; [st_m 11 1 1 2 0]]);
         ([st_m 11 1 1 2 0], [quiet; GSpike 2 2 false [0%N]], [[]; []]);
         ([], [quiet; quiet], [[]; []]);
         ([], [quiet; quiet], [[st_m 10 4 7 1 1]; []])],
        [SpikeMsg 2 2 [0%N]; SpikeMsg 1 1 [0%N]; SpikeMsg 0 0 []; SpikeMsg 0 0 []; SpikeMsg 0 0 [];
         as_host (st_m 11 1 1 2 0); as_host (st_m 11 1 1 2 0); as_host (st_m 10 0 7 1 0); as_host (st_m 10 0 7 1 0)]) ->
  st_smalls res = true -> exists d h recs, gpu_run 64 st_pops st_projs st_turns st_host d h recs /\
  (forall hd l, In (hd, l) st_projs -> Forall syn_ok l /\ Forall (fun s => 1 <= d_delay (sy_params s))%N l) /\
  map gr_pout recs = [[quiet; quiet]; [GSpike 1 1 false [0%N]; quiet]; [quiet; GSpike 2 2 false [0%N]]; [quiet; quiet]; [quiet; quiet]] /\
  map gr_out recs = [[[st_m 10 0 7 1 0]; []]; [[]; [st_m 11 1 1 2 0]]; [[]; []]; [[]; []]; [[st_m 10 4 7 1 1]; []]].
Proof.
  intros E V Sm. destruct res as [[[d h] recs]| |]; [|discriminate V|discriminate V]. exists d, h, recs. cbn [st_view st_smalls] in *.
  assert (Vr : map (fun r => (gr_bus r, gr_pout r, gr_out r)) recs =
    [([], [quiet; quiet], [[st_m 10 0 7 1 0]; []]);
         ([st_m 10 0 7 1 0], [GSpike 1 1 false [0%N]; quiet], [[]; [st_m 11 1 1 2 0]]);
         ([st_m 11 1 1 2 0], [quiet; GSpike 2 2 false [0%N]], [[]; []]);
         ([], [quiet; quiet], [[]; []]);
         ([], [quiet; quiet], [[st_m 10 4 7 1 1]; []])]).
  { apply (f_equal (fun x => match x with Some (a, _) => a | None => [] end)) in V. exact V. }
  clear V. split; [|split; [|split]].
  - split.
    + lia.
    + repeat (apply Forall_cons; [intros a b c e; apply in_turns_any|]). constructor.
    + destruct (g_init (fun _ _ _ => in_turns) st_pops st_projs) as [d0| |] eqn:E0; cbn [obind] in E; try discriminate.
      exists (fun _ _ _ => in_turns), d0. split; [intros a b c; apply in_turns_any|]. split; [exact E0|exact E].
    + vm_compute. discriminate.
    + repeat constructor.
    + vm_compute. discriminate.
    + apply Forall_forall. intros r Hr. rewrite forallb_forall in Sm. specialize (Sm r Hr).
      apply andb_prop in Sm. destruct Sm as [Sm S3]. apply andb_prop in Sm. destruct Sm as [S1 S2].
      apply Nat.leb_le in S1, S3. change (length st_pops) with 2. unfold small_step. change limit with 4294967296%N.
      split; [lia|]. split; [|lia]. apply Forall_forall. intros m Hm. rewrite forallb_forall in S2. specialize (S2 m Hm). apply Nat.leb_le in S2. lia.
  - intros hd l [H|[H|[]]]; injection H as <- <-; (split; [repeat constructor|repeat constructor; discriminate]).
  - apply (f_equal (map (fun x => snd (fst x)))) in Vr. rewrite map_map in Vr. exact Vr.
  - apply (f_equal (map snd)) in Vr. rewrite map_map in Vr. exact Vr.
Qed.
Lemma st_small : st_smalls st_result = true.
Proof. vm_compute. reflexivity. Qed.
(** Every hypothesis holds of it; spikes need a step from one population to the
    next, and the user got every impact message twice and three empty messages. *)
Example c101_case : exists d h recs, gpu_run 64 st_pops st_projs st_turns st_host d h recs /\
  (forall hd l, In (hd, l) st_projs -> Forall syn_ok l /\ Forall (fun s => 1 <= d_delay (sy_params s))%N l) /\
  map gr_pout recs = [[quiet; quiet]; [GSpike 1 1 false [0%N]; quiet]; [quiet; GSpike 2 2 false [0%N]]; [quiet; quiet]; [quiet; quiet]] /\
  map gr_out recs = [[[st_m 10 0 7 1 0]; []]; [[]; [st_m 11 1 1 2 0]]; [[]; []]; [[]; []]; [[st_m 10 4 7 1 1]; []]].
Proof. exact (st_case st_result eq_refl st_runs st_small). Qed.
