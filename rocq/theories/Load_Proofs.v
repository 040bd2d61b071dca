(** Loading and the life of a backend. *)
From Verif Require Import Base ListLemmas Messaging_Model Messaging_Spec Messaging_Proofs Messaging_Proofs2 Projection_Model
  Delta_Model Delta_Spec Neuron_Model Pipeline_Model Pipeline_Spec Pipeline_Proofs Pipeline_Proofs2 Stdp_Model Additive_Model Train_Model
  Net_Model Net_Spec Net_Proofs Net_Proofs2 Net_Proofs3 Net_Proofs4 Load_Model Load_Spec.

Lemma load_from_spec {A B} (ok : A -> bool) (wrap : A -> B) : forall l acc,
  exists p, longest_ok ok l p /\ fst (load_from ok wrap l acc) = acc ++ map wrap p /\ snd (load_from ok wrap l acc) = forallb ok l.
Proof.
  induction l as [|a l IH]; intros acc; cbn [load_from forallb].
  - exists []. split; [exists []; auto|]. cbn [map fst snd]. now rewrite app_nil_r.
  - destruct (ok a) eqn:E; cbn [andb].
    + destruct (IH (acc ++ [wrap a])) as (p & (rest & -> & Hp & Hr) & E1 & E2). exists (a :: p). split.
      * exists rest. cbn [app forallb]. rewrite E, Hp. auto.
      * rewrite E1, E2. cbn [map]. now rewrite <- app_assoc.
    + exists []. split; [exists (a :: l); auto|]. cbn [map fst snd]. now rewrite app_nil_r.
Qed.
Lemma longest_unique {A} (ok : A -> bool) l p q : longest_ok ok l p -> longest_ok ok l q -> p = q.
Proof.
  intros (r & -> & Hp & Hr) (s & E & Hq & Hs). revert q E Hq Hp. induction p as [|a p IH]; intros [|b q] E Hq Hp; cbn [app] in *; auto.
  - subst r. cbn [forallb] in Hq. apply andb_true_iff in Hq as [Hq _]. congruence.
  - subst s. cbn [forallb] in Hp. apply andb_true_iff in Hp as [Hp _]. congruence.
  - injection E as <- E. f_equal. cbn [forallb] in *. apply andb_true_iff in Hp as [_ Hp]. apply andb_true_iff in Hq as [_ Hq]. auto.
Qed.
Lemma longest_all {A} (ok : A -> bool) l : forallb ok l = true -> longest_ok ok l l.
Proof. intros H. exists []. rewrite app_nil_r. auto. Qed.

(** ** Histories of loads *)
Definition pops_call (c : lcall) : bool := match c with LoadAllPops _ | LoadPops _ => true | _ => false end.
Definition projs_call (c : lcall) : bool := match c with LoadAllProjs _ | LoadProjs _ => true | _ => false end.
Lemma lruns_pops b : b <> Cuda -> forall cs h h' rs, lruns b h cs = Ret (h', rs) ->
  if existsb pops_call cs then longest_ok (fun e => supports_pop b (snd e)) (last_pops cs) (h_pops h') else h_pops h' = h_pops h.
Proof.
  intros Hb. induction cs as [|c cs IH]; intros h h' rs H; cbn [lruns] in H; [now injection H as <- <-|].
  destruct (lexec b h c) as [[h1 a]| |] eqn:E; cbn [obind fst snd] in H; try discriminate.
  destruct (lruns b h1 cs) as [[h2 q]| |] eqn:E2; cbn [obind fst snd] in H; try discriminate. injection H as <- <-.
  specialize (IH _ _ _ E2). cbn [existsb]. destruct c as [l|l|l|l|us|us|]; cbn [pops_call orb last_pops lexec] in *.
  - change (existsb (fun c => match c with LoadAllPops _ | LoadPops _ => true | _ => false end) cs) with (existsb pops_call cs).
    destruct (existsb pops_call cs); [exact IH|]. injection E as <- <-. cbn [h_pops] in IH. rewrite IH.
    destruct (load_from_spec (fun e : uid * npop => supports_pop b (snd e)) (fun e => e) l []) as (p & Hp & E1 & _). rewrite E1. cbn [app]. now rewrite map_id.
  - injection E as <- <-. exact IH.
  - change (existsb (fun c => match c with LoadAllPops _ | LoadPops _ => true | _ => false end) cs) with (existsb pops_call cs).
    destruct (existsb pops_call cs); [exact IH|]. destruct (forallb _ l) eqn:F; [|discriminate]. rewrite IH.
    destruct b; try congruence; injection E as <- <-; cbn [h_pops]; now apply longest_all.
  - destruct (forallb _ l) eqn:F; [|discriminate]. destruct b; try congruence; injection E as <- <-; exact IH.
  - injection E as <- <-. exact IH.
  - injection E as <- <-. exact IH.
  - destruct b; try congruence; injection E as <- <-; exact IH.
Qed.
Lemma map_wrapped_longest b l p : longest_ok (supports_proj b) l p -> longest_ok (supports_proj b) (map wrapped l) (map wrapped p).
Proof.
  intros (r & -> & Hp & Hr). exists (map wrapped r). rewrite map_app. split; [reflexivity|]. split.
  - rewrite forallb_forall in *. intros w Hw. apply in_map_iff in Hw as (x & <- & Hx). exact (Hp x Hx).
  - destruct r; cbn [map]; auto.
Qed.
Lemma lruns_projs b : b <> Cuda -> forall cs h h' rs, lruns b h cs = Ret (h', rs) ->
  if existsb projs_call cs then longest_ok (supports_proj b) (map wrapped (last_projs cs)) (h_projs h') else h_projs h' = h_projs h.
Proof.
  intros Hb. induction cs as [|c cs IH]; intros h h' rs H; cbn [lruns] in H; [now injection H as <- <-|].
  destruct (lexec b h c) as [[h1 a]| |] eqn:E; cbn [obind fst snd] in H; try discriminate.
  destruct (lruns b h1 cs) as [[h2 q]| |] eqn:E2; cbn [obind fst snd] in H; try discriminate. injection H as <- <-.
  specialize (IH _ _ _ E2). cbn [existsb]. destruct c as [l|l|l|l|us|us|]; cbn [projs_call orb last_projs lexec] in *.
  - injection E as <- <-. exact IH.
  - change (existsb (fun c => match c with LoadAllProjs _ | LoadProjs _ => true | _ => false end) cs) with (existsb projs_call cs).
    destruct (existsb projs_call cs); [exact IH|]. injection E as <- <-. cbn [h_projs] in IH. rewrite IH.
    destruct (load_from_spec (supports_proj b) wrapped l []) as (p & Hp & E1 & _). rewrite E1. cbn [app]. now apply map_wrapped_longest.
  - destruct (forallb _ l) eqn:F; [|discriminate]. destruct b; try congruence; injection E as <- <-; exact IH.
  - change (existsb (fun c => match c with LoadAllProjs _ | LoadProjs _ => true | _ => false end) cs) with (existsb projs_call cs).
    destruct (existsb projs_call cs); [exact IH|]. destruct (forallb _ l) eqn:F; [|discriminate]. rewrite IH.
    destruct b; try congruence; injection E as <- <-; cbn [h_projs]; now apply map_wrapped_longest, longest_all.
  - injection E as <- <-. exact IH.
  - injection E as <- <-. exact IH.
  - destruct b; try congruence; injection E as <- <-; exact IH.
Qed.
Lemma last_pops_none cs : existsb pops_call cs = false -> last_pops cs = [].
Proof. induction cs as [|c cs IH]; cbn [existsb last_pops]; [auto|]. destruct c; cbn [pops_call orb]; intros H; try discriminate; auto. Qed.
Lemma last_projs_none cs : existsb projs_call cs = false -> last_projs cs = [].
Proof. induction cs as [|c cs IH]; cbn [existsb last_projs]; [auto|]. destruct c; cbn [projs_call orb]; intros H; try discriminate; auto. Qed.
Lemma lruns_answer b : forall cs h h' rs i c, lruns b h cs = Ret (h', rs) -> nth_error cs i = Some c ->
  exists h1 h2 a, lexec b h1 c = Ret (h2, a) /\ nth_error rs i = Some a.
Proof.
  induction cs as [|c0 cs IH]; intros h h' rs i c H Hi; cbn [lruns] in H; [now destruct i|].
  destruct (lexec b h c0) as [[h1 a]| |] eqn:E; cbn [obind fst snd] in H; try discriminate.
  destruct (lruns b h1 cs) as [[h2 q]| |] eqn:E2; cbn [obind fst snd] in H; try discriminate. injection H as <- <-.
  destruct i as [|i]; cbn [nth_error] in *; [injection Hi as <-; eauto|eauto].
Qed.
Lemma lruns_device : forall cs h h' rs, lruns Cuda h cs = Ret (h', rs) ->
  (forall c, In c cs -> match c with LoadPops _ | LoadProjs _ => False | _ => True end) ->
  h_dev_pops h' = h_dev_pops h /\ h_dev_projs h' = h_dev_projs h.
Proof.
  induction cs as [|c cs IH]; intros h h' rs H Hc; cbn [lruns] in H; [now injection H as <- <-|].
  destruct (lexec Cuda h c) as [[h1 a]| |] eqn:E; cbn [obind fst snd] in H; try discriminate.
  destruct (lruns Cuda h1 cs) as [[h2 q]| |] eqn:E2; cbn [obind fst snd] in H; try discriminate. injection H as <- <-.
  destruct (IH _ _ _ E2) as [-> ->]; [intros x Hx; apply Hc; now right|]. specialize (Hc c (or_introl eq_refl)).
  destruct c; try easy; cbn [lexec] in E; try discriminate; injection E as <- <-; auto.
Qed.

(** ** Loads and starts *)
Section Life.
Variables pow2f expf : flt -> flt.
Notation life_run := (life_run pow2f expf).
Notation life_stage := (life_stage pow2f expf).

Lemma life_app : forall ss ss' l l2 tr, life_run l (ss ++ ss') = Ret (l2, tr) ->
  exists l1 tr1 tr2, life_run l ss = Ret (l1, tr1) /\ life_run l1 ss' = Ret (l2, tr2) /\ tr = tr1 ++ tr2.
Proof.
  induction ss as [|s ss IH]; intros ss' l l2 tr H; cbn [app Load_Model.life_run] in *; [exists l, [], tr; auto|].
  destruct (life_stage l s) as [[l1 t1]| |] eqn:E; cbn [obind fst snd] in *; try discriminate.
  destruct (life_run l1 (ss ++ ss')) as [[l3 t3]| |] eqn:E3; cbn [obind fst snd] in *; try discriminate. injection H as <- <-.
  destruct (IH _ _ _ _ E3) as (m & a & c & H1 & H2 & ->). rewrite H1. cbn [obind fst snd]. exists m, (t1 ++ a), c. split; [reflexivity|]. split; [exact H2|].
  apply app_assoc.
Qed.
Definition is_load (s : stage) : bool := match s with SLoad _ _ => true | _ => false end.
(** Before the first start. *)
Lemma life_before : forall ss l l' tr, life_run l ss = Ret (l', tr) -> Forall no_start ss -> lf_init l = false ->
  Forall unqueued (nb_projs (lf_net l)) ->
  tr = [] /\ lf_init l' = false /\ nb_step (lf_net l') = nb_step (lf_net l) /\ Forall unqueued (nb_projs (lf_net l')) /\
  (exists t, run (nb_bus (lf_net l)) (extra_ops (subscriptions ss)) = Ret (nb_bus (lf_net l'), t)) /\
  (nb_pops (lf_net l'), nb_projs (lf_net l')) =
    (if existsb is_load ss then (fst (last_load ss), map wrapped (snd (last_load ss))) else (nb_pops (lf_net l), nb_projs (lf_net l))).
Proof.
  assert (Wq : forall l, Forall unqueued (map wrapped l)) by (intros l; apply Forall_map, Forall_forall; reflexivity).
  assert (Wi : forall l, Forall unqueued l -> map wrapped l = l).
  { induction 1 as [|w l H _ IH]; cbn [map]; [reflexivity|]. rewrite IH. f_equal. unfold unqueued in H. destruct w; cbn in *. now subst. }
  induction ss as [|s ss IH]; intros l l' tr H Hf Hi Hq; cbn [Load_Model.life_run] in H.
  - injection H as <- <-. split; [reflexivity|]. split; [exact Hi|]. split; [reflexivity|]. split; [exact Hq|]. split; [|reflexivity]. exists []. reflexivity.
  - apply Forall_cons_iff in Hf as [Hs Hf].
    destruct (life_stage l s) as [[l1 t1]| |] eqn:E; cbn [obind fst snd] in *; try discriminate.
    destruct (life_run l1 ss) as [[l3 t3]| |] eqn:E3; cbn [obind fst snd] in *; try discriminate. injection H as <- <-.
    destruct s as [x|p q| |turns]; try easy; cbn [Load_Model.life_stage] in E.
    + unfold subscribed_to in E. destruct (run (nb_bus (lf_net l)) (extra_ops [x])) as [[b t]| |] eqn:R; cbn [obind fst] in E; try discriminate.
      injection E as <- <-. destruct (IH _ _ _ E3 Hf) as (-> & H1 & H2 & Hq' & (t' & H3) & H4); cbn [lf_init lf_net nb_projs nb_bus nb_pops nb_step] in *; auto.
      split; [reflexivity|]. split; [exact H1|]. split; [exact H2|]. split; [exact Hq'|]. split; [|exact H4].
      exists (t ++ t'). change (subscriptions (SSubscribe x :: ss)) with ([x] ++ subscriptions ss). unfold extra_ops. rewrite map_app.
      rewrite run_app. change (map _ [x]) with (extra_ops [x]). rewrite R. cbn [obind fst snd]. change (map _ (subscriptions ss)) with (extra_ops (subscriptions ss)).
      rewrite H3. reflexivity.
    + injection E as <- <-. destruct (IH _ _ _ E3 Hf) as (-> & H1 & H2 & Hq' & H3 & H4); cbn [lf_init lf_net nb_projs nb_bus nb_pops nb_step] in *; auto.
      split; [reflexivity|]. split; [exact H1|]. split; [exact H2|]. split; [exact Hq'|]. split; [exact H3|].
      cbn [existsb is_load orb last_load]. change (existsb (fun s => match s with SLoad _ _ => true | _ => false end) ss) with (existsb is_load ss).
      destruct (existsb is_load ss); exact H4.
    + injection E as <- <-. destruct (IH _ _ _ E3 Hf) as (-> & H1 & H2 & Hq' & H3 & H4); cbn [lf_init lf_net nb_projs nb_bus nb_pops nb_step] in *; auto.
      split; [reflexivity|]. split; [exact H1|]. split; [exact H2|]. split; [exact Hq'|]. split; [exact H3|].
      cbn [existsb is_load orb last_load]. destruct (existsb is_load ss); [exact H4|]. rewrite H4. now rewrite (Wi _ Hq).
Qed.
Lemma last_load_none ss : existsb is_load ss = false -> last_load ss = ([], []).
Proof. induction ss as [|s ss IH]; cbn [existsb last_load]; [auto|]. destruct s; cbn [is_load orb]; intros H; try discriminate; auto. Qed.
Lemma life_loaded ss l tr : life_run life_new ss = Ret (l, tr) -> Forall no_start ss ->
  tr = [] /\ lf_init l = false /\ nb_step (lf_net l) = 0%N /\
  (exists t, run bus_init (OCreate :: extra_ops (subscriptions ss)) = Ret (nb_bus (lf_net l), t)) /\
  nb_pops (lf_net l) = fst (last_load ss) /\ nb_projs (lf_net l) = map wrapped (snd (last_load ss)).
Proof.
  intros H Hf. destruct (life_before ss _ _ _ H Hf eq_refl) as (-> & H1 & H2 & _ & (t & H3) & H4); [constructor|].
  split; [reflexivity|]. split; [exact H1|]. split; [exact H2|]. split.
  - exists ((OCreate, OutUnit) :: t). cbn [run exec obind fst snd]. change (nb_bus (lf_net life_new)) with (create_endpoint bus_init) in H3. rewrite H3. reflexivity.
  - destruct (existsb is_load ss) eqn:E.
    + split; [exact (f_equal fst H4)|exact (f_equal snd H4)].
    + rewrite (last_load_none _ E). split; [exact (f_equal fst H4)|exact (f_equal snd H4)].
Qed.
Lemma first_start ss turns l tr : life_run life_new (ss ++ [SStart turns]) = Ret (l, tr) -> Forall no_start ss ->
  net_run pow2f expf (subscriptions ss) (fst (last_load ss)) (map wrapped (snd (last_load ss))) turns (lf_net l) tr /\ lf_init l = true.
Proof.
  intros H Hf. destruct (life_app _ _ _ _ _ H) as (l1 & tr1 & tr2 & H1 & H2 & ->).
  destruct (life_loaded _ _ _ H1 Hf) as (-> & Hi & Hst & (t & Hr) & Hp & Hq). cbn [Load_Model.life_run Load_Model.life_stage] in H2.
  rewrite Hi in H2. unfold subscribed_to in H2.
  destruct (run (nb_bus (lf_net l1)) (ninit_ops (nb_projs (lf_net l1)))) as [[b t2]| |] eqn:R; cbn [obind fst snd] in H2; try discriminate.
  destruct (nbackend_run pow2f expf turns _) as [[k r]| |] eqn:N; cbn [obind fst snd] in H2; try discriminate.
  injection H2 as <- <-. cbn [lf_net lf_init]. split; [|reflexivity]. cbn [app]. rewrite app_nil_r.
  eexists. split; [|exact N]. unfold nbackend_init. rewrite Hq in R |- *. rewrite Hp, Hst.
  rewrite app_comm_cons, run_app, Hr. cbn [obind fst snd]. rewrite R. reflexivity.
Qed.
End Life.
