(** Proofs about the training program of the MNIST example. *)
From Verif Require Import Base ListLemmas Messaging_Model Messaging_Spec Projection_Model Neuron_Model Pipeline_Model Pipeline_Spec Train_Model Net_Model Net_Spec
  Framework_Model Safe_Spec Exec_Model Exec_Spec Props_Exec Props_ExecSafe Handlers_Model Classify_Model Classify_Spec Classify_Proofs Props_Classify Build_Model Mnist_Model Mnist_Spec.

(** Subscriptions of the executor are to spikes. *)
Lemma connections_spikes ins calls u v : subscribed (connections ins calls) 1 u v = false.
Proof.
  unfold subscribed. destruct (existsb _ _) eqn:E; [|reflexivity]. apply existsb_exists in E as (x & Hx & Hb). exfalso.
  assert (T : sb_type x = 0); [|rewrite T in Hb; discriminate Hb].
  apply in_app_or in Hx as [Hx|Hx]; apply in_flat_map in Hx as (c & _ & Hc); [|destruct c; [|contradiction]]; apply in_map_iff in Hc as (p & <- & _); reflexivity.
Qed.
Lemma channels_named b es : Permutation.Permutation (concat b) es -> incl (map fst (channels_of b)) (map fst es).
Proof.
  intros P c Hc. apply in_map_iff in Hc as ((c' & ps) & E & Hc). cbn [fst] in E. subst c'. unfold channels_of in Hc. apply in_flat_map in Hc as (k & Hk & Hi).
  destruct k as [|[c' p] k]; [contradiction|]. destruct Hi as [Hi|[]]. apply pair_equal_spec in Hi as [-> _].
  change c with (fst (c, p)). apply in_map. eapply Permutation.Permutation_in; [exact P|]. apply in_concat. exists ((c, p) :: k). split; [exact Hk|now left].
Qed.

(** Generators. *)
Lemma labels_ok d step : trainable d -> (step < ds_train d * 15)%N ->
  exists nf, nth_error (ds_data d) (N.to_nat (step / 15)) = Some nf /\
    training_labels d step = Ret (if N.eqb (step mod 15) 11 then [fst nf] else []).
Proof.
  intros ((_ & H2 & _) & _ & _ & _) Hs. assert (Hi : (step / 15 < ds_train d)%N) by (apply N.div_lt_upper_bound; lia). unfold ds_size in *.
  destruct (at_lt (ds_data d) (step / 15) ltac:(lia)) as (nf & E1 & E2 & _). exists nf. split; [exact E1|].
  unfold training_labels, mod_, div_, steps_per_image. replace (N.eqb 15 0) with false by reflexivity. cbn [obind]. destruct (N.eqb (step mod 15) 11); [|reflexivity].
  unfold training_data, range. replace (0 + ds_train d <=? N.of_nat (length (ds_data d)))%N with true by lia. cbn [obind]. rewrite E2. reflexivity.
Qed.
Lemma labels_end d : training_labels d (ds_train d * 15) = Ret [].
Proof. unfold training_labels, mod_, steps_per_image. replace (N.eqb 15 0) with false by reflexivity. cbn [obind]. rewrite N.mod_mul by discriminate. reflexivity. Qed.
Lemma trainable_steps d : trainable d -> training_steps d = (ds_train d * 15)%N.
Proof. intros (_ & H & _ & H'). unfold training_steps, w64. rewrite H. apply N.mod_small. unfold two32, two64 in *. lia. Qed.
Lemma source_ok d images c step : trainable d -> (step <= ds_train d * 15)%N -> exists l, generator_of d images c step = Ret l.
Proof.
  intros Hd Hs. unfold generator_of. destruct (N.eqb c images).
  - destruct Hd as (H1 & _ & H3 & _). destruct (c64_training d step H1 H3) as (_ & _ & l & _ & _ & E & _). eauto.
  - destruct (N.eq_dec step (ds_train d * 15)) as [->|]; [rewrite labels_end; eauto|]. destruct (labels_ok d step Hd ltac:(lia)) as (nf & _ & E). eauto.
Qed.

Lemma generate_ok gen step ins : (forall c, exists l, gen c step = Ret l) -> exists l, generate gen step ins = Ret l.
Proof. intros H. induction ins as [|[c ps] t (l & IH)]; [eexists; reflexivity|]. destruct (H c) as (a & E). cbn [generate]. rewrite E. cbn [obind]. rewrite IH. cbn [obind]. eauto. Qed.
Lemma generated gen step s ins : forall l learn go n (pre : list (list N)), generate gen step ins = Ret l -> length pre = n ->
  inputs_for (N.of_nat s) n ins [mkXT learn (fun j => nth j (pre ++ l) []) go] = flat_map (fun c => match gen (fst c) step with Ret a => spoken (fst c) s a | _ => [] end) ins.
Proof.
  induction ins as [|[c ps] t IH]; intros l learn go n pre E L; [reflexivity|]. cbn [generate] in E. destruct (gen c step) as [a| |] eqn:Ea; try discriminate E. cbn [obind] in E.
  destruct (generate gen step t) as [r| |] eqn:Er; try discriminate E. cbn [obind] in E. injection E as <-. cbn [inputs_for flat_map fst xt_data]. rewrite Ea.
  assert (En : nth n (pre ++ a :: r) [] = a) by (rewrite <- L; apply nth_middle). rewrite En. rewrite app_nil_r. f_equal; [now destruct a|].
  replace (pre ++ a :: r) with ((pre ++ [a]) ++ r) by now rewrite <- app_assoc. apply IH; [reflexivity|]. rewrite app_length. cbn. lia.
Qed.

(** Rounds. *)
Lemma run_app_x pow2f expf ins outs calls l1 l2 x : executor_run pow2f expf ins outs calls (l1 ++ l2) x =
  obind (executor_run pow2f expf ins outs calls l1 x) (fun y => obind (executor_run pow2f expf ins outs calls l2 (fst y)) (fun z => Ret (fst z, snd y ++ snd z))).
Proof.
  revert x. induction l1 as [|u t IH]; intros x; cbn [app executor_run obind fst snd].
  - destruct (executor_run _ _ _ _ _ l2 x) as [[a b]| |]; reflexivity.
  - destruct (executor_turn _ _ _ _ _ u x) as [[a o]| |]; cbn [obind fst snd]; try reflexivity. rewrite IH.
    destruct (executor_run _ _ _ _ _ t a) as [[a1 r1]| |]; cbn [obind fst snd]; try reflexivity.
    destruct (executor_run _ _ _ _ _ l2 a1) as [[a2 r2]| |]; cbn [obind fst snd]; try reflexivity. now destruct o.
Qed.
Lemma turn_step pow2f expf ins outs calls u x x' o : executor_turn pow2f expf ins outs calls u x = Ret (x', o) ->
  if xt_go u then (exists r, o = Some r) /\ nb_step (x_net x') = add64 (nb_step (x_net x)) 1 else o = None.
Proof.
  intros E. unfold executor_turn in E. destruct (send_inputs _ _ _ _ _) as [b0| |]; try discriminate E. cbn [obind] in E. destruct (xt_go u); [|now injection E as <- <-].
  destruct (nbackend_step _ _ _ _) as [s| |] eqn:En; try discriminate E. cbn [obind] in E.
  destruct (update_outputs _ _ _) as [p| |]; try discriminate E. cbn [obind] in E.
  destruct (update_handlers _ _ _ _ _) as [h| |]; try discriminate E. cbn [obind] in E.
  destruct (update_observers _ _ _) as [v| |]; try discriminate E. cbn [obind] in E.
  injection E as <- <-. split; [eauto|]. cbn [x_net with_net nb_step]. unfold nbackend_step in En.
  repeat match type of En with
  | obind ?a _ = _ => destruct a; try discriminate En; cbn [obind] in En
  | (match ?p with pair _ _ => _ end) = _ => destruct p
  end. injection En as <-. reflexivity.
Qed.
Lemma init_step gens ins outs calls pops projs x : executor_init gens ins outs calls pops projs = Ret x -> nb_step (x_net x) = 0%N.
Proof.
  unfold executor_init. destruct (gen_inputs gens ins) as [li| |]; try discriminate. cbn [obind]. destruct (run _ _) as [r| |]; try discriminate. cbn [obind]. now intros [= <-].
Qed.

Section Loop.
Variables (pow2f expf : flt -> flt) (gens : list uid) (gen : uid -> N -> outcome (list N)) (ins outs : list (uid * list uid)) (calls : list xcall) (pops : list (uid * npop)) (projs : list nproj).
Variables (first : list bool) (steps : N).
Hypothesis Hs : sound_network pops projs.
Hypothesis Hw : wired (connections ins calls) pops projs.
Hypothesis Hg : incl (map fst ins) gens.
Hypothesis Hgen : forall c step, (step <= steps)%N -> exists l, gen c step = Ret l.
Hypothesis Hsteps : (steps < two64)%N.
Variable x0 : xstate.
Hypothesis Hi : executor_init gens ins outs calls pops projs = Ret x0.

Lemma loop_goes : forall fuel turns x recs,
  executor_run pow2f expf ins outs calls turns x0 = Ret (x, recs) -> nb_step (x_net x) = N.of_nat (length turns) -> length recs = length turns ->
  (N.of_nat (length turns) <= steps)%N -> (forall i u, nth_error turns i = Some u -> round_at gen ins first steps (N.of_nat i) = Ret u) ->
  exists x' recs' turns', executor_loop pow2f expf gen ins outs calls first steps fuel x = Ret (x', recs', Nat.ltb (N.to_nat steps - length turns) fuel) /\
    length recs' = Nat.min fuel (N.to_nat steps - length turns) /\
    executor_run pow2f expf ins outs calls (turns ++ turns') x0 = Ret (x', recs ++ recs') /\
    forall i u, nth_error (turns ++ turns') i = Some u -> round_at gen ins first steps (N.of_nat i) = Ret u.
Proof.
  induction fuel as [|fuel IH]; intros turns x recs Hr Hn Hl Hle Hu.
  - exists x, [], []. split; [reflexivity|]. split; [reflexivity|]. rewrite !app_nil_r. auto.
  - cbn [executor_loop]. rewrite Hn. destruct (generate_ok gen (N.of_nat (length turns)) ins) as (l & El); [intros c; now apply Hgen|].
    unfold round_at at 1. rewrite El. cbn [obind]. set (u := mkXT (if N.eqb (N.of_nat (length turns)) 0 then first else []) (fun j => nth j l []) (negb (N.eqb (N.of_nat (length turns)) steps))).
    assert (Er : round_at gen ins first steps (N.of_nat (length turns)) = Ret u) by (unfold round_at; rewrite El; reflexivity).
    assert (Hu' : forall i v, nth_error (turns ++ [u]) i = Some v -> round_at gen ins first steps (N.of_nat i) = Ret v).
    { intros i v Hv. destruct (Nat.lt_ge_cases i (length turns)) as [Li|Li]; [rewrite nth_error_app1 in Hv by exact Li; auto|].
      rewrite nth_error_app2 in Hv by exact Li. destruct (i - length turns) as [|j] eqn:Ej; [|destruct j; discriminate Hv]. injection Hv as <-. replace i with (length turns) by lia. exact Er. }
    destruct (c116_never_fails pow2f expf gens ins outs calls pops projs (turns ++ [u]) Hs Hw Hg) as (x1 & recs1 & y0 & Ei & E1). rewrite Hi in Ei. injection Ei as <-.
    pose proof E1 as E1'. rewrite run_app_x, Hr in E1. cbn [obind fst snd executor_run] in E1.
    destruct (executor_turn pow2f expf ins outs calls u x) as [[x2 o]| |] eqn:Et; try discriminate E1. cbn [obind fst snd] in E1 |- *. injection E1 as Ex Ec.
    subst x2. pose proof (turn_step _ _ _ _ _ _ _ _ _ Et) as Hstep. unfold u in Hstep at 1. cbn [xt_go] in Hstep.
    destruct (N.eqb (N.of_nat (length turns)) steps) eqn:Eq; cbn [negb] in Hstep.
    + subst o. apply N.eqb_eq in Eq. exists x1, [], [u]. split; [|split; [|split; [|exact Hu']]].
      * replace (Nat.ltb (N.to_nat steps - length turns) (S fuel)) with true by (symmetry; apply Nat.ltb_lt; lia). reflexivity.
      * cbn [length]. lia.
      * rewrite E1'. now rewrite <- Ec.
    + destruct Hstep as [(r & ->) Hn1]. apply N.eqb_neq in Eq. rewrite Hn in Hn1.
      destruct (IH (turns ++ [u]) x1 (recs ++ [r])) as (x' & recs' & turns' & F1 & F2 & F3 & F4).
      * rewrite E1'. f_equal. f_equal. symmetry. exact Ec.
      * rewrite app_length, Hn1. cbn [length]. unfold add64, w64. rewrite N.mod_small by lia. lia.
      * rewrite !app_length, Hl. reflexivity.
      * rewrite app_length. cbn [length]. lia.
      * exact Hu'.
      * rewrite app_length in F1, F2. cbn [length] in F1, F2. exists x', (r :: recs'), (u :: turns'). rewrite F1. cbn [obind]. split; [|split; [|split]].
        -- f_equal. f_equal. destruct (Nat.ltb_spec (N.to_nat steps - (length turns + 1)) fuel), (Nat.ltb_spec (N.to_nat steps - length turns) (S fuel)); try reflexivity; lia.
        -- cbn [length]. lia.
        -- rewrite <- !app_assoc in F3. exact F3.
        -- rewrite <- app_assoc in F4. exact F4.
Qed.
Lemma loop_all fuel : exists x recs turns, executor_loop pow2f expf gen ins outs calls first steps fuel x0 = Ret (x, recs, Nat.ltb (N.to_nat steps) fuel) /\
  length recs = Nat.min fuel (N.to_nat steps) /\ executor_ran pow2f expf gens ins outs calls pops projs turns x recs /\
  forall i u, nth_error turns i = Some u -> round_at gen ins first steps (N.of_nat i) = Ret u.
Proof.
  destruct (loop_goes fuel [] x0 []) as (x & recs & turns & F1 & F2 & F3 & F4); try reflexivity.
  - apply (init_step _ _ _ _ _ _ _ Hi).
  - cbn. lia.
  - intros [|i] u H; discriminate H.
  - cbn [length] in *. rewrite Nat.sub_0_r in *. exists x, recs, turns. split; [exact F1|]. split; [exact F2|]. split; [exists x0; auto|exact F4].
Qed.
End Loop.

Lemma rounds_go : forall t turns, (forall i u, nth_error turns i = Some u -> i <= t -> xt_go u = true) ->
  nth_error (rounds [] turns) t = option_map (fun u => [u]) (nth_error turns t).
Proof.
  induction t as [|t IH]; intros [|u turns] H; try reflexivity; cbn [rounds]; rewrite (H 0 u eq_refl) by lia.
  - reflexivity.
  - cbn [nth_error app]. apply IH. intros i v Hv Hl. apply (H (S i) v Hv). lia.
Qed.
