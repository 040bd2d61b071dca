From Coq Require Import String Sorted Permutation Lia ZArith.
From Verif Require Import Base ListLemmas Codec_Model Codec_Proofs Sonata_Model Sonata_Spec Sonata_Proofs.
Open Scope list_scope.

(** ** A second round trip changes nothing *)
Lemma sorted_perm_eq {A} (key : A -> N) : forall l l', Permutation l l' ->
  StronglySorted N.lt (map key l) -> StronglySorted N.lt (map key l') -> l = l'.
Proof.
  induction l as [|a l IH]; intros l' P S S'.
  - apply Permutation_nil in P. now subst.
  - destruct l' as [|b l']; [symmetry in P; now apply Permutation_nil in P|].
    cbn [map] in S, S'. inversion S; inversion S'; subst.
    assert (a = b).
    { assert (In a (b :: l')) as Ia by (eapply Permutation_in; [exact P|now left]).
      assert (In b (a :: l)) as Ib by (eapply Permutation_in; [symmetry; exact P|now left]).
      destruct Ia as [|Ia]; [congruence|]. destruct Ib as [|Ib]; [congruence|].
      rewrite Forall_forall in *. specialize (H2 (key b) (in_map key _ _ Ib)). specialize (H6 (key a) (in_map key _ _ Ia)).
      lia. }
    subst b. f_equal. apply IH; [now apply Permutation_cons_inv in P|assumption|assumption].
Qed.

Definition settled (k : neuron_kind) (n : struct) : Prop :=
  neuron_ok k n /\ forall f, existsb (String.eqb f) (forgotten k) = true -> get f n = get f (default_neuron k).
Lemma kept_settled k n n' : neuron_ok k n -> kept_except (forgotten k) k n n' -> settled k n'.
Proof.
  intros Hn [Hm Hg]. split; [unfold neuron_ok; congruence|]. intros f Hf. rewrite Hg, Hf. reflexivity.
Qed.
Lemma settled_kept k n n' : settled k n -> kept_except (forgotten k) k n n' -> n' = n.
Proof.
  intros [Hn Hs] [Hm Hg]. apply struct_ext; [rewrite Hn; apply kind_nodup|exact Hm|].
  intros f. rewrite Hg. destruct (existsb _ _) eqn:E; [symmetry; now apply Hs|reflexivity].
Qed.
Lemma same_population_uids l l' : Forall2 same_population l l' -> map p_uid l' = map p_uid l.
Proof. induction 1 as [|p p' l l' (E & _) _ IH]; cbn [map]; congruence. Qed.

Lemma loaded_pops_ok l l' : Forall pop_ok l -> Forall2 same_population l l' ->
  Forall (fun p => pop_ok p /\ Forall (settled (p_kind p)) (p_neurons p)) l'.
Proof.
  intros H F. induction F as [|p p' l l' (Eu & Ek & Fn) _ IH]; [constructor|]. inversion H; subst.
  constructor; [|now apply IH]. destruct H2 as (Hu & Hne & Hok). unfold pop_ok. rewrite Eu, Ek.
  assert (Forall (settled (p_kind p)) (p_neurons p')) as S.
  { clear Hne. induction Fn as [|n n' t t' K _ IH2]; [constructor|]. inversion Hok; subst.
    constructor; [eapply kept_settled; eassumption|now apply IH2]. }
  repeat split; [exact Hu| |eapply Forall_impl; [|exact S]; now intros n [Q _]|exact S].
  intros E. rewrite E in Fn. inversion Fn. congruence.
Qed.
Lemma loaded_saveable net net' : saveable net -> loaded_as net net' -> saveable net'.
Proof.
  intros H L. destruct (la_pops _ _ L) as (ps & P & F).
  assert (Forall pop_ok ps) as Hps by (eapply Permutation_Forall; [symmetry; exact P|apply sv_pops; assumption]).
  split.
  - rewrite (la_uid _ _ L). apply sv_uid; assumption.
  - eapply Forall_impl; [|eapply loaded_pops_ok; [exact Hps|exact F]]. now intros p [Q _].
  - eapply Permutation_Forall; [symmetry; exact (la_projs _ _ L)|apply sv_projs; assumption].
  - intros E. rewrite E in F. inversion F; subst. apply Permutation_nil in P. now apply (sv_some_pop _ H).
  - intros E. pose proof (la_projs _ _ L) as Q. rewrite E in Q. apply Permutation_nil in Q. now apply (sv_some_proj _ H).
  - rewrite (same_population_uids _ _ F). eapply Permutation_NoDup; [|apply (sv_pop_uids _ H)].
    apply Permutation_map. now symmetry.
  - eapply Permutation_NoDup; [|apply (sv_proj_uids _ H)]. apply Permutation_map. symmetry. apply (la_projs _ _ L).
Qed.
Lemma loaded_twice net net' net'' : saveable net -> loaded_as net net' -> loaded_as net' net'' -> net'' = net'.
Proof.
  intros H L1 L2. destruct (la_pops _ _ L1) as (ps & P & F). destruct (la_pops _ _ L2) as (ps2 & P2 & F2).
  assert (Forall pop_ok ps) as Hps by (eapply Permutation_Forall; [symmetry; exact P|apply sv_pops; assumption]).
  pose proof (loaded_pops_ok _ _ Hps F) as S.
  assert (ps2 = n_pops net') as ->.
  { apply (sorted_perm_eq p_uid); [exact P2| |exact (la_pop_order _ _ L1)].
    pose proof (la_pop_order _ _ L2) as Q. rewrite (same_population_uids _ _ F2) in Q. exact Q. }
  assert (n_pops net'' = n_pops net') as E.
  { revert S F2. generalize (n_pops net') (n_pops net''). intros l l' S F2. induction F2 as [|p p' l l' (Eu & Ek & Fn) _ IH]; [reflexivity|].
    inversion S; subst. f_equal; [|now apply IH]. destruct H2 as [_ Q]. destruct p as [u k ns], p' as [u' k' ns'].
    cbn [p_uid p_kind p_neurons] in *. subst. f_equal. clear -Q Fn. induction Fn; [reflexivity|]. inversion Q; subst.
    f_equal; [eapply settled_kept; eassumption|now apply IHFn]. }
  assert (n_projs net'' = n_projs net') as E2.
  { apply (sorted_perm_eq j_uid); [exact (la_projs _ _ L2)|exact (la_proj_order _ _ L2)|exact (la_proj_order _ _ L1)]. }
  pose proof (la_uid _ _ L2). destruct net', net''; cbn in *; congruence.
Qed.

(** ** When saving succeeds *)

Lemma create_group_cases {G} name (g : G) l :
  (create_group name g l = Throw /\ In name (map fst l)) \/
  (create_group name g l = Ret (l ++ [(name, g)]) /\ ~ In name (map fst l)).
Proof.
  unfold create_group. destruct (existsb _ _) eqn:E.
  - left. split; [reflexivity|]. apply existsb_exists in E as (p & Hp & E). apply text_eqb_eq in E. subst. now apply in_map.
  - right. split; [reflexivity|]. intros Q. apply in_map_iff in Q as (p & <- & Hp).
    assert (existsb (fun q => text_eqb (fst p) (fst q)) l = true); [|congruence].
    apply existsb_exists. exists p. split; [exact Hp|now apply text_eqb_eq].
Qed.
Lemma NoDup_snoc {A} (l : list A) x : NoDup l -> ~ In x l -> NoDup (l ++ [x]).
Proof. intros. apply NoDup_app_intro; [assumption|repeat constructor; tauto|]. intros y Hy [E|[]]. now subst. Qed.

Lemma save_pops_cases : forall l ns c, c <> Some [] -> NoDup (map fst ns) ->
  save_pops l (ns, c) = Throw \/
  exists c', save_pops l (ns, c) = Ret (ns ++ map node_entry l, c') /\ c' <> Some [] /\
             NoDup (map fst (ns ++ map node_entry l)).
Proof.
  unfold save_pops. induction l as [|p l IH]; intros ns c Hc Hn.
  - right. exists c. cbn [map]. rewrite app_nil_r. repeat split; auto.
  - cbn [ofold fst snd]. change (add_population ns p) with (create_group (show_uid (p_uid p)) (node_group_of p) ns).
    destruct (create_group_cases (show_uid (p_uid p)) (node_group_of p) ns) as [[-> Q]|[-> Q]]; [now left|].
    cbn [obind]. destruct (add_neuron_type_ok (neuron_type_id (p_kind p)) c Hc) as (r & -> & Hr). cbn [obind].
    change [(show_uid (p_uid p), node_group_of p)] with [node_entry p].
    destruct (IH (ns ++ [node_entry p]) (Some r)) as [->|(c' & -> & Hc' & Hn')]; [congruence| |now left|].
    + rewrite map_app. cbn [map]. now apply NoDup_snoc.
    + right. exists c'. rewrite <- app_assoc in *. auto.
Qed.
Lemma save_projs_cases : forall l es c, c <> Some [] -> NoDup (map fst es) ->
  save_projs l (es, c) = Throw \/
  exists c', save_projs l (es, c) = Ret (es ++ map edge_entry l, c') /\ c' <> Some [] /\
             NoDup (map fst (es ++ map edge_entry l)) /\ Forall (fun j => j_kind j <> AdditiveSyn) l.
Proof.
  unfold save_projs. induction l as [|j l IH]; intros es c Hc Hn.
  - right. exists c. cbn [map]. rewrite app_nil_r. repeat split; auto.
  - cbn [ofold fst snd]. destruct (j_kind j) eqn:K.
    2: { left. unfold add_projection. rewrite K. reflexivity. }
    all: assert (add_projection es j = create_group (fst (edge_entry j)) (snd (edge_entry j)) es) as ->
      by (unfold add_projection, edge_entry, saved_names; rewrite K; reflexivity);
      destruct (create_group_cases (fst (edge_entry j)) (snd (edge_entry j)) es) as [[-> Q]|[-> Q]]; [now left|];
      cbn [obind]; rewrite <- K;
      destruct (add_synapse_type_ok (synapse_type_id (j_kind j)) c Hc) as (r & -> & Hr); cbn [obind];
      rewrite <- surjective_pairing;
      (destruct (IH (es ++ [edge_entry j]) (Some r)) as [->|(c' & -> & Hc' & Hn' & Hk)];
        [congruence|rewrite map_app; cbn [map]; now apply NoDup_snoc|now left|]);
      right; exists c'; rewrite <- app_assoc in *; repeat split; auto; constructor; auto; congruence.
Qed.

Lemma save_cases d net : tables_ok d ->
  save_network d net = Throw \/
  exists cn cs, storable net /\ save_network d net =
    Ret (mkDisk (map node_entry (n_pops net)) (Some (show_uid (n_uid net))) (map edge_entry (n_projs net)) cn cs) /\
    cn <> Some [] /\ cs <> Some [].
Proof.
  intros [T1 T2]. unfold save_network. fold save_pops. fold save_projs.
  destruct (save_projs_cases (n_projs net) [] _ T2) as [->|(c & -> & Hc & Hn & Hk)]; [constructor|now left|].
  cbn [obind fst snd app] in *.
  destruct (save_pops_cases (n_pops net) [] _ T1) as [->|(c2 & -> & Hc2 & Hn2)]; [constructor|now left|].
  cbn [obind fst snd app] in *.
  destruct (add_neuron_type_ok (neuron_type_id Blifat) c2 Hc2) as (r & -> & Hr). cbn [obind].
  destruct (n_pops net) eqn:P; [now left|]. destruct (n_projs net) eqn:J; [now left|].
  right. exists (Some r), c. cbn [config_list obind]. rewrite <- P, <- J in *. split; [|split; [reflexivity|split; [congruence|exact Hc]]].
  unfold storable. repeat split; try congruence; try assumption.
  - rewrite map_map in Hn2. eapply (NoDup_map_inv show_uid). rewrite map_map. exact Hn2.
  - rewrite map_map in Hn. eapply (NoDup_map_inv show_uid). rewrite map_map. exact Hn.
Qed.
Lemma storable_ok d net : storable net -> uids_ok net -> tables_ok d -> exists cn cs,
  save_network d net = Ret (mkDisk (map node_entry (n_pops net)) (Some (show_uid (n_uid net)))
                                   (map edge_entry (n_projs net)) cn cs).
Proof.
  intros (N1 & N2 & D1 & D2 & Ka) (U0 & U1 & U2) [T1 T2]. unfold save_network. fold save_pops. fold save_projs.
  assert (Forall (fun j => uid_ok (j_uid j)) (n_projs net)) as U2' by (eapply Forall_impl; [|exact U2]; cbn; tauto).
  destruct (save_projs_ok (n_projs net) [] (d_synapse_csv d) T2) as (c & E & Hc); cbn [app]; try assumption.
  cbn [map app] in E. rewrite E. cbn [obind fst snd].
  destruct (save_pops_ok (n_pops net) [] (d_neuron_csv d) T1) as (c2 & E2 & Hc2); cbn [app]; try assumption.
  cbn [map app] in E2. rewrite E2. cbn [obind fst snd].
  destruct (add_neuron_type_ok (neuron_type_id Blifat) c2 Hc2) as (r & -> & _). cbn [obind].
  destruct (n_pops net) eqn:P; [congruence|]. destruct (n_projs net) eqn:J; [congruence|].
  cbn [config_list obind]. exists (Some r), c. reflexivity.
Qed.
Lemma save_iff d net : uids_ok net -> tables_ok d ->
  (storable net -> exists d', save_network d net = Ret d') /\
  (~ storable net -> save_network d net = Throw).
Proof.
  intros U T. split.
  - intros S. destruct (storable_ok d net S U T) as (cn & cs & E). eauto.
  - intros S. destruct (save_cases d net T) as [E|(cn & cs & S' & _)]; [exact E|contradiction].
Qed.

(** ** Empty populations and projections cannot be loaded *)
Lemma load_pops_empty l : Forall (fun p => uid_ok (p_uid p)) l -> Exists (fun p => p_neurons p = []) l ->
  forall acc,
  ofold (fun acc p =>
    match g_types (snd p) with
    | [] => UB
    | t :: _ => match neuron_kind_of t with
                | Some k => obind (load_population k (fst p) (snd p)) (fun x => Ret (acc ++ [x]))
                | None => Ret acc
                end
    end) (map node_entry l) acc = UB.
Proof.
  induction l as [|p l IH]; intros Hu He acc; [inversion He|]. inversion Hu; subst.
  cbn [map ofold]. unfold node_entry at 1 2 3. cbn [fst snd]. unfold node_group_of at 1. cbn [g_types].
  destruct (p_neurons p) eqn:E; [reflexivity|]. cbn [length repeat]. rewrite kind_of_id.
  rewrite load_saved_population by assumption. cbn [obind]. apply IH; [assumption|].
  inversion He; subst; [congruence|assumption].
Qed.
Lemma load_projs_empty l : Forall (fun j => uid_ok (j_uid j) /\ uid_ok (j_pre j) /\ uid_ok (j_post j)) l ->
  Forall (fun j => j_kind j <> AdditiveSyn) l ->
  Forall (fun j => Forall (fun s => synapse_ok (j_kind j) (fst (fst s))) (j_synapses j)) l ->
  Exists (fun j => j_synapses j = []) l ->
  forall acc,
  ofold (fun acc p =>
    match e_types (snd p) with
    | [] => UB
    | t :: _ =>
        if (t =? 100)%Z then obind (load_projection DeltaSyn delta_loaded (fst p) (snd p)) (fun x => Ret (acc ++ [x]))
        else if (t =? 102)%Z then
          obind (load_projection ResourceSyn resource_syn_loaded (fst p) (snd p)) (fun x => Ret (acc ++ [x]))
        else Ret acc
    end) (map edge_entry l) acc = UB.
Proof.
  induction l as [|j l IH]; intros Hu Hk Hs He acc; [inversion He|]. inversion Hu; inversion Hk; inversion Hs; subst.
  cbn [map ofold]. destruct (j_synapses j) eqn:E; [unfold edge_entry at 1, edge_group_of at 1; cbn [snd e_types]; rewrite E; reflexivity|].
  assert (Forall proj_ok [j]) as Hj.
  { constructor; [|constructor]. destruct H1 as (? & ? & ?). unfold proj_ok. rewrite E. repeat split; auto. discriminate. }
  pose proof (load_projs_ok [j] Hj acc) as L. cbn [map ofold] in L.
  match goal with |- obind ?x _ = _ => assert (x = Ret (acc ++ [j])) as -> end.
  { match type of L with obind ?x _ = _ => destruct x; cbn [obind] in L; try discriminate; exact L end. }
  cbn [obind]. apply IH; try assumption. inversion He; subst; [congruence|assumption].
Qed.
Lemma load_empty d net d' fresh : storable net -> uids_ok net -> shaped net -> tables_ok d ->
  save_network d net = Ret d' ->
  Exists (fun p => p_neurons p = []) (n_pops net) \/ Exists (fun j => j_synapses j = []) (n_projs net) ->
  load_network fresh d' = UB.
Proof.
  intros S U (Sh1 & Sh2) T E He. destruct (storable_ok d net S U T) as (cn & cs & E').
  assert (d' = mkDisk (map node_entry (n_pops net)) (Some (show_uid (n_uid net))) (map edge_entry (n_projs net)) cn cs)
    as -> by congruence. clear E E'.
  destruct S as (N1 & N2 & D1 & D2 & Ka). destruct U as (U0 & U1 & U2).
  destruct (objects_sorted p_uid node_group_of (n_pops net) U1 D1) as (ps & E1 & P1 & S1).
  destruct (objects_sorted j_uid (fun j => edge_group_of (saved_names (j_kind j)) j) (n_projs net)) as (js & E2 & P2 & S2).
  { eapply Forall_impl; [|exact U2]. cbn; tauto. }
  { exact D2. }
  change (fun a : population => (show_uid (p_uid a), node_group_of a)) with node_entry in E1.
  change (fun a : projection => (show_uid (j_uid a), edge_group_of (saved_names (j_kind a)) a)) with edge_entry in E2.
  unfold load_network, network_uid. cbn [d_net_uid d_nodes d_edges]. rewrite show_parse by exact U0. cbn [obind].
  unfold load_populations, load_projections. rewrite E1, E2.
  assert (Forall (fun p => uid_ok (p_uid p)) ps) as U1' by (eapply Permutation_Forall; [symmetry; exact P1|exact U1]).
  destruct (Exists_dec (fun p => p_neurons p = []) ps) as [X|X].
  { intros p. destruct (p_neurons p); [now left|right; discriminate]. }
  - rewrite load_pops_empty by assumption. reflexivity.
  - assert (Forall pop_ok ps) as Hp.
    { apply Forall_Exists_neg in X. rewrite Forall_forall in *. intros p Hp. unfold pop_ok.
      assert (In p (n_pops net)) by (eapply Permutation_in; [exact P1|exact Hp]). auto. }
    rewrite (load_pops_ok ps Hp). cbn [obind].
    assert (Exists (fun j => j_synapses j = []) js) as Xj.
    { destruct He as [He|He].
      - exfalso. apply X. apply Exists_exists in He as (p & Hp' & Ep). apply Exists_exists. exists p.
        split; [eapply Permutation_in; [symmetry; exact P1|exact Hp']|exact Ep].
      - apply Exists_exists in He as (p & Hp' & Ep). apply Exists_exists. exists p.
        split; [eapply Permutation_in; [symmetry; exact P2|exact Hp']|exact Ep]. }
    rewrite load_projs_empty; [reflexivity| | | |exact Xj]; (eapply Permutation_Forall; [symmetry; exact P2|assumption]).
Qed.

(** ** Type tables *)
Lemma zmem_In t l : existsb (Z.eqb t) l = true <-> In t l.
Proof.
  rewrite existsb_exists. split; [intros (x & H & E); apply Z.eqb_eq in E; congruence|].
  intros H. exists t. split; [exact H|apply Z.eqb_refl].
Qed.
Definition table_inv (T r : list Z) : Prop := (forall t, In t r <-> In t T) /\ (forall t, count t r <= 2).
Lemma count_removelast t l : ~ In t (removelast l) -> count t l <= 1.
Proof.
  unfold count. intros H. destruct l as [|x l]; [cbn; lia|].
  rewrite (app_removelast_last 0%Z (l := x :: l)) by discriminate. rewrite count_occ_app.
  apply (count_occ_not_In Z.eq_dec) in H. rewrite H. cbn [count_occ]. destruct (Z.eq_dec _ _); lia.
Qed.
Lemma in_removelast {A} (x : A) l : In x (removelast l) -> In x l.
Proof.
  destruct l as [|y l]; [auto|]. intros H. rewrite (app_removelast_last y (l := y :: l)) by discriminate.
  apply in_or_app. now left.
Qed.
Lemma csv_check_add_inv t T r r' : table_inv T r -> csv_check_add t r = Ret r' -> table_inv (T ++ [t]) r'.
Proof.
  intros [H1 H2] E. destruct r as [|x r]; [discriminate|].
  assert (exists l, l = x :: r) as [l El] by eauto. rewrite <- El in *. unfold csv_check_add in E.
  assert (E' : (if existsb (Z.eqb t) (removelast l) then Ret l else Ret (l ++ [t])) = Ret r') by (rewrite El in *; exact E).
  clear E El. rename E' into E.
  destruct (existsb (Z.eqb t) (removelast l)) eqn:X; inversion E; subst r'; clear E.
  - split; [|exact H2]. intros u. rewrite H1, in_app_iff. cbn [In]. split; [now left|]. intros [|[<-|[]]]; [assumption|].
    apply H1. apply zmem_In in X. now apply in_removelast.
  - assert (~ In t (removelast l)) as X' by (intros Q; apply zmem_In in Q; congruence). split.
    + intros u. rewrite !in_app_iff, H1. reflexivity.
    + intros u. unfold count. rewrite count_occ_app. cbn [count_occ]. destruct (Z.eq_dec t u) as [->|].
      * pose proof (count_removelast u l X') as Q. unfold count in Q. lia.
      * specialize (H2 u). unfold count in H2. lia.
Qed.
Lemma add_neuron_type_inv t T f f' : table_inv T (rows f) -> add_neuron_type t f = Ret f' ->
  table_inv (T ++ [t]) (rows f').
Proof.
  intros H E. unfold add_neuron_type in E. destruct f as [r|].
  - destruct (csv_check_add t r) as [r'| |] eqn:X; cbn [obind] in E; try discriminate. inversion E; subst.
    cbn [rows] in *. eapply csv_check_add_inv; eassumption.
  - cbn in E. inversion E; subst. cbn [rows] in *. destruct H as [H1 H2]. split.
    + intros u. rewrite in_app_iff, <- H1. cbn [In]. tauto.
    + intros u. unfold count. cbn [count_occ]. repeat destruct (Z.eq_dec _ _); lia.
Qed.
Lemma add_synapse_type_inv t T f f' : table_inv T (rows f) -> add_synapse_type t f = Ret f' ->
  table_inv (T ++ [t]) (rows f').
Proof.
  intros H E. unfold add_synapse_type in E. destruct f as [r|].
  - destruct (csv_check_add t r) as [r'| |] eqn:X; cbn [obind] in E; try discriminate. inversion E; subst.
    cbn [rows] in *. eapply csv_check_add_inv; eassumption.
  - inversion E; subst. cbn [rows] in *. destruct H as [H1 H2]. split.
    + intros u. rewrite in_app_iff, <- H1. cbn [In]. tauto.
    + intros u. unfold count. cbn [count_occ]. repeat destruct (Z.eq_dec _ _); lia.
Qed.
Lemma save_pops_inv : forall l ns c ns' c' T, table_inv T (rows c) -> save_pops l (ns, c) = Ret (ns', c') ->
  table_inv (T ++ map (fun p => neuron_type_id (p_kind p)) l) (rows c').
Proof.
  unfold save_pops. induction l as [|p l IH]; intros ns c ns' c' T H E.
  - inversion E; subst. cbn [map]. now rewrite app_nil_r.
  - cbn [ofold fst snd] in E. destruct (add_population ns p); cbn [obind] in E; try discriminate.
    destruct (add_neuron_type _ c) as [c1| |] eqn:X; cbn [obind] in E; try discriminate.
    eapply IH in E; [|eapply add_neuron_type_inv; [exact H|exact X]]. cbn [map]. rewrite <- app_assoc in E. exact E.
Qed.
Lemma save_projs_inv : forall l es c es' c' T, table_inv T (rows c) -> save_projs l (es, c) = Ret (es', c') ->
  table_inv (T ++ map (fun j => synapse_type_id (j_kind j)) l) (rows c').
Proof.
  unfold save_projs. induction l as [|p l IH]; intros ns c ns' c' T H E.
  - inversion E; subst. cbn [map]. now rewrite app_nil_r.
  - cbn [ofold fst snd] in E. destruct (add_projection ns p); cbn [obind] in E; try discriminate.
    destruct (add_synapse_type _ c) as [c1| |] eqn:X; cbn [obind] in E; try discriminate.
    eapply IH in E; [|eapply add_synapse_type_inv; [exact H|exact X]]. cbn [map]. rewrite <- app_assoc in E. exact E.
Qed.
Lemma save_inv d net d' Tn Ts : table_inv Tn (rows (d_neuron_csv d)) -> table_inv Ts (rows (d_synapse_csv d)) ->
  save_network d net = Ret d' ->
  table_inv (Tn ++ neuron_types net) (rows (d_neuron_csv d')) /\ table_inv (Ts ++ synapse_types net) (rows (d_synapse_csv d')).
Proof.
  intros H1 H2 E. unfold save_network in E. fold save_pops in E. fold save_projs in E.
  destruct (save_projs (n_projs net) ([], d_synapse_csv d)) as [[es cs]| |] eqn:X; cbn [obind fst snd] in E; try discriminate.
  destruct (save_pops (n_pops net) ([], d_neuron_csv d)) as [[ns cn]| |] eqn:Y; cbn [obind fst snd] in E; try discriminate.
  destruct (add_neuron_type (neuron_type_id Blifat) cn) as [cn'| |] eqn:Z; cbn [obind] in E; try discriminate.
  destruct (config_list (n_pops net)); cbn [obind] in E; try discriminate.
  destruct (config_list (n_projs net)); cbn [obind] in E; try discriminate. inversion E; subst d'.
  cbn [d_neuron_csv d_synapse_csv]. split.
  - unfold neuron_types. rewrite app_assoc. eapply add_neuron_type_inv; [|exact Z]. eapply save_pops_inv; eassumption.
  - eapply save_projs_inv; eassumption.
Qed.
Lemma saved_dir_inv d nets : saved_dir d nets ->
  table_inv (flat_map neuron_types nets) (rows (d_neuron_csv d)) /\
  table_inv (flat_map synapse_types nets) (rows (d_synapse_csv d)).
Proof.
  induction 1 as [|d d' nets net H [I1 I2] E].
  - split; (split; [intros t; reflexivity|intros t; cbn; lia]).
  - rewrite !flat_map_app. cbn [flat_map]. rewrite !app_nil_r. eapply save_inv; eassumption.
Qed.

(** The very first row of neurons.csv is written twice. *)
Lemma csv_check_add_prefix t r r' : csv_check_add t r = Ret r' -> exists s, r' = r ++ s.
Proof.
  unfold csv_check_add. destruct r; [discriminate|]. destruct (existsb _ _); intros E; inversion E.
  - exists []. now rewrite app_nil_r.
  - exists [t]. reflexivity.
Qed.
Lemma add_neuron_type_prefix t r f' : add_neuron_type t (Some r) = Ret f' -> exists s, rows f' = r ++ s.
Proof.
  unfold add_neuron_type. destruct (csv_check_add t r) as [r'| |] eqn:X; cbn [obind]; intros E; try discriminate.
  inversion E; subst. cbn [rows]. eapply csv_check_add_prefix; exact X.
Qed.
Lemma save_pops_prefix : forall l ns r ns' c', save_pops l (ns, Some r) = Ret (ns', c') -> exists s, c' = Some (r ++ s).
Proof.
  unfold save_pops. induction l as [|p l IH]; intros ns r ns' c' E.
  - inversion E; subst. exists []. now rewrite app_nil_r.
  - cbn [ofold fst snd] in E. destruct (add_population ns p); cbn [obind] in E; try discriminate.
    unfold add_neuron_type in E. destruct (csv_check_add _ r) as [r1| |] eqn:X; cbn [obind] in E; try discriminate.
    apply csv_check_add_prefix in X as [s ->]. apply IH in E as [s' ->]. exists (s ++ s'). now rewrite app_assoc.
Qed.
Lemma first_save_duplicates net d' : save_network empty_dir net = Ret d' ->
  exists t s, rows (d_neuron_csv d') = t :: t :: s.
Proof.
  intros E. unfold save_network in E. fold save_pops in E. fold save_projs in E. cbn [empty_dir d_neuron_csv d_synapse_csv] in E.
  destruct (save_projs (n_projs net) ([], None)) as [[es cs]| |] eqn:X; cbn [obind fst snd] in E; try discriminate.
  destruct (n_pops net) as [|p l] eqn:P.
  { cbn [save_pops ofold obind fst snd config_list] in E. unfold save_pops in E. cbn [ofold obind fst snd] in E.
    destruct (add_neuron_type _ _); discriminate. }
  destruct (save_pops (p :: l) ([], None)) as [[ns cn]| |] eqn:Y; cbn [obind fst snd] in E; try discriminate.
  destruct (add_neuron_type (neuron_type_id Blifat) cn) as [cn'| |] eqn:Z; cbn [obind] in E; try discriminate.
  cbn [config_list obind] in E.
  destruct (config_list (n_projs net)); cbn [obind] in E; try discriminate. inversion E; subst d'. cbn [d_neuron_csv].
  unfold save_pops in Y. cbn [ofold fst snd] in Y. destruct (add_population [] p); cbn [obind] in Y; try discriminate.
  unfold add_neuron_type at 1 in Y. cbn [csv_check_add removelast existsb obind app] in Y.
  apply save_pops_prefix in Y as [s ->]. apply add_neuron_type_prefix in Z as [s' ->].
  exists (neuron_type_id (p_kind p)), (s ++ s'). reflexivity.
Qed.
