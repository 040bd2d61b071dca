(** Replacing groups of winners by projections. *)
From Verif Require Import Base Messaging_Model Projection_Model Delta_Model Neuron_Model Pipeline_Model
  Stdp_Model Additive_Model Train_Model Net_Model Connect_Model Connect_Proofs Quant_Model Infer_Model Infer_Spec.

Lemma run_copy {P} (src : list (synapse P)) : forall n i l, (i + n = length src)%nat -> l = firstn i src -> run_gen (g_copy src) i n l = Ret src.
Proof.
  induction n as [|n IH]; intros i l Hi Hl; cbn [run_gen].
  - subst l. rewrite firstn_all2 by lia. reflexivity.
  - unfold g_copy at 1. destruct (nth_error src i) as [s|] eqn:E; [|apply nth_error_None in E; lia]. cbn [obind]. apply IH; [lia|].
    subst l. replace (mkSyn (sy_params s) (sy_from s) (sy_to s)) with s by (destruct s; reflexivity).
    clear - E. revert i E. induction src as [|x t IH]; intros [|i] E; cbn in *; try discriminate; [congruence|]. f_equal. now apply IH.
Qed.
Lemma reindex_syn {P} (p : proj P) : p_syn (reindex p) = p_syn p.
Proof. unfold reindex. destruct (p_updated p); reflexivity. Qed.
Lemma copy_proj_ok {P} (p : proj P) : exists q, copy_proj p = Ret q /\ p_syn q = p_syn p.
Proof.
  unfold copy_proj. rewrite run_copy by (reflexivity || lia). cbn [obind]. eexists. split; [reflexivity|]. now rewrite reindex_syn.
Qed.
Lemma copy_kind_ok k : exists k', copy_kind k = Ret k' /\ same_synapses k k'.
Proof.
  destruct k as [p|l p|l p]; cbn [copy_kind]; destruct (copy_proj_ok p) as (q & -> & E); cbn [obind]; eexists; (split; [reflexivity|]); cbn; auto.
Qed.
Lemma find_proj_in u l w : find_proj u l = Some w -> In w l /\ np_uid w = u.
Proof. intros H. apply find_some in H as [A B]. apply N.eqb_eq in B. auto. Qed.
Lemma find_proj_none u l : find_proj u l = None <-> ~ In u (map np_uid l).
Proof.
  unfold find_proj. induction l as [|w t IH]; cbn; [tauto|]. destruct (N.eqb_spec (np_uid w) u) as [E|E]; [split; [discriminate|intros H; exfalso; apply H; auto]|].
  rewrite IH. tauto.
Qed.
Definition without (u : uid) (l : list nproj) : list nproj := filter (fun w => negb (N.eqb (np_uid w) u)) l.
Lemma without_none u l : ~ In u (map np_uid l) -> without u l = l.
Proof.
  unfold without. induction l as [|w t IH]; cbn; [reflexivity|]. intros H. destruct (N.eqb_spec (np_uid w) u) as [E|E]; [tauto|]. cbn. now rewrite IH by tauto.
Qed.
Lemma erase_proj_ok u l : NoDup (map np_uid l) -> In u (map np_uid l) -> erase_proj u l = Some (without u l).
Proof.
  induction l as [|w t IH]; intros Nd H; [destruct H|]. cbn [map] in Nd, H. apply NoDup_cons_iff in Nd as [N1 N2]. cbn [erase_proj]. unfold without. cbn [filter].
  destruct (N.eqb_spec (np_uid w) u) as [E|E]; cbn [negb].
  - f_equal. symmetry. apply without_none. now rewrite <- E.
  - rewrite IH; [reflexivity|exact N2|]. destruct H; [congruence|assumption].
Qed.
Lemma map_without u l : map np_uid (without u l) = filter (fun v => negb (N.eqb v u)) (map np_uid l).
Proof. unfold without. induction l as [|w t IH]; cbn; [reflexivity|]. destruct (negb (N.eqb (np_uid w) u)); cbn; now rewrite IH. Qed.
Lemma in_without u v l : In v (map np_uid (without u l)) <-> In v (map np_uid l) /\ v <> u.
Proof.
  rewrite map_without, filter_In. destruct (N.eqb_spec v u); cbn; intuition congruence.
Qed.
Lemma nodup_filter {A} (f : A -> bool) l : NoDup l -> NoDup (filter f l).
Proof. induction l as [|x t IH]; cbn; [auto|]. intros H. apply NoDup_cons_iff in H as [A1 A2]. destruct (f x); [constructor; [rewrite filter_In; tauto|auto]|auto]. Qed.

(** One replacement. *)
Lemma replace_one_ok u s r l : NoDup (map np_uid l) -> In r (map np_uid l) -> ~ In u (map np_uid l) ->
  exists w w', In w l /\ np_uid w = r /\ copied u s w w' /\ replace_one u s r l = Ret (without r l ++ [w']).
Proof.
  intros Nd Hr Hu. unfold replace_one. destruct (find_proj r l) as [w|] eqn:F; [|apply find_proj_none in F; tauto].
  apply find_proj_in in F as [F1 F2]. destruct (copy_kind_ok (np_kind w)) as (k & -> & Hk). cbn [obind]. rewrite erase_proj_ok by assumption.
  set (w' := mkNP u s (np_post w) true k []). unfold add_proj. replace (find_proj (np_uid w') (without r l)) with (@None nproj).
  - exists w, w'. split; [exact F1|]. split; [exact F2|]. split; [|reflexivity]. unfold copied, w'. cbn. auto 10.
  - symmetry. apply find_proj_none. cbn [np_uid w']. rewrite in_without. tauto.
Qed.
Lemma replace_one_inv u s r l l' : NoDup (map np_uid l) -> replace_one u s r l = Ret l' ->
  In r (map np_uid l) /\ NoDup (map np_uid l') /\ (forall v, v <> u -> In v (map np_uid l') -> In v (map np_uid l) /\ v <> r).
Proof.
  intros Nd H. unfold replace_one in H. destruct (find_proj r l) as [w|] eqn:F; [|discriminate].
  apply find_proj_in in F as [F1 F2]. destruct (copy_kind_ok (np_kind w)) as (k & E & _). rewrite E in H. cbn [obind] in H.
  assert (Hr : In r (map np_uid l)) by (rewrite <- F2; now apply in_map). rewrite erase_proj_ok in H by assumption. split; [exact Hr|].
  unfold add_proj in H. cbn [np_uid] in H. destruct (find_proj u (without r l)) eqn:G; [discriminate|]. apply find_proj_none in G.
  match type of H with Ret ?a = _ => assert (E2 : a = l') by (exact (f_equal (fun o => match o with Ret y => y | _ => a end) H)) end. subst l'. split.
  - rewrite map_app. cbn [map np_uid]. apply NoDup_rev in Nd. rewrite <- (rev_involutive (map np_uid (without r l) ++ [u])).
    apply NoDup_rev. rewrite rev_app_distr. cbn [rev app]. constructor; [rewrite <- in_rev; exact G|]. apply NoDup_rev. rewrite map_without. apply nodup_filter. apply NoDup_rev in Nd. now rewrite rev_involutive in Nd.
  - intros v Hv Hin. rewrite map_app in Hin. apply in_app_or in Hin as [Hin|[Hin|[]]]; [now apply in_without|cbn in Hin; congruence].
Qed.
Lemma replace_one_total u s r l : (exists l', replace_one u s r l = Ret l') \/ replace_one u s r l = Throw.
Proof.
  unfold replace_one. destruct (find_proj r l) as [w|]; [|auto]. destruct (copy_kind_ok (np_kind w)) as (k & -> & _). cbn [obind].
  destruct (erase_proj r l); [|auto]. destruct (add_proj _ _); [left; eauto|auto].
Qed.
Lemma replace_total fresh : forall pairs i l, (exists l', replace_pairs fresh i pairs l = Ret l') \/ replace_pairs fresh i pairs l = Throw.
Proof.
  induction pairs as [|[s r] t IH]; intros i l; cbn [replace_pairs]; [left; eauto|]. destruct (replace_one_total (fresh i) s r l) as [[l' ->]| ->]; cbn [obind]; [apply IH|auto].
Qed.

(** All replacements. *)
Lemma mem_in u l : mem u l = true <-> In u l.
Proof. unfold mem. rewrite existsb_exists. split; [intros (x & A & B); apply N.eqb_eq in B; now subst|intros H; exists u; split; [exact H|apply N.eqb_refl]]. Qed.
Lemma kept_nil l : kept [] l = l.
Proof. unfold kept. induction l as [|w l IH]; [reflexivity|]. exact (f_equal (cons w) IH). Qed.
Lemma kept_cons s r t l : kept ((s, r) :: t) l = kept t (without r l).
Proof.
  induction l as [|w l IH]; [reflexivity|]. unfold kept, without in *. cbn [filter].
  assert (M : mem (np_uid w) (map snd ((s, r) :: t)) = (N.eqb (np_uid w) r || mem (np_uid w) (map snd t))%bool) by reflexivity. rewrite M, IH.
  destruct (N.eqb (np_uid w) r); cbn [negb orb filter]; reflexivity.
Qed.
Lemma nodup_snoc {A} (l : list A) x : NoDup l -> ~ In x l -> NoDup (l ++ [x]).
Proof.
  intros H Hx. induction l as [|y t IH]; cbn; [repeat constructor; auto|]. apply NoDup_cons_iff in H as [A1 A2]. constructor.
  - intros I. apply in_app_or in I as [I|[I|[]]]; [tauto|]. apply Hx. now left.
  - apply IH; [exact A2|]. intros I. apply Hx. now right.
Qed.
Lemma replace_ok fresh : forall pairs i l, NoDup (map np_uid l) -> NoDup (map snd pairs) -> (forall r, In r (map snd pairs) -> In r (map np_uid l)) ->
  (forall j, (i <= j)%nat -> ~ In (fresh j) (map np_uid l)) -> (forall j k, fresh j = fresh k -> j = k) ->
  exists cs, replace_pairs fresh i pairs l = Ret (kept pairs l ++ cs) /\ copies_of fresh i pairs l cs.
Proof.
  induction pairs as [|[s r] t IH]; intros i l Nl Np Hr Hf Inj; cbn [replace_pairs].
  - exists []. split; [now rewrite kept_nil, app_nil_r|].
    split; [reflexivity|]. intros [|j] ? ? H; discriminate.
  - cbn [map snd] in Np, Hr. apply NoDup_cons_iff in Np as [N1 N2].
    destruct (replace_one_ok (fresh i) s r l Nl (Hr r (or_introl eq_refl)) (Hf i (Nat.le_refl i))) as (w & w' & A1 & A2 & A3 & ->). cbn [obind].
    assert (U : np_uid w' = fresh i) by apply A3.
    destruct (IH (S i) (without r l ++ [w'])) as (cs & E & [C1 C2]).
    + rewrite map_app. cbn [map]. apply nodup_snoc; [rewrite map_without; now apply nodup_filter|]. rewrite U, in_without. intros [I _]. exact (Hf i (Nat.le_refl i) I).
    + exact N2.
    + intros v Hv. rewrite map_app. apply in_or_app. left. apply in_without. split; [apply Hr; now right|intros ->; tauto].
    + intros j Hj I. rewrite map_app in I. apply in_app_or in I as [I|[I|[]]]; [apply in_without in I as [I _]; apply (Hf j); [lia|exact I]|]. rewrite U in I. apply Inj in I. lia.
    + exact Inj.
    + exists (w' :: cs). split.
      * rewrite E. f_equal. rewrite kept_cons. unfold kept at 1. rewrite filter_app. cbn [filter].
        replace (mem (np_uid w') (map snd t)) with false; [cbn [negb]; rewrite <- app_assoc; reflexivity|].
        symmetry. apply not_true_iff_false. rewrite mem_in, U. intros I. apply (Hf i (Nat.le_refl i)). apply Hr. now right.
      * split; [cbn; lia|]. intros [|j] s0 r0 H.
        -- cbn in H. assert (s = s0) by (injection H; auto). assert (r = r0) by (injection H; auto). subst. exists w, w'. rewrite Nat.add_0_r. auto.
        -- cbn [nth_error] in H. destruct (C2 j s0 r0 H) as (v & v' & B1 & B2 & B3 & B4). exists v, v'. replace (i + S j)%nat with (S i + j)%nat by lia. split; [|auto].
           apply in_app_or in B1 as [B1|[B1|[]]]; [unfold without in B1; apply filter_In in B1; tauto|]. exfalso. subst v. rewrite U in B2. apply (Hf i (Nat.le_refl i)). rewrite B2. apply Hr. right. apply in_map_iff. exists (s0, r0). split; [reflexivity|]. eapply nth_error_In, H.
Qed.
Lemma replace_nodup fresh : forall pairs i l l', NoDup (map np_uid l) -> (forall j, ~ In (fresh j) (map snd pairs)) -> replace_pairs fresh i pairs l = Ret l' ->
  NoDup (map snd pairs) /\ (forall r, In r (map snd pairs) -> In r (map np_uid l)).
Proof.
  induction pairs as [|[s r] t IH]; intros i l l' Nl Hf H; cbn [replace_pairs] in H; [split; [constructor|intros ? []]|].
  destruct (replace_one (fresh i) s r l) as [l1| |] eqn:E; try discriminate. cbn [obind] in H. destruct (replace_one_inv _ _ _ _ _ Nl E) as (A & B & C).
  destruct (IH (S i) l1 l' B) as [D1 D2]; [intros j I; apply (Hf j); now right|exact H|]. cbn [map snd]. split.
  - constructor; [|exact D1]. intros I. pose proof (D2 r I) as I2. apply C in I2; [tauto|]. intros Er. apply (Hf i). now left.
  - intros v [<-|I]; [exact A|]. apply D2 in I as I2. apply C in I2; [tauto|]. intros Er. apply (Hf i). right. now rewrite <- Er.
Qed.
Lemma prod_map {A B} (l : list A) (m : list B) : flat_map (fun s => map (fun r => (s, r)) m) l = list_prod l m.
Proof. induction l as [|x t IH]; cbn; [reflexivity|]. now rewrite IH. Qed.
Lemma wta_pairs_eq groups : wta_pairs groups = pairs_of groups.
Proof. unfold wta_pairs, pairs_of. apply flat_map_ext. intros g. apply prod_map. Qed.
