(** C120: preparation of a network for inference: projections instead of groups of winners. *)
From Verif Require Import Base Messaging_Model Projection_Model Delta_Model Neuron_Model Pipeline_Model
  Stdp_Model Additive_Model Train_Model Net_Model Props_Net2 FloatReal Metrics_Proofs
  Quant_Model Quant_Spec Quant_Proofs Props_Quant Infer_Model Infer_Spec Infer_Proofs.
From Coq Require Import Reals.

(** New identifiers: no two alike, none used before. *)
Definition unused (fresh : nat -> uid) (l : list nproj) : Prop := (forall i j, fresh i = fresh j -> i = j) /\ (forall i, ~ In (fresh i) (map np_uid l)).

(** Groups that name every receiver once, and only known ones: every receiver is replaced by a copy with the
    same synapses that starts at the population sending to the group; other projections stay. *)
Theorem c120_replaced fresh groups l : NoDup (map np_uid l) -> unused fresh l -> NoDup (map snd (pairs_of groups)) ->
  incl (map snd (pairs_of groups)) (map np_uid l) ->
  exists cs, replace_pairs fresh 0 (wta_pairs groups) l = Ret (kept (pairs_of groups) l ++ cs) /\ copies_of fresh 0 (pairs_of groups) l cs.
Proof.
  intros Nl [I F] Np Hr. rewrite wta_pairs_eq. apply replace_ok; auto.
Qed.
(** The usual groups: one sender each, no receiver twice. *)
Theorem c120_one_sender groups : Forall (fun g => length (fst g) = 1%nat) groups -> NoDup (flat_map snd groups) -> NoDup (map snd (pairs_of groups)).
Proof.
  intros H Nd. replace (map snd (pairs_of groups)) with (flat_map (@snd (list uid) (list uid)) groups); [exact Nd|]. clear Nd.
  induction groups as [|[a b] t IH]; [reflexivity|]. apply Forall_cons_iff in H as [H1 H2]. cbn in H1. destruct a as [|s [|]]; try discriminate.
  unfold pairs_of in *. cbn [flat_map fst snd]. rewrite map_app, <- IH by exact H2. f_equal. cbn. rewrite app_nil_r, map_map. cbn. now rewrite map_id.
Qed.
(** All other groups are refused, nothing is undefined. *)
Theorem c120_refused fresh groups l : NoDup (map np_uid l) -> unused fresh l ->
  (forall i, ~ In (fresh i) (map snd (pairs_of groups))) ->
  ~ (NoDup (map snd (pairs_of groups)) /\ incl (map snd (pairs_of groups)) (map np_uid l)) -> replace_pairs fresh 0 (wta_pairs groups) l = Throw.
Proof.
  intros Nl _ F H. rewrite wta_pairs_eq. destruct (replace_total fresh (pairs_of groups) 0 l) as [[l' E]|E]; [|exact E].
  exfalso. apply H. destruct (replace_nodup _ _ _ _ _ Nl F E) as [A B]. split; [exact A|exact B].
Qed.
Lemma nodup_app_both {A} (a b : list A) x : In x a -> In x b -> ~ NoDup (a ++ b).
Proof.
  induction a as [|y t IH]; intros Ha Hb H; [destruct Ha|]. cbn in H. apply NoDup_cons_iff in H as [H1 H2]. destruct Ha as [->|Ha]; [|exact (IH Ha Hb H2)].
  apply H1. apply in_or_app. auto.
Qed.
Lemma nodup_part {A} (a b : list A) : NoDup (a ++ b) -> NoDup a /\ NoDup b.
Proof.
  induction a as [|y t IH]; cbn; intros H; [split; [constructor|exact H]|]. apply NoDup_cons_iff in H as [H1 H2]. destruct (IH H2). split; [|assumption].
  constructor; [|assumption]. intros I. apply H1. apply in_or_app. auto.
Qed.
(** Two senders in a group with receivers are refused. *)
Theorem c120_two_senders_refuted fresh groups l g s1 s2 t r : NoDup (map np_uid l) -> unused fresh l -> (forall i, ~ In (fresh i) (map snd (pairs_of groups))) ->
  In g groups -> fst g = s1 :: s2 :: t -> In r (snd g) -> replace_pairs fresh 0 (wta_pairs groups) l = Throw.
Proof.
  intros Nl U F Hg Hs Hr. apply c120_refused; try assumption. intros [Nd _]. unfold pairs_of in Nd.
  apply in_split in Hg as (a & b & ->). rewrite flat_map_app in Nd. cbn [flat_map] in Nd. rewrite !map_app in Nd.
  apply nodup_part in Nd as [_ Nd]. apply nodup_part in Nd as [Nd _]. rewrite Hs in Nd. cbn [list_prod] in Nd. rewrite !map_app, !map_map in Nd. cbn [snd] in Nd. rewrite !map_id in Nd.
  revert Nd. apply (nodup_app_both _ _ r); [exact Hr|]. apply in_or_app. now left.
Qed.

Lemma same_weights k k' : same_synapses k k' -> syn_weights k' = syn_weights k.
Proof. destruct k, k'; cbn; try tauto; [intros ->|intros [-> _]|intros [-> _]]; reflexivity. Qed.
(** The whole preparation: the marked populations and projections are taken over, groups are replaced and cleared;
    then nothing but weights and thresholds changes. *)
Theorem c120_prepared fresh groups mpops mprojs projs pops projs' pops' groups' :
  NoDup (map np_uid projs) -> unused fresh projs -> (forall i, ~ In (fresh i) (map snd (pairs_of groups))) ->
  prepare fresh groups mpops mprojs projs pops = Ret (projs', pops', groups') ->
  groups' = [] /\
  NoDup (map snd (pairs_of groups)) /\ (forall r, In r (map snd (pairs_of groups)) -> In r (map np_uid projs) /\ In r mprojs) /\
  exists cs, copies_of fresh 0 (pairs_of groups) projs cs /\
    map weightless projs' = map weightless (kept (pairs_of groups) (filter (fun w => mem (np_uid w) mprojs) projs) ++ cs) /\
    map (fun q => (fst q, thresholdless (snd q))) pops' = map (fun q => (fst q, thresholdless (snd q))) (filter (fun q => mem (fst q) mpops) pops).
Proof.
  intros Nd [Inj U] F H. unfold prepare in H. destruct (replace_pairs _ _ _ _) as [l| |] eqn:E; try discriminate. cbn [obind] in H.
  rewrite wta_pairs_eq in E. unfold marked_only in *. set (ml := filter (fun a => mem (np_uid a) mprojs) projs) in *.
  assert (Sub : forall w, In w ml -> In w projs /\ In (np_uid w) mprojs) by (intros w Hw; apply filter_In in Hw as [A B]; apply mem_in in B; auto).
  assert (Nm : NoDup (map np_uid ml)).
  { unfold ml. clear - Nd. induction projs as [|w t IH]; [constructor|]. cbn [map] in Nd. apply NoDup_cons_iff in Nd as [A B]. cbn [filter].
    destruct (mem (np_uid w) mprojs); [|auto]. cbn [map]. constructor; [|auto]. intros I. apply A. apply in_map_iff in I as (v & <- & Hv). apply filter_In in Hv as [Hv _]. now apply in_map. }
  assert (Um : forall i, ~ In (fresh i) (map np_uid ml)).
  { intros i I. apply (U i). apply in_map_iff in I as (v & Ev & Hv). rewrite <- Ev. apply in_map, Sub, Hv. }
  destruct (replace_nodup _ _ _ _ _ Nm F E) as [P1 P2].
  destruct (replace_ok fresh (pairs_of groups) 0 ml Nm P1 P2 (fun j _ => Um j) Inj) as (cs & E2 & C1 & C2). rewrite E in E2.
  assert (El : l = kept (pairs_of groups) ml ++ cs) by exact (f_equal (fun o => match o with Ret y => y | _ => l end) E2). clear E2.
  destruct (quantize_network l _) as [r| |] eqn:Q; try discriminate. cbn [obind] in H.
  assert (Hr : r = (projs', pops')) by exact (f_equal (fun o => match o with Ret (y, _) => y | _ => r end) H).
  assert (Hg : groups' = []) by exact (f_equal (fun o => match o with Ret (_, y) => y | _ => [] end) (eq_sym H)). subst r.
  destruct (c118_unchanged _ _ _ Q) as (A & B & _). cbn [fst snd] in A, B. split; [exact Hg|]. split; [exact P1|]. split.
  { intros r I. apply P2 in I. apply in_map_iff in I as (w & <- & Hw). apply Sub in Hw as [S1 S2]. split; [now apply in_map|exact S2]. }
  exists cs. split; [|split; [rewrite A, El; reflexivity|exact B]]. split; [exact C1|]. intros j s r Hj. destruct (C2 j s r Hj) as (w & w' & W1 & W2).
  exists w, w'. split; [apply Sub, W1|exact W2].
Qed.
(** All weights of the prepared network are whole numbers from -255 to 255. *)
Theorem c120_hardware fresh groups mpops mprojs projs pops projs' pops' groups' :
  NoDup (map np_uid projs) -> NoDup (map fst pops) -> unused fresh projs -> (forall i, ~ In (fresh i) (map snd (pairs_of groups))) ->
  prepare fresh groups mpops mprojs projs pops = Ret (projs', pops', groups') ->
  (forall w, In w projs -> In (np_uid w) mprojs -> Forall fin32 (syn_weights (np_kind w)) /\ forall l, altai_neurons (np_post w) pops l -> l <> []) ->
  forall w x, In w projs' -> In x (syn_weights (np_kind w)) -> fin32 x /\ exists z : Z, val x = IZR z /\ (-255 <= z <= 255)%Z.
Proof.
  intros Nd Np U F H Hw. pose proof (c120_prepared _ _ _ _ _ _ _ _ _ Nd U F H) as (_ & P1 & P2 & _).
  unfold prepare in H. destruct (replace_pairs _ _ _ _) as [l| |] eqn:E; try discriminate. cbn [obind] in H.
  destruct (quantize_network l _) as [r| |] eqn:Q; try discriminate. cbn [obind] in H.
  assert (Hr : r = (projs', pops')) by exact (f_equal (fun o => match o with Ret (y, _) => y | _ => r end) H). subst r.
  unfold marked_only in *. set (ml := filter (fun a => mem (np_uid a) mprojs) projs) in *.
  assert (Sub : forall w, In w ml -> In w projs /\ In (np_uid w) mprojs) by (intros w Hi; apply filter_In in Hi as [A B]; apply mem_in in B; auto).
  assert (Nm : NoDup (map np_uid ml)).
  { unfold ml. clear - Nd. induction projs as [|w t IH]; [constructor|]. cbn [map] in Nd. apply NoDup_cons_iff in Nd as [A B]. cbn [filter].
    destruct (mem (np_uid w) mprojs); [|auto]. cbn [map]. constructor; [|auto]. intros I. apply A. apply in_map_iff in I as (v & <- & Hv). apply filter_In in Hv as [Hv _]. now apply in_map. }
  assert (Um : unused fresh ml).
  { split; [apply U|]. intros i I. apply (proj2 U i). apply in_map_iff in I as (v & Ev & Hv). rewrite <- Ev. apply in_map, Sub, Hv. }
  destruct (c120_replaced fresh groups ml Nm Um P1) as (cs & E2 & C1 & C2).
  { intros v Hv. destruct (P2 v Hv) as [A B]. apply in_map_iff in A as (w & <- & A). apply in_map. apply filter_In. split; [exact A|]. now apply mem_in. }
  rewrite E in E2. assert (El : l = kept (pairs_of groups) ml ++ cs) by exact (f_equal (fun o => match o with Ret y => y | _ => l end) E2). clear E2.
  assert (Np' : NoDup (map fst (filter (fun a => mem (@fst uid npop a) mpops) pops))).
  { clear - Np. induction pops as [|w t IH]; [constructor|]. cbn [map] in Np. apply NoDup_cons_iff in Np as [A B]. cbn [filter].
    destruct (mem (fst w) mpops); [|auto]. cbn [map]. constructor; [|auto]. intros I. apply A. apply in_map_iff in I as (v & <- & Hv). apply filter_In in Hv as [Hv _]. now apply in_map. }
  apply (c118_all_weights _ _ _ Np' Q). intros w Hl. destruct (c118_altai_only _ _ _ Q w Hl) as (la & La).
  assert (Lb : altai_neurons (np_post w) pops la) by (unfold altai_neurons in *; now apply filter_In in La).
  assert (exists v, In v projs /\ In (np_uid v) mprojs /\ np_post v = np_post w /\ syn_weights (np_kind w) = syn_weights (np_kind v)) as (v & V1 & V2 & V3 & V4).
  { rewrite El in Hl. apply in_app_or in Hl as [Hl|Hl].
    - apply filter_In in Hl as [Hl _]. apply Sub in Hl as [A B]. exists w. auto.
    - apply In_nth_error in Hl as [j Hj]. destruct (nth_error (pairs_of groups) j) as [[s r]|] eqn:Ej.
      + destruct (C2 j s r Ej) as (v & w2 & A & _ & B & _ & _ & C & D & _). assert (w2 = w) by (rewrite Hj in B; injection B; auto). subst w2.
        apply Sub in A as [A1 A2]. exists v. split; [exact A1|]. split; [exact A2|]. split; [auto|]. now apply same_weights.
      + apply nth_error_None in Ej. rewrite <- C1 in Ej. apply nth_error_None in Ej. congruence. }
  destruct (Hw v V1 V2) as [W1 W2]. split; [rewrite V4; exact W1|]. exists la. split; [exact La|]. apply W2. rewrite V3. exact Lb.
Qed.

(** An example: population 1 is fed by projection 21; a group of winners sends from population 0 to the
    receivers 22 and 23; projection 24 and population 3 are not marked. *)
Definition i_pops : list (uid * npop) := q_pops 100 0 ++ [(3%N, NStdpAltai [])].
Definition i_proj (u pre : N) (x : Z) : nproj := mkNP u pre 1 true (NDelta (gen1 (q_syn x 0))) [].
Definition i_projs : list nproj := [i_proj 21 7 50; i_proj 22 8 (-30); i_proj 24 8 5; i_proj 23 8 40].
Definition i_fresh (i : nat) : uid := (100 + N.of_nat i)%N.
Definition i_seen (r : outcome (list nproj * list (uid * npop) * list (list uid * list uid))) : list (uid * uid * uid * list flt) * list uid :=
  match r with Ret (l, q, _) => (map (fun w => (np_uid w, np_pre w, np_post w, syn_weights (np_kind w))) l, map fst q) | _ => ([], []) end.
Example c120_case : unused i_fresh i_projs /\ NoDup (map np_uid i_projs) /\ NoDup (map snd (pairs_of [([0%N], [22%N; 23%N])])) /\
  i_seen (prepare i_fresh [([0%N], [22%N; 23%N])] [1%N] [21%N; 22%N; 23%N] i_projs i_pops) =
    ([(21%N, 7%N, 1%N, [f_of_Z 128]); (100%N, 0%N, 1%N, [f_of_Z (-30)]); (101%N, 0%N, 1%N, [f_of_Z 40])], [1%N]) /\
  prepare i_fresh [([0%N; 9%N], [22%N; 23%N])] [1%N] [21%N; 22%N; 23%N] i_projs i_pops = Throw /\
  prepare i_fresh [([0%N], [22%N; 24%N])] [1%N] [21%N; 22%N; 23%N] i_projs i_pops = Throw.
Proof.
  split; [|split; [|split; [|split; [|split]]]].
  - split; [intros i j H; unfold i_fresh in H; lia|]. intros i H. unfold i_fresh in H. cbn in H. lia.
  - repeat constructor; cbn; intuition discriminate.
  - repeat constructor; cbn; intuition discriminate.
  - vm_compute. reflexivity.
  - vm_compute. reflexivity.
  - vm_compute. reflexivity.
Qed.

Print Assumptions c120_replaced.
Print Assumptions c120_one_sender.
Print Assumptions c120_refused.
Print Assumptions c120_two_senders_refuted.
Print Assumptions c120_prepared.
Print Assumptions c120_hardware.
