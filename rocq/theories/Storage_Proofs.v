From Coq Require Import String DecimalPos.
From Verif Require Import Base ListLemmas Messaging_Model Storage_Model Storage_Spec.
Open Scope list_scope.

(** ** The buffer *)
Fixpoint bget (t : N) (b : buffer) : list N :=
  match b with [] => [] | (s, l) :: r => if N.eqb t s then l else bget t r end.
Lemma bget_add t s i b : bget t (add_spike s i b) = bget t b ++ (if N.eqb t s then [i] else []).
Proof.
  induction b as [|[s' l] b IH]; cbn [add_spike bget].
  - destruct (N.eqb t s); reflexivity.
  - destruct (N.eqb_spec s s') as [<-|Hs]; cbn [bget].
    + destruct (N.eqb t s); [reflexivity|]. now rewrite app_nil_r.
    + destruct (N.eqb_spec t s') as [->|Ht]; [|exact IH]. destruct (N.eqb_spec s' s); [congruence|]. now rewrite app_nil_r.
Qed.
Lemma add_keys s i b x : In x (map fst (add_spike s i b)) <-> x = s \/ In x (map fst b).
Proof.
  induction b as [|[s' l] b IH]; cbn [add_spike map fst In]; [intuition|].
  destruct (N.eqb_spec s s') as [<-|Hs]; cbn [map fst In]; [intuition|]. rewrite IH. intuition.
Qed.
Lemma add_nodup s i b : NoDup (map fst b) -> NoDup (map fst (add_spike s i b)).
Proof.
  induction b as [|[s' l] b IH]; cbn [add_spike map fst]; intros H; [repeat constructor; intros []|].
  inversion H as [|x y Hn Hd]; subst. destruct (N.eqb_spec s s') as [<-|Hs]; cbn [map fst]; [exact H|].
  constructor; [|auto]. rewrite add_keys. intros [->|Hin]; congruence.
Qed.
Lemma add_nonempty s i b : Forall (fun e => snd e <> []) b -> Forall (fun e => snd e <> []) (add_spike s i b).
Proof.
  induction b as [|[s' l] b IH]; cbn [add_spike]; intros H; [repeat constructor; discriminate|].
  inversion H; subst. destruct (N.eqb s s'); constructor; auto. cbn [snd]. destruct l; discriminate.
Qed.
Lemma add_perm s i b : Permutation (flat_map snd (add_spike s i b)) (flat_map snd b ++ [i]).
Proof.
  induction b as [|[s' l] b IH]; cbn [add_spike flat_map snd]; [reflexivity|].
  destruct (N.eqb s s'); cbn [flat_map snd].
  - rewrite <- !app_assoc. apply Permutation_app_head. apply Permutation_app_comm.
  - rewrite <- app_assoc. now apply Permutation_app_head.
Qed.
Definition add_all (evs : list (N * N)) (b : buffer) : buffer := fold_left (fun b e => add_spike (fst e) (snd e) b) evs b.
Definition at_time (t : N) (evs : list (N * N)) : list N := map snd (filter (fun e => N.eqb t (fst e)) evs).
Lemma add_all_spec : forall evs b, NoDup (map fst b) -> Forall (fun e => snd e <> []) b ->
  NoDup (map fst (add_all evs b)) /\ Forall (fun e => snd e <> []) (add_all evs b) /\
  (forall t, bget t (add_all evs b) = bget t b ++ at_time t evs) /\
  Permutation (flat_map snd (add_all evs b)) (flat_map snd b ++ map snd evs).
Proof.
  unfold add_all, at_time. induction evs as [|e evs IH]; intros b H1 H2; cbn [fold_left filter map].
  - split; [exact H1|]. split; [exact H2|]. split; intros; rewrite app_nil_r; reflexivity.
  - destruct (IH (add_spike (fst e) (snd e) b) (add_nodup _ _ _ H1) (add_nonempty _ _ _ H2)) as (A & B & C & D).
    split; [exact A|]. split; [exact B|]. split.
    + intros t. rewrite C, bget_add, <- app_assoc. f_equal. destruct (N.eqb t (fst e)); reflexivity.
    + rewrite D, add_perm, <- app_assoc. reflexivity.
Qed.
Lemma bget_in b : NoDup (map fst b) -> Forall (fun e => snd e <> []) b ->
  forall t l, In (t, l) b <-> bget t b = l /\ l <> [].
Proof.
  induction b as [|[s l'] b IH]; cbn [map fst bget]; intros Hd Hn t l; [cbn; intuition|].
  inversion Hd as [|x y D1 D2]; subst. inversion Hn as [|x y N1 N2]; subst. cbn [In snd] in *.
  destruct (N.eqb_spec t s) as [->|Ht].
  - split; [|intros [<- _]; now left]. intros [[= <-]|Hin]; [auto|]. exfalso. apply D1. now apply (in_map fst) in Hin.
  - rewrite <- (IH D2 N2). split; [intros [[= <- <-]|H]; [congruence|exact H]|now right].
Qed.

(** ** Sorting *)
Lemma insert_step_perm e l : Permutation (insert_by_step e l) (e :: l).
Proof.
  induction l as [|x l IH]; cbn [insert_by_step]; [reflexivity|]. destruct (N.ltb _ _); [|reflexivity].
  rewrite IH. apply perm_swap.
Qed.
Lemma sort_step_perm l : Permutation (sort_by_step l) l.
Proof. induction l as [|x l IH]; cbn; [constructor|]. rewrite insert_step_perm. now constructor. Qed.
Lemma insert_step_sorted e l : ~ In (fst e) (map fst l) ->
  StronglySorted (fun a b => (fst a < fst b)%N) l -> StronglySorted (fun a b => (fst a < fst b)%N) (insert_by_step e l).
Proof.
  induction l as [|x l IH]; cbn [insert_by_step map fst In]; intros Hn Hs; [repeat constructor|].
  apply StronglySorted_inv in Hs as [H1 H2]. destruct (N.ltb_spec (fst x) (fst e)) as [Hlt|Hge].
  - constructor; [apply IH; tauto|]. rewrite (insert_step_perm e l). now constructor.
  - assert (Hlt : (fst e < fst x)%N) by (destruct (N.eq_dec (fst x) (fst e)); [intuition congruence|lia]).
    constructor; [now constructor|]. constructor; [exact Hlt|]. eapply Forall_impl; [|exact H2]. cbn beta. intros; lia.
Qed.
Lemma sort_step_sorted l : NoDup (map fst l) -> StronglySorted (fun a b => (fst a < fst b)%N) (sort_by_step l).
Proof.
  induction l as [|x l IH]; cbn [sort_by_step fold_right map]; intros H; [constructor|]. inversion H; subst.
  apply insert_step_sorted; [|now apply IH]. intros Hin. apply H2.
  eapply Permutation_in; [|exact Hin]. apply Permutation_map, sort_step_perm.
Qed.

(** ** Conversion *)
Lemma fill_spec tps : forall nodes times steps b, Forall2 (fun x s => to_step x tps = Ret s) times steps -> length nodes = length times ->
  fill_buffer nodes times tps b = Ret (add_all (combine steps (map to_index nodes)) b).
Proof.
  intros nodes times steps b H. revert nodes b. induction H as [|x s times steps Hx H IH]; intros [|n nodes] b Hl; try discriminate; [reflexivity|].
  cbn [fill_buffer map combine]. rewrite Hx. cbn [obind]. rewrite IH by (cbn in Hl; lia). reflexivity.
Qed.
Definition converted (u : uid) (evs : list (N * N)) (r : list message) : Prop :=
  StronglySorted (fun a b => (time_of a < time_of b)%N) r /\
  (forall m, In m r <-> exists t idx, m = SpikeMsg u t idx /\ idx <> [] /\ idx = at_time t evs) /\
  Permutation (flat_map idx_of r) (map snd evs).
Lemma sorted_map {A B} (f : A -> B) (R : B -> B -> Prop) l : StronglySorted (fun a b => R (f a) (f b)) l -> StronglySorted R (map f l).
Proof.
  induction l as [|x l IH]; cbn [map]; intros H; [constructor|]. apply StronglySorted_inv in H as [H1 H2].
  constructor; [auto|]. apply Forall_map. exact H2.
Qed.
Lemma flat_map_map {A B C} (f : B -> list C) (g : A -> B) l : flat_map f (map g l) = flat_map (fun x => f (g x)) l.
Proof. induction l as [|x l IH]; cbn; [reflexivity|]. now rewrite IH. Qed.
Lemma convert_spec order nodes times u tps steps : reading order -> Forall2 (fun x s => to_step x tps = Ret s) times steps ->
  length nodes = length times ->
  exists r, convert order nodes times u tps = Ret r /\ converted u (combine steps (map to_index nodes)) r.
Proof.
  intros Ho Hs Hl. unfold convert. rewrite (proj2 (Nat.eqb_eq _ _) Hl). rewrite (fill_spec tps nodes times steps [] Hs Hl). cbn [obind].
  set (evs := combine steps (map to_index nodes)).
  destruct (add_all_spec evs [] ltac:(constructor) ltac:(constructor)) as (A & B & C & D). set (b := add_all evs []) in *.
  assert (P : Permutation (sort_by_step (order b)) b) by (rewrite sort_step_perm; apply Ho).
  eexists. split; [reflexivity|]. split; [|split].
  - apply sorted_map. cbn [time_of]. apply sort_step_sorted. eapply Permutation_NoDup; [|exact A]. apply Permutation_map. symmetry. apply Ho.
  - intros m. rewrite in_map_iff. split.
    + intros ([t l] & <- & Hin). apply (Permutation_in _ P) in Hin. apply (bget_in b A B) in Hin as [H1 H2].
      exists t, l. cbn [fst snd]. split; [reflexivity|]. split; [exact H2|]. rewrite C in H1. symmetry. exact H1.
    + intros (t & idx & -> & Hne & Hi). exists (t, idx). split; [reflexivity|]. apply (Permutation_in _ (Permutation_sym P)).
      apply (bget_in b A B). split; [|exact Hne]. rewrite C. symmetry. exact Hi.
  - rewrite flat_map_map. cbn [idx_of]. rewrite (Permutation_flat_map _ P). exact D.
Qed.
Lemma convert_steps order nodes times u tps r : convert order nodes times u tps = Ret r -> length nodes = length times /\
  exists steps, Forall2 (fun x s => to_step x tps = Ret s) times steps.
Proof.
  unfold convert. destruct (Nat.eqb_spec (length nodes) (length times)) as [Hl|]; [|discriminate]. intros H. split; [exact Hl|].
  destruct (fill_buffer nodes times tps []) as [b| |] eqn:E; try discriminate. clear H. revert E. generalize (@nil (N * list N)) as b0.
  revert nodes Hl b. induction times as [|x times IH]; intros [|n nodes] Hl b b0; try discriminate; [exists []; constructor|].
  cbn [fill_buffer]. destruct (to_step x tps) as [s| |] eqn:Es; cbn [obind]; try discriminate. intros E.
  destruct (IH nodes ltac:(cbn in Hl; lia) _ _ E) as (steps & H). exists (s :: steps). now constructor.
Qed.

(** ** Messages and their spikes *)
Lemma flat_spikes_at ms t : map fst (filter (fun e => N.eqb t (snd e)) (flat_spikes ms)) = spikes_at ms t.
Proof.
  unfold flat_spikes, spikes_at. induction ms as [|m ms IH]; cbn [flat_map]; [reflexivity|].
  rewrite filter_app, map_app, IH. f_equal. destruct m as [u t' idx|]; [|cbn; destruct (N.eqb _ _); reflexivity]. cbn [time_of idx_of].
  rewrite (N.eqb_sym t' t). induction idx as [|i idx IHi]; cbn [map filter snd]; [destruct (N.eqb t t'); reflexivity|].
  destruct (N.eqb t t') eqn:E; cbn [map fst]; [f_equal|]; exact IHi.
Qed.
Lemma flat_spikes_idx ms : map fst (flat_spikes ms) = flat_map idx_of ms.
Proof.
  unfold flat_spikes. induction ms as [|m ms IH]; cbn [flat_map map]; [reflexivity|]. rewrite map_app, IH. f_equal.
  destruct m as [u t idx|]; [|reflexivity]. rewrite map_map. cbn [fst]. apply map_id.
Qed.
Lemma flat_spikes_in ms i t : In (i, t) (flat_spikes ms) -> exists m, In m ms /\ time_of m = t /\ In i (idx_of m).
Proof.
  unfold flat_spikes. rewrite in_flat_map. intros (m & Hm & Hin). exists m. split; [exact Hm|].
  destruct m as [u t' idx|]; [|destruct Hin]. apply in_map_iff in Hin as (j & [= <- <-] & Hj). auto.
Qed.
Lemma to_index_N n : (n < two32)%N -> to_index (Z.of_N n) = n.
Proof.
  intros H. unfold to_index. rewrite Z.mod_small; [apply N2Z.id|]. lia.
Qed.
Lemma combine_map {A B C} (f : A -> B) (g : A -> C) l : combine (map f l) (map g l) = map (fun x => (f x, g x)) l.
Proof. induction l as [|x l IH]; cbn; [reflexivity|]. now rewrite IH. Qed.
Lemma at_time_spikes sorted t : Forall (fun m => Forall (fun i => (i < two32)%N) (idx_of m)) sorted ->
  at_time t (combine (map snd (flat_spikes sorted)) (map to_index (map (fun e => Z.of_N (fst e)) (flat_spikes sorted)))) = spikes_at sorted t.
Proof.
  intros Hi. rewrite map_map, combine_map. unfold at_time. rewrite <- flat_spikes_at.
  assert (H : forall e, In e (flat_spikes sorted) -> (fst e < two32)%N).
  { intros [i t'] He. apply flat_spikes_in in He as (m & Hm & _ & Hin). rewrite Forall_forall in Hi. specialize (Hi m Hm). rewrite Forall_forall in Hi. exact (Hi i Hin). }
  induction (flat_spikes sorted) as [|e l IH]; cbn [map filter fst snd]; [reflexivity|].
  destruct (N.eqb t (snd e)); cbn [map snd fst]; [f_equal|]; [apply to_index_N, H; now left| |]; apply IH; intros; apply H; now right.
Qed.
(** From the conversion to the property. *)
Lemma converted_same u ms sorted r : sorting ms sorted -> Forall (fun m => Forall (fun i => (i < two32)%N) (idx_of m)) ms ->
  converted u (combine (map snd (flat_spikes sorted)) (map to_index (map (fun e => Z.of_N (fst e)) (flat_spikes sorted)))) r ->
  same_spikes u ms r.
Proof.
  intros [Hp _] Hi (C1 & C2 & _).
  assert (Hi' : Forall (fun m => Forall (fun i => (i < two32)%N) (idx_of m)) sorted) by (eapply Permutation_Forall; [symmetry; exact Hp|exact Hi]).
  assert (E : forall t, Permutation (spikes_at sorted t) (spikes_at ms t)) by (intros t; now apply Permutation_flat_map).
  split; [exact C1|]. split.
  - intros m Hm. apply C2 in Hm as (t & idx & -> & Hne & ->). rewrite at_time_spikes in * by exact Hi'. eauto.
  - intros t Ht. exists (spikes_at sorted t). apply C2. exists t, (spikes_at sorted t). split; [reflexivity|]. split.
    + intros E0. apply Ht. apply Permutation_nil. rewrite <- E, E0. constructor.
    + now rewrite at_time_spikes.
Qed.

(** ** The saved JSON value, as the loader sees it *)
Lemma get_all_map {A B} (get : json -> outcome A) (mk : B -> json) (f : B -> A) l :
  (forall x, In x l -> get (mk x) = Ret (f x)) -> get_all get (map mk l) = Ret (map f l).
Proof.
  induction l as [|x l IH]; cbn [get_all map]; intros H; [reflexivity|]. rewrite (H x) by now left. cbn [obind].
  rewrite IH by (intros; apply H; now right). reflexivity.
Qed.
Lemma load_saved_json order sorted u strict :
  (forall e, In e (flat_spikes sorted) -> (fst e < 2 ^ 31)%N) ->
  load_json order (Some (save_json sorted)) u strict =
  convert order (map (fun e => Z.of_N (fst e)) (flat_spikes sorted))
                (map (fun e => f_of_d (d_of_Z (Z.of_N (snd e)))) (flat_spikes sorted)) u (f_of_Z 1).
Proof.
  intros H. unfold load_json.
  assert (E1 : has_magic (save_json sorted) = Ret true) by reflexivity.
  assert (E2 : correct_version (save_json sorted) = Ret true) by reflexivity.
  rewrite E1. cbn [obind negb andb]. rewrite E2. cbn [obind]. set (s := flat_spikes sorted) in *.
  assert (E3 : exists l, find_member "spikes" (save_json sorted) = Ret (Some (JObj l)) /\
     read_values get_int "node_ids" (JObj l) = Ret (map (fun e => Z.of_N (fst e)) s) /\
     read_values (fun v => obind (get_double v) (fun d => Ret (f_of_d d))) "timestamps" (JObj l) = Ret (map (fun e => f_of_d (d_of_Z (Z.of_N (snd e)))) s)).
  { eexists. split; [reflexivity|]. fold s. split.
    - cbn [read_values find_member member String.eqb Ascii.eqb Bool.eqb obind]. apply get_all_map. intros e He. unfold jint, get_int. specialize (H e He).
      change (2 ^ 31)%N with 2147483648%N in H. rewrite (proj2 (andb_true_iff _ _)); [reflexivity|]. split; lia.
    - cbn [read_values find_member member String.eqb Ascii.eqb Bool.eqb obind]. apply get_all_map. intros e He. reflexivity. }
  destruct E3 as (l & -> & E4 & E5). cbn [obind]. rewrite E4, E5. reflexivity.
Qed.
Lemma load_saved_h5 order sorted u tps strict :
  load_h5 order (save_h5 sorted tps) u tps strict =
  convert order (map (fun e => Z.of_N (fst e)) (flat_spikes sorted))
                (map (fun e => f_mul (f_of_Z (Z.of_N (snd e))) tps) (flat_spikes sorted)) u tps.
Proof.
  unfold load_h5, check_format, save_h5. cbn [h_magic h_version h_spikes hg_node_ids hg_timestamps]. unfold magic_number. rewrite Z.eqb_refl. cbn [negb andb].
  change (std_equal3 version version) with (@Ret bool true). cbn [obind]. rewrite !map_length, Nat.eqb_refl. reflexivity.
Qed.
Lemma Forall2_map_same {A B C} (R : B -> C -> Prop) (f : A -> B) (g : A -> C) l :
  (forall x, In x l -> R (f x) (g x)) -> Forall2 R (map f l) (map g l).
Proof. induction l as [|x l IH]; cbn; intros H; constructor; auto. Qed.

(** ** The text of a list of numbers *)
Lemma substring_app (a b : string) : substring 0 (String.length a) (a ++ b)%string = a.
Proof. induction a as [|c a IH]; cbn; [now destruct b|]. now rewrite IH. Qed.
Lemma length_app_s (a b : string) : String.length (a ++ b)%string = String.length a + String.length b.
Proof. induction a as [|c a IH]; cbn; [reflexivity|]. now rewrite IH. Qed.
Lemma app_assoc_s (a b c : string) : ((a ++ b) ++ c)%string = (a ++ b ++ c)%string.
Proof. induction a as [|x a IH]; cbn; [reflexivity|]. now rewrite IH. Qed.
Lemma numbers_concat l : l <> [] -> numbers_text l = (String.concat ", " (map decimal l) ++ ", ")%string.
Proof.
  induction l as [|n l IH]; [congruence|]. intros _. cbn [numbers_text map String.concat]. destruct l as [|n' l].
  - reflexivity.
  - rewrite IH by discriminate. cbn [map]. rewrite !app_assoc_s. reflexivity.
Qed.
Lemma decimal_nonempty n : 1 <= String.length (decimal n).
Proof. unfold decimal. destruct n as [|p]; [cbn; lia|]. unfold N.to_uint.
  assert (H : Pos.to_uint p <> Decimal.Nil) by apply DecimalPos.Unsigned.to_uint_nonnil.
  destruct (Pos.to_uint p); cbn; try lia. congruence.
Qed.
Lemma value_text_concat l : value_text l = String.concat ", " (map decimal l).
Proof.
  unfold value_text. destruct l as [|n l]; [reflexivity|]. rewrite numbers_concat by discriminate.
  rewrite length_app_s. change (String.length ", ") with 2.
  assert (H : 1 <= String.length (String.concat ", " (map decimal (n :: l)))).
  { cbn [map String.concat]. pose proof (decimal_nonempty n). destruct (map decimal l); [assumption|]. rewrite length_app_s. lia. }
  rewrite (proj2 (Nat.ltb_lt _ _)) by lia. replace (_ + 2 - 2) with (String.length (String.concat ", " (map decimal (n :: l)))) by lia.
  apply substring_app.
Qed.
