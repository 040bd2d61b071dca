From Coq Require Import String Sorted Permutation Lia.
From Verif Require Import Base ListLemmas Codec_Model Codec_Spec Codec_Proofs Sonata_Model Sonata_Spec.
Open Scope list_scope.

(** ** Structures *)
Lemma put_names f v s : names (put f v s) = names s.
Proof.
  unfold names. induction s as [|[g w] t IH]; [reflexivity|]. cbn [put]. destruct (String.eqb f g); cbn [map fst]; congruence.
Qed.
Lemma get_put_same f v s : In f (names s) -> get f (put f v s) = Some v.
Proof.
  unfold names. induction s as [|[g w] t IH]; cbn [map fst In]; [tauto|]. intros H.
  cbn [put]. destruct (String.eqb f g) eqn:E; cbn [get]; rewrite E; [reflexivity|].
  apply IH. destruct H as [H|H]; [|exact H]. apply String.eqb_neq in E. congruence.
Qed.
Lemma get_put_other f g v s : f <> g -> get g (put f v s) = get g s.
Proof.
  intros H. induction s as [|[h w] t IH]; [reflexivity|]. cbn [put].
  destruct (String.eqb f h) eqn:E; cbn [get].
  - destruct (String.eqb g h) eqn:E2; [|reflexivity]. apply String.eqb_eq in E, E2. congruence.
  - destruct (String.eqb g h); [reflexivity|exact IH].
Qed.
Lemma get_not_in f s : ~ In f (names s) -> get f s = None.
Proof.
  unfold names. induction s as [|[g w] t IH]; [reflexivity|]. cbn [map fst In get]. intros H.
  destruct (String.eqb f g) eqn:E; [apply String.eqb_eq in E; subst; tauto|]. apply IH. tauto.
Qed.
Lemma get_in f s : In f (names s) -> exists v, get f s = Some v.
Proof.
  unfold names. induction s as [|[g w] t IH]; cbn [map fst In get]; [tauto|]. intros H.
  destruct (String.eqb f g) eqn:E; [eauto|]. apply IH. apply String.eqb_neq in E. destruct H; [congruence|assumption].
Qed.
Lemma struct_ext : forall s s', NoDup (names s) -> names s' = names s -> (forall f, get f s' = get f s) -> s' = s.
Proof.
  induction s as [|[g v] t IH]; intros [|[g' v'] t'] Hn He Hg; try discriminate; [reflexivity|].
  unfold names in *. cbn [map fst] in *. inversion He; subst g'. inversion Hn; subst.
  assert (v' = v). { pose proof (Hg g) as Q. cbn [get] in Q. rewrite String.eqb_refl in Q. congruence. }
  subst v'. f_equal. apply IH; [assumption|assumption|]. intros f. pose proof (Hg f) as Q. cbn [get] in Q.
  destruct (String.eqb f g) eqn:E; [|exact Q]. apply String.eqb_eq in E. subst f.
  rewrite (get_not_in g t), (get_not_in g t'); [reflexivity| |]; unfold names; congruence.
Qed.

(** ** Loading fields *)
Section Fields.
Context {X : Type} (str : X -> struct).
Definition lookup_saved (saved : list (string * string)) (ds : string) : option string :=
  match find (fun q => String.eqb ds (snd q)) saved with Some q => Some (fst q) | None => None end.
(** The value the field gets after the round trip. *)
Definition value (saved : list (string * string)) (def : struct) (p : string * string) (x : X) : val :=
  match lookup_saved saved (snd p) with Some f => field f (str x) | None => field (fst p) def end.
Definition stored (saved : list (string * string)) (xs : list X) : datasets :=
  map (fun p => (snd p, map (fun x => field (fst p) (str x)) xs)) saved.

Lemma find_stored saved xs ds :
  find_dataset ds (stored saved xs)
  = match lookup_saved saved ds with Some f => Some (map (fun x => field f (str x)) xs) | None => None end.
Proof.
  unfold stored, lookup_saved. induction saved as [|[f d] t IH]; [reflexivity|].
  cbn [map find_dataset find fst snd]. destruct (String.eqb ds d); [reflexivity|exact IH].
Qed.
Lemma repeat_map {Y} (v : Y) (xs : list X) : repeat v (length xs) = map (fun _ => v) xs.
Proof. induction xs; cbn; congruence. Qed.
Lemma read_stored saved xs p def :
  read_parameter (stored saved xs) (snd p) (length xs) (field (fst p) def) = map (value saved def p) xs.
Proof.
  unfold read_parameter, value. rewrite find_stored. destruct (lookup_saved saved (snd p)); [reflexivity|].
  now rewrite repeat_map.
Qed.
Lemma assign_map f h g (xs : list X) :
  assign f (map h xs) (map g xs) = map (fun x => put f (h x) (g x)) xs.
Proof. induction xs; cbn [map assign]; congruence. Qed.

Lemma load_fields c saved def xs : forall L g,
  ofold (load_field c (stored saved xs) def) L (map g xs)
  = Ret (map (fun x => fold_left (fun s p => put (fst p) (value saved def p x) s) L (g x)) xs).
Proof.
  induction L as [|p L IH]; intros g; [reflexivity|]. cbn [ofold fold_left].
  unfold load_field at 1. rewrite map_length, read_stored, assign_map. unfold assign_all.
  rewrite !map_length, Nat.ltb_irrefl, assign_map.
  replace (if c then _ else _) with (Ret (map (fun x => put (fst p) (value saved def p x) (g x)) xs)) by now destruct c.
  cbn [obind]. apply IH.
Qed.

Lemma fold_put_names (w : string * string -> val) : forall L s,
  names (fold_left (fun s p => put (fst p) (w p) s) L s) = names s.
Proof. induction L as [|p L IH]; intros s; [reflexivity|]. cbn [fold_left]. rewrite IH. apply put_names. Qed.
Lemma fold_put_get (w : string * string -> val) g : forall L s, NoDup (map fst L) ->
  get g (fold_left (fun s p => put (fst p) (w p) s) L s)
  = match find (fun p => String.eqb g (fst p)) L with
    | Some p => match get g s with Some _ => Some (w p) | None => None end
    | None => get g s
    end.
Proof.
  induction L as [|p L IH]; intros s Hn; [reflexivity|]. cbn [fold_left find map] in *. inversion Hn; subst.
  rewrite IH by assumption. destruct (String.eqb g (fst p)) eqn:E.
  - apply String.eqb_eq in E. subst g.
    assert (find (fun q => String.eqb (fst p) (fst q)) L = None) as ->.
    { destruct (find _ L) as [q|] eqn:F; [|reflexivity]. apply find_some in F as [F1 F2].
      apply String.eqb_eq in F2. rewrite F2 in H1. destruct H1. now apply in_map. }
    destruct (get (fst p) s) eqn:G.
    + apply get_put_same. destruct (in_dec string_dec (fst p) (names s)) as [i|n]; [exact i|].
      rewrite get_not_in in G by exact n. discriminate.
    + apply get_not_in. rewrite put_names. intros i. apply get_in in i as [v i]. congruence.
  - apply String.eqb_neq in E. rewrite get_put_other by congruence. reflexivity.
Qed.
End Fields.

Lemma put_neurons_stored fs ns : put_neurons fs ns = stored (fun n => n) (map same fs) ns.
Proof. unfold put_neurons, stored. rewrite map_map. reflexivity. Qed.
Lemma put_synapses_stored fs ss : put_synapses fs ss = stored (fun s => fst (fst s)) fs ss.
Proof. reflexivity. Qed.

(** ** Per-kind tables *)
Definition sin (f : string) (l : list string) : bool := existsb (String.eqb f) l.
Lemma sin_In f l : sin f l = true <-> In f l.
Proof.
  unfold sin. rewrite existsb_exists. split; [intros (x & H & E); apply String.eqb_eq in E; congruence|].
  intros H. exists f. split; [exact H|apply String.eqb_refl].
Qed.
Lemma lookup_same fs f : lookup_saved (map same fs) f = if sin f fs then Some f else None.
Proof.
  unfold lookup_saved. induction fs as [|g t IH]; [reflexivity|]. cbn [map find same snd fst sin existsb].
  destruct (String.eqb f g) eqn:E; [apply String.eqb_eq in E; subst; reflexivity|exact IH].
Qed.
Lemma find_same fs f : find (fun p => String.eqb f (fst p)) (map same fs) = if sin f fs then Some (same f) else None.
Proof.
  induction fs as [|g t IH]; [reflexivity|]. cbn [map find same fst sin existsb].
  destruct (String.eqb f g) eqn:E; [apply String.eqb_eq in E; subst; reflexivity|exact IH].
Qed.
Definition kept (k : neuron_kind) (f : string) : bool :=
  if sin f (dynamic_loaded k) then sin f (dynamic_saved k)
  else sin f (static_loaded k) && sin f (static_saved k).
Fixpoint nodupb (l : list string) : bool :=
  match l with [] => true | x :: t => negb (sin x t) && nodupb t end.
Lemma nodupb_ok l : nodupb l = true -> NoDup l.
Proof.
  induction l as [|x t IH]; intros H; [constructor|]. cbn [nodupb] in H. apply Bool.andb_true_iff in H as [H1 H2].
  constructor; [|auto]. intros Q. apply sin_In in Q. rewrite Q in H1. discriminate.
Qed.
Lemma kept_table k : forallb (fun f => Bool.eqb (kept k f) (negb (sin f (forgotten k)))) (names (default_neuron k)) = true.
Proof. destruct k; vm_compute; reflexivity. Qed.
Lemma kind_nodup k : NoDup (names (default_neuron k)) /\ NoDup (static_loaded k) /\ NoDup (dynamic_loaded k).
Proof. destruct k; repeat split; apply nodupb_ok; vm_compute; reflexivity. Qed.
Lemma map_fst_same fs : map fst (map same fs) = fs.
Proof. rewrite map_map. apply map_id. Qed.

Definition restored (k : neuron_kind) (n : struct) : struct :=
  fold_left (fun s p => put (fst p) (value (fun n => n) (map same (dynamic_saved k)) (default_neuron k) p n) s)
    (map same (dynamic_loaded k))
    (fold_left (fun s p => put (fst p) (value (fun n => n) (map same (static_saved k)) (default_neuron k) p n) s)
       (map same (static_loaded k)) (default_neuron k)).

Lemma field_get f s : In f (names s) -> get f s = Some (field f s).
Proof. intros H. unfold field. destruct (get_in f s H) as [v ->]. reflexivity. Qed.

Lemma restored_kept k n : neuron_ok k n -> kept_except (forgotten k) k n (restored k n).
Proof.
  intros Hn. destruct (kind_nodup k) as (N1 & N2 & N3). unfold kept_except, restored. split.
  - rewrite (fold_put_names (fun p => value _ _ _ p n)), (fold_put_names (fun p => value _ _ _ p n)). now rewrite Hn.
  - intros f.
    rewrite (fold_put_get (fun p => value _ _ _ p n)) by (rewrite map_fst_same; exact N3).
    rewrite (fold_put_get (fun p => value _ _ _ p n)) by (rewrite map_fst_same; exact N2).
    rewrite !find_same. unfold value.
    destruct (in_dec string_dec f (names (default_neuron k))) as [i|ni].
    + pose proof (kept_table k) as K. rewrite forallb_forall in K. specialize (K f i).
      apply Bool.eqb_prop in K. fold (sin f (forgotten k)).
      assert (i' : In f (names n)) by (now rewrite Hn).
      rewrite (field_get f _ i), (field_get f _ i'). unfold kept in K.
      destruct (sin f (dynamic_loaded k)), (sin f (static_loaded k)); cbn [same fst snd]; rewrite ?lookup_same;
      destruct (sin f (dynamic_saved k)), (sin f (static_saved k)), (sin f (forgotten k)); cbn in K; try discriminate;
      reflexivity.
    + assert (ni' : ~ In f (names n)) by (now rewrite Hn). rewrite !(get_not_in f (default_neuron k)) by exact ni.
      rewrite (get_not_in f n) by exact ni'.
      destruct (sin f (dynamic_loaded k)), (sin f (static_loaded k)), (existsb _ _); reflexivity.
Qed.

Lemma show_parse u : uid_ok u -> parse_uid (show_uid u) = Ret u.
Proof.
  intros H. unfold parse_uid. pose proof (read_show_uid u [] H) as E. rewrite app_nil_r in E. now rewrite E.
Qed.

Lemma load_saved_population p : uid_ok (p_uid p) ->
  load_population (p_kind p) (show_uid (p_uid p)) (node_group_of p)
  = Ret (mkPop (p_uid p) (p_kind p) (map (restored (p_kind p)) (p_neurons p))).
Proof.
  intros Hu. unfold load_population, node_group_of. cbn [g_ids g_static g_dynamic].
  rewrite map_length, seq_length, repeat_map, !put_neurons_stored, load_fields. cbn [obind].
  rewrite load_fields. cbn [obind]. rewrite show_parse by exact Hu. reflexivity.
Qed.

(** ** Synapses *)
Definition restored_synapse (k : synapse_kind) (saved loaded : list (string * string)) (s : struct) : struct :=
  fold_left (fun t p => put (fst p) (value (fun n => n) saved (default_synapse k) p s) t) loaded (default_synapse k).
Lemma restored_synapse_same k saved loaded s :
  synapse_ok k s -> NoDup (names (default_synapse k)) -> NoDup (map fst loaded) ->
  forallb (fun f => match find (fun p => String.eqb f (fst p)) loaded with
                    | Some p => match lookup_saved saved (snd p) with Some g => String.eqb f g | None => false end
                    | None => false end) (names (default_synapse k)) = true ->
  restored_synapse k saved loaded s = s.
Proof.
  intros Hs N1 N2 T. apply struct_ext; [now rewrite Hs| |].
  - unfold restored_synapse. rewrite (fold_put_names (fun p => value _ _ _ p s)). now rewrite Hs.
  - intros f. unfold restored_synapse. rewrite (fold_put_get (fun p => value _ _ _ p s)) by exact N2.
    rewrite forallb_forall in T.
    destruct (in_dec string_dec f (names (default_synapse k))) as [i|ni].
    + specialize (T f i). destruct (find _ loaded) as [p|]; [|discriminate]. unfold value.
      destruct (lookup_saved saved (snd p)) as [g|]; [|discriminate]. apply String.eqb_eq in T. subst g.
      rewrite (field_get f _ i), (field_get f s) by (now rewrite Hs). reflexivity.
    + rewrite (get_not_in f s) by (now rewrite Hs). rewrite (get_not_in f (default_synapse k)) by exact ni.
      destruct (find _ loaded); reflexivity.
Qed.
Lemma zip_ends_map {X} (g : X -> struct) (a b : X -> N) : forall xs,
  zip_ends (map g xs) (map a xs) (map b xs) = Ret (map (fun x => (g x, a x, b x)) xs).
Proof. induction xs as [|x t IH]; [reflexivity|]. cbn [map zip_ends]. rewrite IH. reflexivity. Qed.

Lemma load_saved_edges k saved loaded j :
  j_kind j = k -> uid_ok (j_uid j) -> uid_ok (j_pre j) -> uid_ok (j_post j) ->
  lookup_saved saved "syn_weight"%string <> None ->
  Forall (fun s => restored_synapse k saved loaded (fst (fst s)) = fst (fst s)) (j_synapses j) ->
  load_projection k loaded (show_uid (j_uid j)) (edge_group_of saved j) = Ret j.
Proof.
  intros Hk Hu Ha Hb Hw Hs. unfold load_projection, edge_group_of.
  cbn [e_group_id e_params e_source e_target e_source_pop e_target_pop e_locked].
  rewrite repeat_length, put_synapses_stored.
  assert (length (read_parameter (stored (fun s => fst (fst s)) saved (j_synapses j)) "syn_weight"%string
            (length (j_synapses j)) (field "weight_"%string (default_synapse k))) = length (j_synapses j)) as ->.
  { unfold read_parameter. rewrite find_stored. destruct (lookup_saved saved "syn_weight"); [|congruence].
    apply map_length. }
  rewrite repeat_map, load_fields. cbn [obind]. rewrite zip_ends_map. cbn [obind].
  rewrite !show_parse by assumption. cbn [obind]. f_equal.
  destruct j as [u a b k' l ss]; cbn [j_uid j_pre j_post j_kind j_locked j_synapses] in *. subst k'. f_equal.
  induction Hs as [|[[s x] y] t E _ IH]; [reflexivity|]. cbn [map fst snd] in *. rewrite IH. f_equal.
  f_equal. f_equal. exact E.
Qed.

(** ** Names and their order *)
Lemma hex_mono a b : (a < 16)%N -> (b < 16)%N -> (hex_char a <? hex_char b)%N = (a <? b)%N.
Proof.
  intros. unfold hex_char. destruct (a <? 10)%N eqn:A, (b <? 10)%N eqn:B; apply Bool.eq_iff_eq_true; rewrite !N.ltb_lt;
  rewrite ?N.ltb_lt, ?N.ltb_ge in *; lia.
Qed.
Lemma hex_eqb a b : (a < 16)%N -> (b < 16)%N -> (hex_char a =? hex_char b)%N = (a =? b)%N.
Proof.
  intros. unfold hex_char. destruct (a <? 10)%N eqn:A, (b <? 10)%N eqn:B; apply Bool.eq_iff_eq_true; rewrite !N.eqb_eq;
  rewrite ?N.ltb_lt, ?N.ltb_ge in *; lia.
Qed.
Lemma lex_show_byte x y r r' : (x < 256)%N -> (y < 256)%N ->
  lex_ltb (show_byte x ++ r) (show_byte y ++ r') = (x <? y)%N || ((x =? y)%N && lex_ltb r r').
Proof.
  intros Hx Hy. unfold show_byte. cbn [app lex_ltb].
  assert (x / 16 < 16)%N by (apply N.div_lt_upper_bound; lia).
  assert (y / 16 < 16)%N by (apply N.div_lt_upper_bound; lia).
  assert (x mod 16 < 16)%N by (apply N.mod_lt; lia). assert (y mod 16 < 16)%N by (apply N.mod_lt; lia).
  rewrite !hex_mono, !hex_eqb by assumption.
  pose proof (N.div_mod x 16). pose proof (N.div_mod y 16).
  destruct (lex_ltb r r'); rewrite ?Bool.andb_true_r, ?Bool.andb_false_r, ?Bool.orb_false_r;
  apply Bool.eq_iff_eq_true; repeat rewrite ?Bool.orb_true_iff, ?Bool.andb_true_iff, ?N.ltb_lt, ?N.eqb_eq; lia.
Qed.
Lemma lex_show_bytes : forall l l' i, length l = length l' ->
  Forall (fun b => b < 256)%N l -> Forall (fun b => b < 256)%N l' ->
  lex_ltb (show_bytes i l) (show_bytes i l') = lex_ltb l l'.
Proof.
  induction l as [|x l IH]; intros [|y l'] i Hl F F'; try discriminate; [reflexivity|].
  cbn [show_bytes]. inversion F; inversion F'; subst. rewrite lex_show_byte by assumption. cbn [lex_ltb].
  f_equal. f_equal. destruct i as [|[|[|[|[|[|[|[|[|[|i]]]]]]]]]]; cbn [app lex_ltb];
  rewrite ?N.ltb_irrefl, ?N.eqb_refl; cbn [orb andb]; apply IH; auto; now inversion Hl.
Qed.
Lemma lex_show_uid a b : uid_ok a -> uid_ok b -> lex_ltb (show_uid a) (show_uid b) = (a <? b)%N.
Proof.
  unfold uid_ok. intros Ha Hb. unfold show_uid, uuid_bytes. rewrite lex_show_bytes.
  - apply lex_be; assumption.
  - now rewrite !be_length.
  - apply be_byte.
  - apply be_byte.
Qed.
Lemma text_eqb_eq a b : text_eqb a b = true <-> a = b.
Proof.
  revert b. induction a as [|x a IH]; intros [|y b]; cbn [text_eqb]; split; intros H; try discriminate; try reflexivity.
  - apply Bool.andb_true_iff in H as [H1 H2]. apply N.eqb_eq in H1. apply IH in H2. congruence.
  - inversion H; subst. rewrite N.eqb_refl. cbn [andb]. now apply IH.
Qed.
Lemma show_uid_inj a b : uid_ok a -> uid_ok b -> show_uid a = show_uid b -> a = b.
Proof. intros Ha Hb E. pose proof (show_parse a Ha). pose proof (show_parse b Hb). congruence. Qed.

Lemma insert_perm {G} (p : text * G) l : Permutation (insert_by_name p l) (p :: l).
Proof.
  induction l as [|q t IH]; [reflexivity|]. cbn [insert_by_name]. destruct (lex_ltb _ _); [|reflexivity].
  rewrite IH. apply perm_swap.
Qed.
Lemma objects_perm {G} (l : list (text * G)) : Permutation (objects l) l.
Proof. induction l as [|p t IH]; [reflexivity|]. cbn [objects fold_right]. rewrite insert_perm. now constructor. Qed.

Section Sorting.
Context {A G : Type} (key : A -> uid) (grp : A -> G).
Let F (a : A) : text * G := (show_uid (key a), grp a).
Lemma insert_sorted a : uid_ok (key a) -> forall l, Forall (fun b => uid_ok (key b)) l -> ~ In (key a) (map key l) ->
  StronglySorted N.lt (map key l) ->
  exists l', insert_by_name (F a) (map F l) = map F l' /\ Permutation l' (a :: l) /\ StronglySorted N.lt (map key l').
Proof.
  intros Ha. induction l as [|b t IH]; intros Hf Hn Hs.
  - exists [a]. cbn [map insert_by_name]. repeat split; [constructor; constructor; constructor|]. repeat constructor.
  - cbn [map insert_by_name] in *. inversion Hf; subst. inversion Hs; subst.
    change (fst (F b)) with (show_uid (key b)). change (fst (F a)) with (show_uid (key a)). rewrite lex_show_uid by assumption.
    destruct (N.ltb_spec (key b) (key a)).
    + destruct IH as (l' & E & P & S); [assumption| |assumption|]; [intros Q; apply Hn; now right|].
      exists (b :: l'). cbn [map]. rewrite E. split; [reflexivity|]. split.
      * rewrite P. apply perm_swap.
      * constructor; [exact S|]. apply Forall_forall. intros u Hu. apply in_map_iff in Hu as (c & <- & Hc).
        apply (Permutation_in _ P) in Hc. destruct Hc as [<-|Hc]; [assumption|].
        rewrite Forall_forall in H4. apply H4. now apply in_map.
    + exists (a :: b :: t). split; [reflexivity|]. split; [reflexivity|].
      assert (key a < key b)%N. { destruct (N.lt_trichotomy (key a) (key b)) as [|[E|]]; [assumption| |lia]. destruct Hn. left. now symmetry. }
      cbn [map]. constructor; [exact Hs|]. constructor; [assumption|].
      eapply Forall_impl; [|exact H4]. intros; cbn; lia.
Qed.
Lemma objects_sorted l : Forall (fun b => uid_ok (key b)) l -> NoDup (map key l) ->
  exists l', objects (map F l) = map F l' /\ Permutation l' l /\ StronglySorted N.lt (map key l').
Proof.
  induction l as [|a t IH]; intros Hf Hn.
  - exists []. repeat split; constructor.
  - cbn [map objects fold_right]. fold (objects (map F t)). inversion Hf; inversion Hn; subst.
    destruct IH as (l' & -> & P & S); [assumption|assumption|].
    destruct (insert_sorted a H1 l') as (l'' & E & P' & S').
    + eapply Permutation_Forall; [symmetry; exact P|assumption].
    + intros Q. apply H5. eapply Permutation_in; [apply Permutation_map; exact P|exact Q].
    + exact S.
    + exists l''. split; [exact E|]. split; [|exact S']. rewrite P', P. reflexivity.
Qed.
Lemma existsb_name a l : uid_ok (key a) -> Forall (fun b => uid_ok (key b)) l -> ~ In (key a) (map key l) ->
  existsb (fun p => text_eqb (show_uid (key a)) (fst p)) (map F l) = false.
Proof.
  intros Ha Hf Hn. destruct (existsb _ _) eqn:E; [|reflexivity]. exfalso.
  apply existsb_exists in E as (p & Hp & E). apply in_map_iff in Hp as (b & <- & Hb). cbn [F fst] in E.
  apply text_eqb_eq in E. rewrite Forall_forall in Hf. apply show_uid_inj in E; [|exact Ha|now apply Hf].
  apply Hn. rewrite E. now apply in_map.
Qed.
End Sorting.

(** ** Type tables *)
Lemma csv_check_add_ok t rows : rows <> [] -> exists r, csv_check_add t rows = Ret r /\ r <> [].
Proof.
  intros H. unfold csv_check_add. destruct rows as [|x rows]; [congruence|].
  destruct (existsb _ _); eexists; (split; [reflexivity|]); [discriminate|]. now destruct rows.
Qed.
Lemma add_neuron_type_ok t f : f <> Some [] -> exists r, add_neuron_type t f = Ret (Some r) /\ r <> [].
Proof.
  intros H. unfold add_neuron_type.
  destruct (csv_check_add_ok t (match f with None => [t] | Some rows => rows end)) as (r & -> & Hr).
  - destruct f as [[|]|]; congruence.
  - exists r. auto.
Qed.
Lemma add_synapse_type_ok t f : f <> Some [] -> exists r, add_synapse_type t f = Ret (Some r) /\ r <> [].
Proof.
  intros H. unfold add_synapse_type. destruct f as [rows|].
  - destruct (csv_check_add_ok t rows) as (r & -> & Hr); [congruence|]. exists r. auto.
  - exists [t]. split; [reflexivity|discriminate].
Qed.

(** ** Saving *)
Definition node_entry (p : population) : text * node_group := (show_uid (p_uid p), node_group_of p).
Definition saved_names (k : synapse_kind) : list (string * string) :=
  match k with ResourceSyn => resource_syn_saved | _ => delta_saved end.
Definition edge_entry (j : projection) : text * edge_group :=
  (show_uid (j_uid j), edge_group_of (saved_names (j_kind j)) j).

Definition save_pops := ofold (fun (st : list (text * node_group) * option (list Z)) p =>
           obind (add_population (fst st) p) (fun ns =>
           obind (add_neuron_type (neuron_type_id (p_kind p)) (snd st)) (fun c => Ret (ns, c)))).
Definition save_projs := ofold (fun (st : list (text * edge_group) * option (list Z)) j =>
           obind (add_projection (fst st) j) (fun es =>
           obind (add_synapse_type (synapse_type_id (j_kind j)) (snd st)) (fun c => Ret (es, c)))).

Lemma NoDup_app_mid {A} (l1 l2 : list A) x : NoDup (l1 ++ x :: l2) -> ~ In x l1 /\ NoDup ((l1 ++ [x]) ++ l2).
Proof.
  intros H. split.
  - apply NoDup_remove_2 in H. intros Q. apply H. apply in_or_app. now left.
  - rewrite <- app_assoc. exact H.
Qed.
Lemma save_pops_ok : forall l done c, c <> Some [] -> Forall (fun p => uid_ok (p_uid p)) (done ++ l) ->
  NoDup (map p_uid (done ++ l)) ->
  exists c', save_pops l (map node_entry done, c) = Ret (map node_entry (done ++ l), c') /\ c' <> Some [] .
Proof.
  unfold save_pops. induction l as [|p l IH]; intros done c Hc Hf Hn.
  - exists c. rewrite app_nil_r. auto.
  - cbn [ofold fst snd]. rewrite map_app in Hn. cbn [map] in Hn. apply NoDup_app_mid in Hn as [Hi Hn].
    pose proof Hf as Hf'. rewrite Forall_app in Hf'. destruct Hf' as [Hd Hp]. inversion Hp; subst.
    assert (add_population (map node_entry done) p = Ret (map node_entry (done ++ [p]))) as ->.
    { rewrite map_app. cbn [map]. unfold add_population, create_group.
      pose proof (existsb_name p_uid node_group_of p done H1 Hd Hi) as E.
      unfold node_entry at 1. rewrite E. reflexivity. }
    cbn [obind]. destruct (add_neuron_type_ok (neuron_type_id (p_kind p)) c Hc) as (r & -> & Hr). cbn [obind].
    replace (done ++ p :: l) with ((done ++ [p]) ++ l) in * by (rewrite <- app_assoc; reflexivity).
    apply IH; [congruence|exact Hf|]. rewrite !map_app. rewrite map_app in Hn || idtac. exact Hn.
Qed.
Lemma save_projs_ok : forall l done c, c <> Some [] -> Forall (fun j => uid_ok (j_uid j)) (done ++ l) ->
  Forall (fun j => j_kind j <> AdditiveSyn) l -> NoDup (map j_uid (done ++ l)) ->
  exists c', save_projs l (map edge_entry done, c) = Ret (map edge_entry (done ++ l), c') /\ c' <> Some [].
Proof.
  unfold save_projs. induction l as [|p l IH]; intros done c Hc Hf Hk Hn.
  - exists c. rewrite app_nil_r. auto.
  - cbn [ofold fst snd]. rewrite map_app in Hn. cbn [map] in Hn. apply NoDup_app_mid in Hn as [Hi Hn].
    pose proof Hf as Hf'. rewrite Forall_app in Hf'. destruct Hf' as [Hd Hp]. inversion Hp; subst. inversion Hk; subst.
    assert (add_projection (map edge_entry done) p = Ret (map edge_entry (done ++ [p]))) as ->.
    { rewrite map_app. cbn [map]. unfold add_projection, create_group, edge_entry, saved_names.
      pose proof (existsb_name j_uid (fun j => edge_group_of (saved_names (j_kind j)) j) p done H1 Hd Hi) as E.
      unfold saved_names in E. destruct (j_kind p) eqn:K; [| congruence |]; rewrite E; reflexivity. }
    cbn [obind]. destruct (add_synapse_type_ok (synapse_type_id (j_kind p)) c Hc) as (r & -> & Hr). cbn [obind].
    replace (done ++ p :: l) with ((done ++ [p]) ++ l) in * by (rewrite <- app_assoc; reflexivity).
    apply IH; [congruence|exact Hf|assumption|]. rewrite !map_app. exact Hn.
Qed.

Lemma save_ok d net : saveable net -> tables_ok d -> exists cn cs,
  save_network d net = Ret (mkDisk (map node_entry (n_pops net)) (Some (show_uid (n_uid net)))
                                   (map edge_entry (n_projs net)) cn cs).
Proof.
  intros H [T1 T2]. unfold save_network. fold save_pops. fold save_projs.
  assert (Forall (fun p => uid_ok (p_uid p)) (n_pops net)).
  { eapply Forall_impl; [|exact (sv_pops _ H)]. intros p (Q & _). exact Q. }
  assert (Forall (fun p => uid_ok (j_uid p)) (n_projs net)).
  { eapply Forall_impl; [|exact (sv_projs _ H)]. intros p (Q & _). exact Q. }
  assert (Forall (fun j => j_kind j <> AdditiveSyn) (n_projs net)).
  { eapply Forall_impl; [|exact (sv_projs _ H)]. intros p (_ & _ & _ & Q & _). exact Q. }
  destruct (save_projs_ok (n_projs net) [] (d_synapse_csv d) T2) as (c & E & Hc); cbn [app]; try assumption.
  { apply sv_proj_uids; assumption. }
  cbn [map app] in E. rewrite E. cbn [obind fst snd].
  destruct (save_pops_ok (n_pops net) [] (d_neuron_csv d) T1) as (c2 & E2 & Hc2); cbn [app]; try assumption.
  { apply sv_pop_uids; assumption. }
  cbn [map app] in E2. rewrite E2. cbn [obind fst snd].
  destruct (add_neuron_type_ok (neuron_type_id Blifat) c2 Hc2) as (r & -> & _). cbn [obind].
  pose proof (sv_some_pop _ H). pose proof (sv_some_proj _ H).
  destruct (n_pops net) eqn:P; [congruence|]. destruct (n_projs net) eqn:J; [congruence|].
  cbn [config_list obind]. exists (Some r), c. reflexivity.
Qed.

(** ** Loading what was saved *)
Definition restored_pop (p : population) : population :=
  mkPop (p_uid p) (p_kind p) (map (restored (p_kind p)) (p_neurons p)).
Lemma kind_of_id k : neuron_kind_of (neuron_type_id k) = Some k.
Proof. destruct k; reflexivity. Qed.
Lemma load_pops_ok l : Forall pop_ok l -> forall acc,
  ofold (fun acc p =>
    match g_types (snd p) with
    | [] => UB
    | t :: _ => match neuron_kind_of t with
                | Some k => obind (load_population k (fst p) (snd p)) (fun x => Ret (acc ++ [x]))
                | None => Ret acc
                end
    end) (map node_entry l) acc = Ret (acc ++ map restored_pop l).
Proof.
  induction 1 as [|p l (Hu & Hn & _) _ IH]; intros acc; [cbn; now rewrite app_nil_r|].
  cbn [map ofold]. unfold node_entry at 1 2 3. cbn [fst snd]. unfold node_group_of at 1. cbn [g_types].
  destruct (p_neurons p) eqn:E; [congruence|]. cbn [length repeat]. rewrite kind_of_id.
  rewrite load_saved_population by exact Hu. cbn [obind]. rewrite IH. rewrite <- app_assoc. reflexivity.
Qed.
Lemma synapse_tables k : k <> AdditiveSyn ->
  NoDup (names (default_synapse k)) /\ NoDup (map fst (match k with ResourceSyn => resource_syn_loaded | _ => delta_loaded end)) /\
  forallb (fun f => match find (fun p => String.eqb f (fst p)) (match k with ResourceSyn => resource_syn_loaded | _ => delta_loaded end) with
                    | Some p => match lookup_saved (saved_names k) (snd p) with Some g => String.eqb f g | None => false end
                    | None => false end) (names (default_synapse k)) = true /\
  lookup_saved (saved_names k) "syn_weight"%string <> None.
Proof.
  intros H. destruct k; try congruence; (split; [apply nodupb_ok; vm_compute; reflexivity|]);
  (split; [apply nodupb_ok; vm_compute; reflexivity|]); (split; [vm_compute; reflexivity|vm_compute; discriminate]).
Qed.
Lemma load_projs_ok l : Forall proj_ok l -> forall acc,
  ofold (fun acc p =>
    match e_types (snd p) with
    | [] => UB
    | t :: _ =>
        if (t =? 100)%Z then obind (load_projection DeltaSyn delta_loaded (fst p) (snd p)) (fun x => Ret (acc ++ [x]))
        else if (t =? 102)%Z then
          obind (load_projection ResourceSyn resource_syn_loaded (fst p) (snd p)) (fun x => Ret (acc ++ [x]))
        else Ret acc
    end) (map edge_entry l) acc = Ret (acc ++ l).
Proof.
  induction 1 as [|j l (Hu & Ha & Hb & Hk & Hn & Hs) _ IH]; intros acc; [cbn; now rewrite app_nil_r|].
  cbn [map ofold]. unfold edge_entry at 1 2 3 4 5. cbn [fst snd]. unfold edge_group_of at 1. cbn [e_types].
  destruct (j_synapses j) eqn:E; [congruence|]. rewrite <- E in *. cbn [length].
  replace (length (j_synapses j)) with (S (length l0)) by (rewrite E; reflexivity). cbn [repeat].
  destruct (synapse_tables _ Hk) as (T1 & T2 & T3 & T4).
  destruct (j_kind j) eqn:K; [| congruence |]; cbn [synapse_type_id Z.eqb Pos.eqb];
  (rewrite load_saved_edges; [cbn [obind]; rewrite IH, <- app_assoc; reflexivity | assumption ..
    | apply Forall_forall; intros s Q; rewrite Forall_forall in Hs; apply restored_synapse_same; auto]).
Qed.

Lemma load_ok fresh net cn cs : saveable net -> exists ps js,
  Permutation ps (n_pops net) /\ StronglySorted N.lt (map p_uid ps) /\
  Permutation js (n_projs net) /\ StronglySorted N.lt (map j_uid js) /\
  load_network fresh (mkDisk (map node_entry (n_pops net)) (Some (show_uid (n_uid net)))
                             (map edge_entry (n_projs net)) cn cs)
  = Ret (mkNet (n_uid net) (map restored_pop ps) js).
Proof.
  intros H.
  destruct (objects_sorted p_uid node_group_of (n_pops net)) as (ps & E1 & P1 & S1).
  { eapply Forall_impl; [|exact (sv_pops _ H)]. intros p (Q & _). exact Q. }
  { apply sv_pop_uids; assumption. }
  destruct (objects_sorted j_uid (fun j => edge_group_of (saved_names (j_kind j)) j) (n_projs net)) as (js & E2 & P2 & S2).
  { eapply Forall_impl; [|exact (sv_projs _ H)]. intros p (Q & _). exact Q. }
  { apply sv_proj_uids; assumption. }
  exists ps, js. repeat (split; [assumption|]).
  unfold load_network, network_uid. cbn [d_net_uid d_nodes d_edges]. rewrite show_parse by (apply sv_uid; assumption).
  cbn [obind]. unfold load_populations, load_projections.
  fold node_entry in E1. fold edge_entry in E2.
  change (fun a : population => (show_uid (p_uid a), node_group_of a)) with node_entry in E1.
  change (fun a : projection => (show_uid (j_uid a), edge_group_of (saved_names (j_kind a)) a)) with edge_entry in E2.
  rewrite E1, E2.
  rewrite load_pops_ok by (eapply Permutation_Forall; [symmetry; exact P1|apply sv_pops; assumption]). cbn [obind app].
  rewrite load_projs_ok by (eapply Permutation_Forall; [symmetry; exact P2|apply sv_projs; assumption]). reflexivity.
Qed.

Lemma restored_pop_same p : pop_ok p -> same_population p (restored_pop p).
Proof.
  intros (_ & _ & H). unfold same_population, restored_pop. cbn [p_uid p_kind p_neurons]. repeat (split; [reflexivity|]).
  induction H; constructor; [now apply restored_kept|assumption].
Qed.

Lemma round_trip d net : saveable net -> tables_ok d ->
  exists d' net', save_network d net = Ret d' /\ (forall fresh, load_network fresh d' = Ret net') /\ loaded_as net net'.
Proof.
  intros H T. destruct (save_ok d net H T) as (cn & cs & E).
  destruct (load_ok 0%N net cn cs H) as (ps & js & P1 & S1 & P2 & S2 & L).
  exists (mkDisk (map node_entry (n_pops net)) (Some (show_uid (n_uid net))) (map edge_entry (n_projs net)) cn cs),
         (mkNet (n_uid net) (map restored_pop ps) js).
  split; [exact E|]. split.
  - intros fresh. rewrite <- L. reflexivity.
  - split; cbn [n_uid n_pops n_projs]; [reflexivity| | |exact P2|exact S2].
    + exists ps. split; [exact P1|].
      assert (Forall pop_ok ps) as Q by (eapply Permutation_Forall; [symmetry; exact P1|apply sv_pops; assumption]).
      clear -Q. induction Q; constructor; [now apply restored_pop_same|assumption].
    + rewrite map_map. exact S1.
Qed.
