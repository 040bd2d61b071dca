(** Data files of other origin. *)
From Coq Require Import String.
From Verif Require Import Base ListLemmas Messaging_Model Storage_Model Storage_Spec Storage_Proofs.
Open Scope list_scope.

Lemma has_obj name l v : has name (JObj l) v <-> member name l = Some v.
Proof. split; [intros (l' & [= <-] & H); exact H|intros H; exists l; auto]. Qed.
Lemma get_int32 v z : get_int v = Ret z <-> int32 v z.
Proof.
  unfold int32. split.
  - destruct v; cbn [get_int]; try discriminate. destruct (_ && _) eqn:E; [|discriminate]. intros [= <-]. apply andb_true_iff in E as [E1 E2].
    split; [reflexivity|]. apply Z.leb_le in E1. apply Z.ltb_lt in E2. lia.
  - intros [-> H]. cbn [get_int]. rewrite (proj2 (andb_true_iff _ _)); [reflexivity|]. split; [apply Z.leb_le|apply Z.ltb_lt]; lia.
Qed.
Lemma get_all_ok {A} (get : json -> outcome A) l : Forall (fun v => exists x, get v = Ret x) l ->
  exists xs, get_all get l = Ret xs /\ Forall2 (fun v x => get v = Ret x) l xs.
Proof.
  induction 1 as [|v l (x & Hx) _ (xs & E & F)]; cbn [get_all]; [exists []; auto|]. rewrite Hx. cbn [obind]. rewrite E. cbn [obind].
  exists (x :: xs). auto.
Qed.
Lemma typed_attr_cases g : attribute_typed g -> exists l, g = JObj l /\
  (member "name" l = None \/ exists s, member "name" l = Some (JStr s) /\
    (s = "magic"%string -> forall v, member "value" l = Some v -> exists z, int32 v z) /\
    (s = "version"%string -> forall vs, member "value" l = Some (JArr vs) -> Forall (fun v => exists z, int32 v z) vs)).
Proof.
  intros [(l & ->) H]. exists l. split; [reflexivity|]. destruct (member "name" l) as [n|] eqn:E; [|now left]. right.
  destruct (H n) as (s & -> & H1 & H2); [now apply has_obj|]. exists s. split; [reflexivity|]. split.
  - intros Hs v Hv. apply (H1 Hs). now apply has_obj.
  - intros Hs vs Hv. apply (H2 Hs). now apply has_obj.
Qed.
(** What the search for the magic number finds. *)
Definition magic_in (gs : list json) : Prop :=
  exists before g after, gs = before ++ g :: after /\ Forall (fun b => ~ has "name" b (JStr "magic")) before /\
    has "name" g (JStr "magic") /\ forall v, has "value" g v -> v = JInt 2682.
Lemma scan_magic_spec gs : Forall attribute_typed gs -> exists b, scan_magic gs = Ret b /\ (b = true <-> magic_in gs).
Proof.
  induction 1 as [|g gs Hg Hgs (b & E & IH)].
  - exists false. split; [reflexivity|]. split; [discriminate|]. intros (before & g & after & E & _). destruct before; discriminate.
  - apply typed_attr_cases in Hg as (l & -> & Hn). cbn [scan_magic find_member obind].
    assert (Skip : ~ has "name" (JObj l) (JStr "magic") -> (b = true <-> magic_in (JObj l :: gs))).
    { intros Hno. rewrite IH. split.
      - intros (before & g & after & -> & F & R). exists (JObj l :: before), g, after. split; [reflexivity|]. split; [constructor; assumption|exact R].
      - intros (before & g & after & E' & F & H1 & H2). destruct before as [|x before]; cbn [app] in E'; injection E' as <- E'; [contradiction|].
        subst gs. inversion F; subst. exists before, g, after. auto. }
    destruct Hn as [Hn|(s & Hn & H1 & _)]; rewrite Hn.
    + cbn [obind]. rewrite E. exists b. split; [reflexivity|]. apply Skip. rewrite has_obj. congruence.
    + cbn [obind get_string]. destruct (String.eqb_spec s "magic") as [->|Hs].
      * cbn [find_member obind]. destruct (member "value" l) as [v|] eqn:Ev.
        -- destruct (H1 eq_refl v eq_refl) as (z & Hz). rewrite (proj2 (get_int32 v z) Hz). cbn [obind]. exists (Z.eqb z magic_number). split; [reflexivity|].
           rewrite Z.eqb_eq. destruct Hz as [-> _]. split.
           ++ intros ->. exists [], (JObj l), gs. split; [reflexivity|]. split; [constructor|]. split; [now apply has_obj|]. intros v. rewrite has_obj, Ev. intros [= <-]. reflexivity.
           ++ intros (before & g & after & E' & F & M1 & M2). destruct before as [|x before]; cbn [app] in E'; injection E' as <- E'.
              ** specialize (M2 (JInt z)). rewrite has_obj in M2. specialize (M2 Ev). injection M2 as ->. reflexivity.
              ** inversion F as [|? ? F1 _]; subst. exfalso. apply F1. now apply has_obj.
        -- exists true. split; [reflexivity|]. split; [intros _|reflexivity]. exists [], (JObj l), gs. split; [reflexivity|]. split; [constructor|].
           split; [now apply has_obj|]. intros v. rewrite has_obj, Ev. discriminate.
      * rewrite E. exists b. split; [reflexivity|]. apply Skip. rewrite has_obj, Hn. intros [= ->]. congruence.
Qed.
Lemma scan_version_ok gs : Forall attribute_typed gs -> exists b, scan_version gs = Ret b.
Proof.
  induction 1 as [|g gs Hg Hgs (b & E)]; [exists false; reflexivity|].
  apply typed_attr_cases in Hg as (l & -> & Hn). cbn [scan_version find_member obind].
  destruct Hn as [Hn|(s & Hn & _ & H2)]; rewrite Hn; cbn [obind get_string]; [exists b; exact E|].
  destruct (String.eqb_spec s "version") as [->|Hs]; [|exists b; exact E].
  cbn [find_member obind]. destruct (member "value" l) as [v|] eqn:Ev; [|exists false; reflexivity].
  destruct v; try (exists false; reflexivity). destruct (Nat.eqb _ _); [|exists false; reflexivity].
  specialize (H2 eq_refl _ eq_refl). destruct (get_all_ok get_int l0) as (zs & Ez & _).
  - eapply Forall_impl; [|exact H2]. intros v (z & Hz). exists z. now apply get_int32.
  - rewrite Ez. cbn [obind]. eexists. reflexivity.
Qed.
Lemma read_values_spec {A} (get : json -> outcome A) name s :
  (forall l, has name (JObj s) (JObj l) -> forall vs, has "value" (JObj l) (JArr vs) -> Forall (fun v => exists x, get v = Ret x) vs) ->
  (exists n vs xs, has name (JObj s) n /\ has "value" n (JArr vs) /\ read_values get name (JObj s) = Ret xs /\ Forall2 (fun v x => get v = Ret x) vs xs) \/
  (~ (exists n vs, has name (JObj s) n /\ has "value" n (JArr vs)) /\ read_values get name (JObj s) = Throw).
Proof.
  intros H. unfold read_values. cbn [find_member obind]. destruct (member name s) as [o|] eqn:Eo.
  - assert (Ho : has name (JObj s) o) by now apply has_obj.
    assert (X : forall n, has name (JObj s) n -> n = o) by (intros n; rewrite has_obj; congruence).
    destruct o; try (right; split; [|reflexivity]; intros (n & vs & Hn & Hv); rewrite (X n Hn) in Hv; destruct Hv as (q & Hq & _); discriminate).
    destruct (member "value" l) as [v|] eqn:Ev.
    + assert (Y : forall vs, has "value" (JObj l) (JArr vs) -> JArr vs = v) by (intros vs; rewrite has_obj; congruence).
      destruct v; try (right; split; [|reflexivity]; intros (n & vs & Hn & Hv); rewrite (X n Hn) in Hv; specialize (Y _ Hv); discriminate).
      left. rewrite <- has_obj in Ev. destruct (get_all_ok get l0 (H l Ho l0 Ev)) as (xs & E & F). exists (JObj l), l0, xs. auto.
    + right. split; [|reflexivity]. intros (n & vs & Hn & Hv). rewrite (X n Hn), has_obj in Hv. congruence.
  - right. split; [|reflexivity]. intros (n & vs & Hn & Hv). rewrite has_obj in Hn. congruence.
Qed.
Lemma load_json_spec order doc u strict : json_typed doc ->
  (((strict = true -> json_magic_or_none doc) /\ (exists nodes times, json_data doc nodes times)) /\ exists r, load_json order (Some doc) u strict = Ret r) \/
  (~ ((strict = true -> json_magic_or_none doc) /\ exists nodes times, json_data doc nodes times) /\ load_json order (Some doc) u strict = Throw).
Proof.
  intros ((l & ->) & Ha & Hs). unfold load_json, has_magic, correct_version. cbn [find_member obind].
  assert (M : exists m, match member "attributes" l with None => Ret false | Some v => obind (get_array v) scan_magic end = Ret m /\ (m = true <-> json_magic_or_none (JObj l))).
  { destruct (member "attributes" l) as [a|] eqn:E.
    - destruct (Ha a) as (gs & -> & F); [now apply has_obj|]. cbn [get_array obind]. destruct (scan_magic_spec gs F) as (b & Eb & Hb). exists b. split; [exact Eb|].
      rewrite Hb. unfold magic_in, json_magic_or_none. split.
      + intros (b0 & g & a0 & -> & R). exists b0, g, a0. split; [now apply has_obj|exact R].
      + intros (b0 & g & a0 & H & R). apply has_obj in H. rewrite E in H. injection H as ->. exists b0, g, a0. split; [reflexivity|exact R].
    - exists false. split; [reflexivity|]. split; [discriminate|]. intros (b0 & g & a0 & H & _). apply has_obj in H. congruence. }
  destruct M as (m & Em & Hm). rewrite Em. cbn [obind].
  assert (V : exists b, match member "attributes" l with None => Ret false | Some v => obind (get_array v) scan_version end = Ret b).
  { destruct (member "attributes" l) as [a|] eqn:E; [|exists false; reflexivity].
    destruct (Ha a) as (gs & -> & F); [now apply has_obj|]. cbn [get_array obind]. now apply scan_version_ok. }
  destruct V as (vb & Ev). rewrite Ev. cbn [obind].
  destruct (negb m && strict) eqn:Es.
  { apply andb_true_iff in Es as [E1 ->]. apply negb_true_iff in E1. subst m. right. split; [|reflexivity].
    intros [H _]. apply Hm in H; [discriminate|reflexivity]. }
  assert (Hst : strict = true -> json_magic_or_none (JObj l)).
  { intros ->. apply Hm. destruct m; [reflexivity|discriminate]. }
  destruct (member "spikes" l) as [sp|] eqn:Esp.
  2:{ right; split; [|reflexivity]. intros [_ (nodes & times & s & n & t & H & _)]. apply has_obj in H. congruence. }
  assert (Hsp : forall s, has "spikes" (JObj l) s -> s = sp) by (intros s; rewrite has_obj; congruence).
  destruct sp as [| | | | | |s]; try (right; split; [|reflexivity]; intros [_ (nodes & times & s' & n & t & H & H' & _)]; rewrite (Hsp _ H) in H'; destruct H' as (q & Hq & _); discriminate).
  destruct (Hs (JObj s)) as [Hn Ht]; [now apply has_obj|].
  destruct (read_values_spec get_int "node_ids" s) as [(n & vs & zs & N1 & N2 & N3 & N4)|[N1 N2]].
  { intros l' H1 vs H2. eapply Forall_impl; [|exact (Hn _ _ H1 H2)]. intros v (z & Hz). exists z. now apply get_int32. }
  2:{ rewrite N2. right; split; [|reflexivity]. intros [_ (nodes & times & s' & n & t & H & H' & H'' & _)]. exfalso. rewrite (Hsp _ H) in H'. apply N1. eauto. }
  rewrite N3. cbn [obind].
  set (gt := fun v => obind (get_double v) (fun d => Ret (f_of_d d))).
  destruct (read_values_spec gt "timestamps" s) as [(t & ts & xs & T1 & T2 & T3 & T4)|[T1 T2]].
  { intros l' H1 ts H2. eapply Forall_impl; [|exact (Ht _ _ H1 H2)]. intros v (d & t & [-> |(z & -> & ->)] & _); unfold gt; cbn [get_double obind]; eauto. }
  2:{ rewrite T2. right; split; [|reflexivity]. intros [_ (nodes & times & s' & n' & t & H & _ & _ & H' & H'' & _)]. exfalso. rewrite (Hsp _ H) in H'. apply T1. eauto. }
  rewrite T3. cbn [obind].
  assert (L1 : length zs = length vs) by (clear -N4; induction N4; cbn; congruence).
  assert (L2 : length xs = length ts) by (clear -T4; induction T4; cbn; congruence).
  assert (D : (exists nodes times, json_data (JObj l) nodes times) <-> length zs = length xs).
  { rewrite L1, L2. split.
    - intros (nodes & times & s' & n' & t' & H & Q1 & Q2 & Q3 & Q4 & Q5). rewrite (Hsp _ H) in Q1, Q3.
      assert (n' = n) by (apply has_obj in Q1, N1; congruence). assert (t' = t) by (apply has_obj in Q3, T1; congruence). subst n' t'.
      destruct Q2 as (q & -> & Q2), Q4 as (q' & -> & Q4). apply has_obj in N2, T2. congruence.
    - intros E. exists vs, ts, (JObj s), n, t. split; [now apply has_obj|]. auto. }
  rewrite D. destruct (Nat.eq_dec (length zs) (length xs)) as [El|Hne].
  - left. split; [auto|].
    assert (St : exists steps, Forall2 (fun x st => to_step x (f_of_Z 1) = Ret st) xs steps).
    { specialize (Ht _ _ T1 T2). clear -T4 Ht. induction T4 as [|v x ts xs Hv _ IH]; [exists []; constructor|].
      inversion Ht as [|? ? (d & t & Hd & Es) Ht']; subst. destruct (IH Ht') as (steps & F). exists (t :: steps). constructor; [|exact F].
      destruct Hd as [-> |(z & -> & ->)]; unfold gt in Hv; cbn [get_double obind] in Hv; injection Hv as <-; exact Es. }
    destruct St as (steps & F).
    unfold convert. rewrite (proj2 (Nat.eqb_eq _ _) El), (fill_spec _ _ _ _ [] F El). cbn [obind]. eexists. reflexivity.
  - right. split; [tauto|]. unfold convert. now destruct (Nat.eqb_spec (length zs) (length xs)).
Qed.
