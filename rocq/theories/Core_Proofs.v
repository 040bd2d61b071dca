From Coq Require Import ZifyBool ZifyNat ZifyN Sorted.
From Verif Require Import Base ListLemmas Projection_Model Projection_Spec Projection_Proofs Core_Model Core_Spec.

(** ** populations *)
Lemma add_neurons_eq {A} (g : nat -> option A) : forall n i l,
  add_neurons g i n l = l ++ flat_map (fun k => match g k with Some x => [x] | None => [] end) (seq i n).
Proof.
  induction n as [|n IH]; intros i l; cbn [add_neurons seq flat_map]; [now rewrite app_nil_r|].
  rewrite IH. destruct (g i); cbn [app]; [now rewrite <- app_assoc|reflexivity].
Qed.
Lemma remove_neurons_by_index {A} : forall idx sh (l : list A),
  remove_neurons_from idx sh l = remove_by_index l idx sh.
Proof.
  induction idx as [|i idx IH]; intros sh l; cbn [remove_neurons_from remove_by_index]; [reflexivity|].
  destruct (Nat.ltb i sh); [reflexivity|]. unfold remove_neuron.
  destruct (erase_at (i - sh) l); cbn [obind]; [apply IH|reflexivity].
Qed.
Lemma ascending_sorted : forall idx low size, ascending low idx size ->
  StronglySorted lt idx /\ Forall (fun r => low <= r < size) idx.
Proof.
  induction idx as [|i idx IH]; cbn; intros low size H; [split; constructor|].
  destruct H as [Hi H]. destruct (IH _ _ H) as [Hs Hf]. split.
  - constructor; [assumption|]. eapply Forall_impl; [|exact Hf]. cbn; intros; lia.
  - constructor; [lia|]. eapply Forall_impl; [|exact Hf]. cbn; intros; lia.
Qed.
Lemma keep_without {A} (idx : list nat) : forall (l : list A) i,
  keep i idx l = map snd (filter (fun p => negb (existsb (Nat.eqb (fst p)) idx)) (combine (seq i (length l)) l)).
Proof.
  induction l as [|x l IH]; intros i; cbn [keep length seq combine filter map fst]; [reflexivity|].
  rewrite IH. destruct (existsb (Nat.eqb i) idx); reflexivity.
Qed.
Lemma remove_neurons_ascending {A} idx (l : list A) :
  ascending 0 idx (length l) -> remove_neurons idx l = Ret (without idx l).
Proof.
  intros H. destruct (ascending_sorted _ _ _ H) as [Hs Hf].
  unfold remove_neurons. rewrite remove_neurons_by_index.
  pose proof (remove_by_index_eq idx [] l 0 Hs) as E. cbn [app length] in E. change (0 + 0) with 0 in E.
  rewrite E by exact Hf. unfold without. now rewrite keep_without.
Qed.

(** ** tags *)
Lemma tag_find_put n v : forall t m,
  tag_find m (tag_put n v t) = if N.eqb m n then Some v else tag_find m t.
Proof.
  induction t as [|[k w] t IH]; intros m; cbn [tag_put tag_find].
  - rewrite (N.eqb_sym n m). destruct (N.eqb m n); reflexivity.
  - destruct (N.eqb_spec k n) as [->|Hne]; cbn [tag_find].
    + rewrite (N.eqb_sym n m). destruct (N.eqb m n); reflexivity.
    + rewrite IH. destruct (N.eqb_spec k m) as [->|]; [|reflexivity].
      destruct (N.eqb_spec m n); [congruence|reflexivity].
Qed.
Lemma tag_find_writes n v ws : Forall (fun w : N * (nat * N) => fst w <> n) ws -> forall u,
  tag_find n u = v ->
  tag_find n (fold_left (fun t w => set_tag (fst w) (fst (snd w)) (snd (snd w)) t) ws u) = v.
Proof.
  induction 1 as [|w ws Hw Hws IH]; intros u Hu; cbn [fold_left]; [exact Hu|].
  apply IH. unfold set_tag. rewrite tag_find_put. destruct (N.eqb_spec n (fst w)); [congruence|exact Hu].
Qed.
Lemma get_tag_after_writes n ty x t ws :
  Forall (fun w => fst w <> n) ws ->
  let t' := fold_left (fun t w => set_tag (fst w) (fst (snd w)) (snd (snd w)) t) ws (set_tag n ty x t) in
  get_tag ty n t' = (t', Some x) /\ get_tag_const ty n t' = Some x.
Proof.
  intros H t'.
  assert (Hf : tag_find n t' = Some (Some (ty, x))).
  { apply tag_find_writes; [exact H|]. unfold set_tag. now rewrite tag_find_put, N.eqb_refl. }
  unfold get_tag, get_tag_const, tag_ref. rewrite !Hf. cbn [any_cast].
  now rewrite Nat.eqb_refl.
Qed.
Lemma get_tag_existing ty n t : tag_exists n t = true -> fst (get_tag ty n t) = t.
Proof. unfold tag_exists, get_tag, tag_ref. destruct (tag_find n t); [reflexivity|discriminate]. Qed.

(** ** the loop *)
Lemma loop_spec hp ho e : forall fuel i b tr b' en,
  b_started b = true ->
  loop hp ho e i fuel b = (tr, b', en) ->
  loop_trace hp ho (b_step b) tr (b_step b') en /\ b_init b' = b_init b /\
  (en = Threw -> b_started b' = false) /\
  (en <> Threw -> b_started b' = negb (stop_requested tr)).
Proof.
  induction fuel as [|fuel IH]; intros i b tr b' en Hs H; cbn [loop] in H.
  - injection H as <- <- <-. repeat split; try discriminate; [constructor|]. intros _. exact Hs.
  - rewrite Hs in H. cbn [negb] in H.
    set (pa := pre_act e i) in *. set (sa := step_act e i) in *. set (oa := post_act e i) in *.
    destruct (hp && a_throw pa) eqn:E1.
    { apply andb_true_iff in E1 as [-> E1]. injection H as <- <- <-. cbn.
      repeat split; try discriminate; try congruence. constructor; auto. }
    destruct (hp && negb (a_result pa)) eqn:E2.
    { apply andb_true_iff in E2 as [-> E2]. apply negb_true_iff in E2. cbn in E1.
      injection H as <- <- <-. cbn. repeat split; try discriminate; [constructor; auto|].
      intros _. unfold after. destruct (a_stop pa); reflexivity. }
    assert (Hpre : hp = true -> a_result pa = true /\ a_throw pa = false).
    { intros ->. cbn in E1, E2. apply negb_false_iff in E2. auto. }
    destruct (a_throw sa) eqn:E3.
    { injection H as <- <- <-. cbn [b_step b_init b_started].
      repeat split; try discriminate; try congruence. apply LT_step_throw; auto. }
    destruct (ho && a_throw oa) eqn:E4.
    { apply andb_true_iff in E4 as [-> E4]. injection H as <- <- <-. cbn [b_step b_init b_started].
      repeat split; try discriminate; try congruence.
      apply (LT_post_throw hp true _ pa sa oa); auto. }
    destruct (ho && negb (a_result oa)) eqn:E5.
    { apply andb_true_iff in E5 as [-> E5]. apply negb_true_iff in E5. cbn in E4.
      injection H as <- <- <-. cbn [b_step b_init b_started].
      repeat split; try discriminate; [apply (LT_post_false hp true _ pa sa oa); auto|].
      intros _. unfold stop_requested, after. destruct hp; cbn;
        destruct (a_stop pa), (a_stop sa), (a_stop oa); reflexivity. }
    assert (Hpost : ho = true -> a_result oa = true /\ a_throw oa = false).
    { intros ->. cbn in E4, E5. apply negb_false_iff in E5. auto. }
    destruct (loop hp ho e (S i) fuel _) as [[t b2] en2] eqn:E6. injection H as <- <- <-.
    set (st3 := if ho then after oa (after sa (if hp then after pa true else true))
                else after sa (if hp then after pa true else true)) in *.
    set (evs := (if hp then [EPre (b_step b) pa] else []) ++ [EStep (b_step b) sa] ++
                (if ho then [EPost (add64 (b_step b) 1) oa] else [])).
    assert (Est : st3 = negb (stop_requested evs)).
    { subst st3 evs. unfold stop_requested, after. destruct hp, ho; cbn;
        destruct (a_stop pa), (a_stop sa), (a_stop oa); reflexivity. }
    destruct st3 eqn:E7.
    + destruct (IH (S i) (mkB (b_init b) true (add64 (b_step b) 1)) t b2 en2 eq_refl E6) as (HT & Hi & H1 & H2).
      cbn [b_step b_init] in *. split; [|split; [exact Hi|split; [exact H1|]]].
      * change (loop_trace hp ho (b_step b) (iteration hp ho (b_step b) pa sa oa ++ t) (b_step b2) en2).
        symmetry in Est. apply negb_true_iff in Est. unfold stop_requested in Est. subst evs.
        rewrite !existsb_app in Est. apply orb_false_iff in Est as [Ea Est]. apply orb_false_iff in Est as [Eb Ec].
        cbn in Eb. rewrite orb_false_r in Eb.
        apply LT_more; auto.
        -- intros Hh. destruct (Hpre Hh). subst hp. cbn in Ea. rewrite orb_false_r in Ea. repeat split; auto.
        -- split; auto.
        -- intros Hh. destruct (Hpost Hh). subst ho. cbn in Ec. rewrite orb_false_r in Ec. repeat split; auto.
      * intros Hne. rewrite (H2 Hne).
        assert (Hns : stop_requested evs = false) by (destruct (stop_requested evs); [discriminate|reflexivity]).
        change (negb (stop_requested t) = negb (stop_requested (evs ++ t))).
        unfold stop_requested in *. rewrite existsb_app, Hns. reflexivity.
    + assert (Hb : t = [] /\ b2 = mkB (b_init b) false (add64 (b_step b) 1) /\ (en2 = Returned \/ en2 = Running)).
      { destruct fuel; cbn in E6; injection E6 as <- <- <-; auto. }
      destruct Hb as (-> & -> & Hen). cbn [b_step b_init b_started]. rewrite app_nil_r.
      assert (Hstop : stop_requested evs = true) by (destruct (stop_requested evs); [reflexivity|discriminate]).
      split; [|split; [reflexivity|split]].
      * apply (LT_stopped hp ho _ pa sa oa); auto.
        unfold stop_requested in Hstop. subst evs. rewrite !existsb_app in Hstop.
        apply orb_true_iff in Hstop as [Ha|Hstop].
        -- left. destruct hp; [|discriminate]. cbn in Ha. rewrite orb_false_r in Ha. auto.
        -- apply orb_true_iff in Hstop as [Ha|Ha].
           ++ right; left. cbn in Ha. now rewrite orb_false_r in Ha.
           ++ right; right. destruct ho; [|discriminate]. cbn in Ha. rewrite orb_false_r in Ha. auto.
      * intros ->. destruct Hen; discriminate.
      * intros _. change (false = negb (stop_requested evs)). now rewrite Hstop.
Qed.

Lemma loop_off hp ho e i fuel b : b_started b = false ->
  loop hp ho e i fuel b = ([], b, if Nat.eqb fuel 0 then Running else Returned).
Proof. intros H. destruct fuel; cbn; [reflexivity|]. now rewrite H. Qed.

Lemma trace_counts hp ho s tr s' en : loop_trace hp ho s tr s' en ->
  s' = match steps_done tr with 0 => s | _ => w64 (s + N.of_nat (steps_done tr)) end /\
  inits tr = 0 /\ (hp = true -> pres_true tr = steps_tried tr).
Proof.
  assert (Hadd : forall a k, w64 (add64 a 1 + k)%N = w64 (a + (1 + k))%N).
  { intros a k. unfold add64, w64. rewrite N.add_mod_idemp_l by discriminate. f_equal. lia. }
  assert (Hone : forall a, add64 a 1 = w64 (a + N.of_nat 1)) by reflexivity.
  induction 1 as [s p st q tr s' en Hp Hst Hq HT IH| | | | | | |].
  - destruct IH as (E & Hi & Hc). unfold iteration, steps_done, inits, pres_true, steps_tried in *.
    destruct Hst as [Hs1 Hs2].
    set (n := length (filter (fun e => match e with EStep _ a => negb (a_throw a) | _ => false end) tr)) in *.
    assert (En : length (filter (fun e => match e with EStep _ a => negb (a_throw a) | _ => false end)
                (((if hp then [EPre s p] else []) ++ [EStep s st] ++ (if ho then [EPost (add64 s 1) q] else [])) ++ tr)) = S n).
    { rewrite !filter_app, !app_length. fold n. destruct hp, ho; cbn; rewrite Hs2; cbn; lia. }
    rewrite En. split; [|split].
    + rewrite E. destruct n as [|n']; [apply Hone|]. rewrite Hadd. f_equal. lia.
    + rewrite !filter_app, !app_length, Hi. destruct hp, ho; reflexivity.
    + intros ->. destruct (Hp eq_refl) as (P1 & P2 & P3). rewrite !filter_app, !app_length, (Hc eq_refl).
      destruct ho; cbn; rewrite P1, P3; cbn; lia.
  - repeat split.
  - split; [reflexivity|]. split; [reflexivity|]. intros _. unfold pres_true. cbn. rewrite H0. reflexivity.
  - split; [reflexivity|]. split; [reflexivity|]. intros _. unfold pres_true. cbn. rewrite H0, andb_false_r. reflexivity.
  - unfold steps_done, inits, pres_true, steps_tried. destruct hp; cbn; rewrite H0; cbn.
    + split; [reflexivity|]. split; [reflexivity|]. intros _. destruct (H eq_refl) as [-> ->]. reflexivity.
    + split; [reflexivity|]. split; [reflexivity|discriminate].
  - unfold steps_done, inits, pres_true, steps_tried, iteration. subst ho. destruct hp; cbn; rewrite H0; cbn.
    + split; [apply Hone|]. split; [reflexivity|]. intros _. destruct (H eq_refl) as [-> ->]. reflexivity.
    + split; [apply Hone|]. split; [reflexivity|discriminate].
  - unfold steps_done, inits, pres_true, steps_tried, iteration. subst ho. destruct hp; cbn; rewrite H0; cbn.
    + split; [apply Hone|]. split; [reflexivity|]. intros _. destruct (H eq_refl) as [-> ->]. reflexivity.
    + split; [apply Hone|]. split; [reflexivity|discriminate].
  - unfold steps_done, inits, pres_true, steps_tried, iteration. destruct hp, ho; cbn; rewrite H0; cbn.
    all: split; [apply Hone|]; split; [reflexivity|]; intros E; try discriminate E; destruct (H eq_refl) as [-> ->]; reflexivity.
Qed.

Lemma start_spec hp ho e fuel b tr b' en :
  start hp ho e fuel b = (tr, b', en) ->
  exists init_tr loop_tr,
    tr = init_tr ++ loop_tr /\
    init_tr = (if b_started b || b_init b then [] else [EInit]) /\
    (b_started b || b_init b = false -> init_throws e = true -> loop_tr = [] /\ en = Threw /\ b' = b) /\
    (b_started b || b_init b = true \/ init_throws e = false ->
       (stop_at_once e = false -> loop_trace hp ho (b_step b) loop_tr (b_step b') en) /\
       (stop_at_once e = true -> loop_tr = []) /\
       (b_init b' = true \/ b_started b = true /\ b_init b' = b_init b) /\
       (en = Threw -> b_started b' = false) /\
       (en <> Threw -> b_started b' = negb (stop_at_once e) && negb (stop_requested loop_tr))).
Proof.
  unfold start, pre_start. intros H.
  assert (K : forall b1, b_started b1 = true -> b_step b1 = b_step b ->
    (b_init b1 = true \/ b_started b = true /\ b_init b1 = b_init b) ->
    forall t, (let b1 := if stop_at_once e then mkB (b_init b1) false (b_step b1) else b1 in
      let '(t, b'0, en0) := loop hp ho e 0 fuel b1 in (t, b'0, en0)) = (t, b', en) ->
      (stop_at_once e = false -> loop_trace hp ho (b_step b) t (b_step b') en) /\
       (stop_at_once e = true -> t = []) /\
       (b_init b' = true \/ b_started b = true /\ b_init b' = b_init b) /\
       (en = Threw -> b_started b' = false) /\
       (en <> Threw -> b_started b' = negb (stop_at_once e) && negb (stop_requested t))).
  { intros b1 Hs Hst Hin t Ht. destruct (stop_at_once e); cbn zeta in Ht.
    - rewrite loop_off in Ht by reflexivity. injection Ht as <- <- <-. cbn.
      repeat split; auto; try discriminate.
    - destruct (loop hp ho e 0 fuel b1) as [[t0 b2] en2] eqn:EL. injection Ht as -> -> ->.
      destruct (loop_spec _ _ _ _ _ _ _ _ _ Hs EL) as (HT & Hi & H1 & H2).
      rewrite Hst in HT. rewrite Hi. repeat split; auto; try discriminate. }
  destruct (b_started b) eqn:Es.
  - cbn [orb].
    destruct (if stop_at_once e then _ else _) as [bi bs bp] eqn:Eb in H.
    exists [], tr. split; [reflexivity|]. split; [reflexivity|]. split; [discriminate|]. intros _.
    apply (K b Es eq_refl); [right; auto|]. cbn zeta. rewrite Eb.
    destruct (loop hp ho e 0 fuel _) as [[t b2] en2]. cbn [app] in H. exact H.
  - destruct (b_init b) eqn:Ei; cbn [orb].
    + exists [], tr. split; [reflexivity|]. split; [reflexivity|]. split; [discriminate|]. intros _.
      apply (K (mkB true true (b_step b)) eq_refl eq_refl); [left; reflexivity|].
      cbn zeta in *. destruct (loop hp ho e 0 fuel _) as [[t b2] en2]. cbn [app] in H. exact H.
    + destruct (init_throws e) eqn:Et.
      * injection H as <- <- <-. exists [EInit], []. split; [reflexivity|]. split; [reflexivity|].
        split; [auto|]. intros [?|?]; discriminate.
      * cbn zeta in H. destruct (loop hp ho e 0 fuel _) as [[t b2] en2] eqn:EL. injection H as <- <- <-.
        exists [EInit], t. split; [reflexivity|]. split; [reflexivity|]. split; [discriminate|]. intros _.
        apply (K (mkB true true (b_step b)) eq_refl eq_refl); [left; reflexivity|].
        cbn zeta. rewrite EL. reflexivity.
Qed.

(** ** devices *)
Lemma select_one avail u : select_devices avail [u] [] = if mem u avail then Ret [u] else Throw.
Proof.
  unfold select_devices. induction avail as [|d t IH]; cbn [select_loop]; [reflexivity|].
  unfold mem in *. cbn [existsb]. rewrite orb_false_r, (N.eqb_sym d u).
  destruct (N.eqb_spec u d) as [->|]; [reflexivity|exact IH].
Qed.
Lemma select_first avail req cur d rest :
  avail = rest ++ [d] ++ skipn (length rest + 1) avail -> mem d req = true ->
  Forall (fun x => mem x req = false) rest ->
  select_devices avail req cur = Ret (cur ++ [d]).
Proof.
  intros -> Hd Hr. unfold select_devices.
  assert (E : forall tl, select_loop (rest ++ [d] ++ tl) req = Some d).
  { intros tl. induction Hr as [|x rest Hx Hr IH]; cbn [app select_loop]; [now rewrite Hd|].
    rewrite Hx. exact IH. }
  now rewrite E.
Qed.

(** ** consecutive starts *)
Lemma starts_spec : forall rs b trs b',
  (b_started b = true -> b_init b = true) -> (b_step b < two64)%N ->
  Forall (fun r => init_throws (r_env r) = false) rs ->
  starts rs b = (trs, b') ->
  (b_step b' = w64 (b_step b + N.of_nat (steps_done (concat trs))) /\ (b_step b' < two64)%N) /\
  (b_init b = true -> inits (concat trs) = 0) /\
  (b_init b = false -> rs <> [] ->
     exists tr, concat trs = EInit :: tr /\ inits tr = 0).
Proof.
  assert (Hinj : forall A (x y : A), x = y -> x = y) by auto.
  induction rs as [|r rs IH]; intros b trs b' Hinv Hlt Hf H; cbn [starts] in H.
  - injection H as <- <-. cbn. rewrite N.add_0_r. unfold w64. rewrite N.mod_small by exact Hlt.
    repeat split; auto. congruence.
  - destruct (start (r_pre r) (r_post r) (r_env r) (r_fuel r) b) as [[t b1] en] eqn:E.
    destruct (starts rs b1) as [ts b2] eqn:E2. injection H as <- <-.
    inversion Hf as [|? ? Hr Hf']; subst.
    destruct (start_spec _ _ _ _ _ _ _ _ E) as (it & lt & Et & Hit & _ & HK).
    destruct (HK (or_intror Hr)) as (K1 & K2 & K3 & _ & _).
    assert (Hin : b_init b1 = true).
    { destruct K3 as [K3|[K3 K4]]; [exact K3|]. rewrite K4. auto. }
    assert (Hit0 : steps_done it = 0) by (rewrite Hit; destruct (b_started b || b_init b); reflexivity).
    assert (Hst : b_step b1 = w64 (b_step b + N.of_nat (steps_done t)) /\ inits lt = 0).
    { subst t. unfold steps_done. rewrite filter_app, app_length. fold (steps_done it) (steps_done lt). rewrite Hit0. cbn [plus].
      destruct (stop_at_once (r_env r)) eqn:Es.
      - rewrite (K2 eq_refl) in *. split; [|reflexivity]. cbn. rewrite N.add_0_r. unfold w64. rewrite N.mod_small by exact Hlt.
        unfold start in E. destruct (pre_start (r_env r) b) as [pe [pb|]] eqn:Ep.
        + rewrite Es in E. cbn zeta in E. rewrite loop_off in E by reflexivity. injection E as _ <- _. cbn.
          unfold pre_start in Ep. destruct (b_started b); [now injection Ep as _ <-|].
          destruct (b_init b); [now injection Ep as _ <-|]. rewrite Hr in Ep. now injection Ep as _ <-.
        + now injection E as _ <- _.
      - destruct (trace_counts _ _ _ _ _ _ (K1 eq_refl)) as (C1 & C2 & _). split; [|exact C2].
        rewrite C1. destruct (steps_done lt); [|reflexivity]. cbn. rewrite N.add_0_r. unfold w64. now rewrite N.mod_small. }
    destruct Hst as [Hst Hil].
    assert (Hlt1 : (b_step b1 < two64)%N) by (rewrite Hst; apply N.mod_lt; discriminate).
    destruct (IH b1 ts b2 (fun _ => Hin) Hlt1 Hf' E2) as ((I1 & I1') & I2 & I3).
    cbn [concat]. split; [split; [|exact I1']|split].
    + rewrite I1, Hst. unfold steps_done. rewrite filter_app, app_length. unfold w64.
      rewrite N.add_mod_idemp_l by discriminate. f_equal. fold (steps_done t) (steps_done (concat ts)). lia.
    + intros Hb. rewrite Hb, orb_true_r in Hit. subst it. cbn [app] in Et. subst t.
      unfold inits in *. rewrite filter_app, app_length, Hil, (I2 Hin). reflexivity.
    + intros Hb _. assert (Hs : b_started b = false) by (destruct (b_started b); [rewrite Hinv in Hb; auto|reflexivity]).
      rewrite Hb, Hs in Hit. cbn in Hit. subst it t. exists (lt ++ concat ts). split; [reflexivity|].
      unfold inits in *. rewrite filter_app, app_length, Hil, (I2 Hin). reflexivity.
Qed.
