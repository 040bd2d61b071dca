(** Training of one population: every neuron on its own. *)
From Verif Require Import Base ListLemmas Messaging_Model Projection_Model Projection_Proofs Delta_Model Neuron_Model Stdp_Model Train_Model.

Definition ends (p : rproj) : list (N * N) := map (fun s => (sy_from s, sy_to s)) (p_syn p).
Definition lends (l : list rsyn) : list (N * N) := map (fun s => (sy_from s, sy_to s)) l.
Fixpoint posns (b : nat) (i : N) (l : list rsyn) : list nat :=
  match l with
  | [] => []
  | s :: t => if N.eqb (sy_to s) i then b :: posns (S b) i t else posns (S b) i t
  end.
Fixpoint crefs (k : nat) (i : N) (ps : list rproj) : list (nat * nat) :=
  match ps with
  | [] => []
  | p :: t => map (fun j => (k, j)) (posns 0 i (p_syn p)) ++ crefs (S k) i t
  end.
Lemma posns_index i : forall l b, map c_index (filter (fun e => N.eqb (conn_key ByPost e) i) (index_from b l)) = posns b i l.
Proof.
  induction l as [|s t IH]; intros b; cbn [index_from filter posns map]; [reflexivity|]. cbn [conn_key c_to].
  destruct (N.eqb (sy_to s) i); cbn [map c_index]; now rewrite IH.
Qed.
Lemma find_posns i (p : rproj) : index_ok p -> find_synapses ByPost i p = (reindex p, posns 0 i (p_syn p)).
Proof.
  intros H. unfold find_synapses. destruct (reindex_spec p H) as (_ & _ & E). now rewrite E, posns_index.
Qed.
Lemma connected_eq i : forall ps k, Forall index_ok ps -> connected_from k i ps = (map reindex ps, crefs k i ps).
Proof.
  induction ps as [|p ps IH]; intros k H; cbn [connected_from map crefs]; [reflexivity|].
  apply Forall_cons_iff in H as [H1 H2]. rewrite (find_posns i p H1), (IH (S k) H2). reflexivity.
Qed.
Lemma reindex_ok (p : rproj) : index_ok p -> index_ok (reindex p).
Proof. intros H _. destruct (reindex_spec p H) as (E1 & _ & E3). now rewrite E1. Qed.
Lemma p_syn_reindex (p : rproj) : p_syn (reindex p) = p_syn p.
Proof. unfold reindex. destruct (p_updated p); reflexivity. Qed.
Lemma map_syn_reindex (ps : list rproj) : map p_syn (map reindex ps) = map p_syn ps.
Proof. rewrite map_map. apply map_ext. apply p_syn_reindex. Qed.

Section Walk.
Variable i : N.
Variable g : tview -> rparams -> tview * rparams.
Fixpoint walk (n : tview) (l : list rsyn) : tview * list rsyn :=
  match l with
  | [] => (n, [])
  | s :: t => if N.eqb (sy_to s) i then
                let (n1, r) := g n (sy_params s) in
                let (n2, t') := walk n1 t in (n2, mkSyn r (sy_from s) (sy_to s) :: t')
              else let (n2, t') := walk n t in (n2, s :: t')
  end.
Fixpoint walks (n : tview) (ls : list (list rsyn)) : tview * list (list rsyn) :=
  match ls with
  | [] => (n, [])
  | l :: t => let (n1, l') := walk n l in let (n2, t') := walks n1 t in (n2, l' :: t')
  end.
End Walk.
Definition upd_syns (ps : list rproj) (ls : list (list rsyn)) : list rproj :=
  map (fun e => mkProj (snd e) (p_index (fst e)) (p_updated (fst e))) (combine ps ls).

Lemma put_app {A} (a : list A) x y t : put (length a) y (a ++ x :: t) = a ++ y :: t.
Proof. induction a as [|z a IH]; cbn [length app put]; [reflexivity|]. now rewrite IH. Qed.
Lemma nth_app_here {A} (a : list A) x t : nth_error (a ++ x :: t) (length a) = Some x.
Proof. induction a; [reflexivity|assumption]. Qed.

Lemma each_one i g rest (dn : list rproj) ix up tl : forall l a n,
  each_ref g (map (fun j => (length dn, j)) (posns (length a) i l) ++ rest) n (dn ++ mkProj (a ++ l) ix up :: tl) =
  each_ref g rest (fst (walk i g n l)) (dn ++ mkProj (a ++ snd (walk i g n l)) ix up :: tl).
Proof.
  induction l as [|s t IH]; intros a n; cbn [posns walk map app fst snd]; [reflexivity|].
  assert (Hlen : forall x : rsyn, length (a ++ [x]) = S (length a)) by (intros; rewrite app_length; cbn; lia).
  assert (Happ : forall (x : rsyn) r, (a ++ [x]) ++ r = a ++ x :: r) by (intros; rewrite <- app_assoc; reflexivity).
  destruct (N.eqb (sy_to s) i) eqn:E.
  - cbn [map app each_ref]. rewrite nth_app_here. cbn [p_syn]. rewrite nth_app_here.
    destruct (g n (sy_params s)) as [n1 r]. rewrite put_app. cbn [p_index p_updated]. rewrite put_app.
    specialize (IH (a ++ [mkSyn r (sy_from s) (sy_to s)]) n1). rewrite Hlen, !Happ in IH. rewrite IH.
    destruct (walk i g n1 t) as [n2 t']. reflexivity.
  - specialize (IH (a ++ [s]) n). rewrite Hlen, !Happ in IH. rewrite IH. destruct (walk i g n t) as [n2 t']. reflexivity.
Qed.
Lemma each_all i g : forall ps dn n,
  each_ref g (crefs (length dn) i ps) n (dn ++ ps) =
  Ret (fst (walks i g n (map p_syn ps)), dn ++ upd_syns ps (snd (walks i g n (map p_syn ps)))).
Proof.
  induction ps as [|p ps IH]; intros dn n; cbn [crefs map walks fst snd]; [reflexivity|].
  pose proof (each_one i g (crefs (S (length dn)) i ps) dn (p_index p) (p_updated p) ps (p_syn p) [] n) as H.
  cbn [app length] in H. replace (mkProj (p_syn p) (p_index p) (p_updated p)) with p in H by (destruct p; reflexivity).
  rewrite H. destruct (walk i g n (p_syn p)) as [n1 l']. cbn [fst snd].
  specialize (IH (dn ++ [mkProj l' (p_index p) (p_updated p)]) n1). rewrite app_length in IH. cbn [length] in IH.
  replace (length dn + 1) with (S (length dn)) in IH by lia. rewrite <- !app_assoc in IH. cbn [app] in IH. rewrite IH.
  destruct (walks i g n1 (map p_syn ps)) as [n2 t']. reflexivity.
Qed.
Lemma each_eq i g ps n :
  each_ref g (crefs 0 i ps) n ps = Ret (fst (walks i g n (map p_syn ps)), upd_syns ps (snd (walks i g n (map p_syn ps)))).
Proof. exact (each_all i g ps [] n). Qed.

(** ** Ends *)
Lemma walk_ends i g : forall l n, lends (snd (walk i g n l)) = lends l.
Proof.
  unfold lends. induction l as [|s t IH]; intros n; cbn [walk snd map]; [reflexivity|]. destruct (N.eqb (sy_to s) i).
  - destruct (g n (sy_params s)) as [n1 r]. specialize (IH n1). destruct (walk i g n1 t) as [n2 t']. cbn [snd map sy_from sy_to] in *. now rewrite IH.
  - specialize (IH n). destruct (walk i g n t) as [n2 t']. cbn [snd map] in *. now rewrite IH.
Qed.
Lemma walks_ends i g : forall ls n, map lends (snd (walks i g n ls)) = map lends ls.
Proof.
  induction ls as [|l t IH]; intros n; cbn [walks snd map]; [reflexivity|].
  pose proof (walk_ends i g l n) as H. destruct (walk i g n l) as [n1 l']. specialize (IH n1).
  destruct (walks i g n1 t) as [n2 t']. cbn [snd map] in *. now rewrite H, IH.
Qed.
Lemma posns_ends i : forall l l' b, lends l = lends l' -> posns b i l = posns b i l'.
Proof.
  unfold lends. induction l as [|s l IH]; intros [|s' l'] b H; cbn [map posns] in *; try discriminate; [reflexivity|].
  injection H as _ H1 H2. rewrite H1, (IH l' (S b) H2). reflexivity.
Qed.
Lemma crefs_ends i : forall ps ps' k, map ends ps = map ends ps' -> crefs k i ps = crefs k i ps'.
Proof.
  induction ps as [|p ps IH]; intros [|p' ps'] k H; cbn [map crefs] in *; try discriminate; [reflexivity|].
  injection H as H1 H2. now rewrite (posns_ends i (p_syn p) (p_syn p') 0 H1), (IH ps' (S k) H2).
Qed.
Lemma upd_syn ps ls : length ls = length ps -> map p_syn (upd_syns ps ls) = ls.
Proof.
  unfold upd_syns. revert ls. induction ps as [|p ps IH]; intros [|l ls] H; cbn [combine map length] in *; try discriminate; [reflexivity|].
  cbn [fst snd p_syn]. f_equal. apply IH. lia.
Qed.
Lemma walks_len i g ls n : length (snd (walks i g n ls)) = length ls.
Proof. rewrite <- (map_length lends), walks_ends, map_length. reflexivity. Qed.
Lemma ends_map ps : map ends ps = map lends (map p_syn ps).
Proof. now rewrite map_map. Qed.
Lemma upd_ok : forall ps ls, Forall index_ok ps -> map lends ls = map ends ps -> Forall index_ok (upd_syns ps ls).
Proof.
  induction ps as [|p ps IH]; intros [|l ls] H E; cbn [map] in *; try discriminate; [constructor|].
  apply Forall_cons_iff in H as [H1 H2]. injection E as E1 E2. unfold upd_syns. cbn [combine map fst snd]. constructor; [|now apply IH].
  intros Hu. cbn [p_updated p_index p_syn] in *. rewrite (H1 Hu). clear -E1. unfold ends, lends in E1. revert E1. generalize (p_syn p) as l0.
  generalize 0. induction l as [|s l IH]; intros b [|s' l0] E; cbn [map index_from] in *; try discriminate; [reflexivity|].
  injection E as Ea Eb Ec. rewrite Ea, Eb, (IH (S b) l0 Ec). reflexivity.
Qed.

(** ** Slices: the synapses of one neuron *)
Definition slice (i : N) (ps : list rproj) : list rparams :=
  map sy_params (filter (fun s => N.eqb (sy_to s) i) (concat (map p_syn ps))).
Fixpoint fm (g : tview -> rparams -> tview * rparams) (n : tview) (l : list rparams) : tview * list rparams :=
  match l with
  | [] => (n, [])
  | s :: t => let (n1, r) := g n s in let (n2, t') := fm g n1 t in (n2, r :: t')
  end.
Definition sl (i : N) (l : list rsyn) : list rparams := map sy_params (filter (fun s => N.eqb (sy_to s) i) l).
Lemma sl_app i a b : sl i (a ++ b) = sl i a ++ sl i b.
Proof. unfold sl. now rewrite filter_app, map_app. Qed.
Lemma walk_sl i g : forall l n, fm g n (sl i l) = (fst (walk i g n l), sl i (snd (walk i g n l))).
Proof.
  unfold sl. induction l as [|s t IH]; intros n; cbn [walk filter map fm fst snd]; [reflexivity|].
  destruct (N.eqb (sy_to s) i) eqn:E; cbn [map fm].
  - destruct (g n (sy_params s)) as [n1 r]. rewrite (IH n1). destruct (walk i g n1 t) as [n2 t']. cbn [fst snd filter sy_to].
    rewrite E. reflexivity.
  - rewrite (IH n). destruct (walk i g n t) as [n2 t']. cbn [fst snd filter]. rewrite E. reflexivity.
Qed.
Lemma walk_other i j g : i <> j -> forall l n, sl j (snd (walk i g n l)) = sl j l.
Proof.
  intros Hne. unfold sl. induction l as [|s t IH]; intros n; cbn [walk filter map snd]; [reflexivity|].
  destruct (N.eqb_spec (sy_to s) i) as [E|E].
  - destruct (g n (sy_params s)) as [n1 r]. specialize (IH n1). destruct (walk i g n1 t) as [n2 t']. cbn [snd filter sy_to] in *.
    destruct (N.eqb_spec (sy_to s) j); [congruence|exact IH].
  - specialize (IH n). destruct (walk i g n t) as [n2 t']. cbn [snd filter] in *. destruct (N.eqb (sy_to s) j); cbn [map]; now rewrite IH.
Qed.
Lemma fm_app g : forall a b n, fm g n (a ++ b) = (fst (fm g (fst (fm g n a)) b), snd (fm g n a) ++ snd (fm g (fst (fm g n a)) b)).
Proof.
  induction a as [|s a IH]; intros b n; cbn [app fm fst snd]; [now destruct (fm g n b)|].
  destruct (g n s) as [n1 r]. rewrite (IH b n1). destruct (fm g n1 a) as [n2 a']. reflexivity.
Qed.
Lemma walks_sl i g : forall ls n, fm g n (sl i (concat ls)) = (fst (walks i g n ls), sl i (concat (snd (walks i g n ls)))).
Proof.
  induction ls as [|l t IH]; intros n; cbn [concat walks fst snd]; [reflexivity|]. rewrite sl_app, fm_app, (walk_sl i g l n). cbn [fst snd].
  destruct (walk i g n l) as [n1 l']. cbn [fst snd]. rewrite (IH n1). destruct (walks i g n1 t) as [n2 t']. cbn [fst snd concat]. now rewrite sl_app.
Qed.
Lemma walks_other i j g : i <> j -> forall ls n, sl j (concat (snd (walks i g n ls))) = sl j (concat ls).
Proof.
  intros Hne. induction ls as [|l t IH]; intros n; cbn [concat walks snd]; [reflexivity|]. pose proof (walk_other i j g Hne l n) as H.
  destruct (walk i g n l) as [n1 l']. specialize (IH n1). destruct (walks i g n1 t) as [n2 t']. cbn [snd concat] in *. now rewrite !sl_app, H, IH.
Qed.
Lemma posns_len i : forall l b, length (posns b i l) = length (sl i l).
Proof.
  unfold sl. induction l as [|s t IH]; intros b; cbn [posns filter map]; [reflexivity|]. destruct (N.eqb (sy_to s) i); cbn [length map]; now rewrite IH.
Qed.
Lemma crefs_len i : forall ps k, length (crefs k i ps) = length (slice i ps).
Proof.
  unfold slice. intros ps k. fold (sl i (concat (map p_syn ps))). revert k. induction ps as [|p ps IH]; intros k; cbn [crefs map concat]; [reflexivity|].
  now rewrite app_length, map_length, posns_len, IH, sl_app, app_length.
Qed.

(** One loop, as seen through the slices. *)
Definition same_but (i : N) (ps ps' : list rproj) : Prop :=
  map ends ps' = map ends ps /\ Forall index_ok ps' /\ forall j, j <> i -> slice j ps' = slice j ps.
Lemma same_refl i ps : Forall index_ok ps -> same_but i ps ps.
Proof. split; [reflexivity|]. auto. Qed.
Lemma same_trans i a b c : same_but i a b -> same_but i b c -> same_but i a c.
Proof. intros (H1 & H2 & H3) (K1 & K2 & K3). split; [congruence|]. split; [exact K2|]. intros j Hj. now rewrite K3, H3. Qed.
Lemma each_slice i g refs ps0 ps n : refs = crefs 0 i ps0 -> map ends ps = map ends ps0 -> Forall index_ok ps ->
  exists n' ps', each_ref g refs n ps = Ret (n', ps') /\ fm g n (slice i ps) = (n', slice i ps') /\ same_but i ps ps'.
Proof.
  intros -> E Hok. rewrite <- (crefs_ends i ps ps0 0 E), (each_eq i g ps n).
  set (ls := map p_syn ps). exists (fst (walks i g n ls)), (upd_syns ps (snd (walks i g n ls))).
  assert (Hl : length (snd (walks i g n ls)) = length ps) by (rewrite walks_len; unfold ls; now rewrite map_length).
  split; [reflexivity|]. split; [|split; [|split]].
  - unfold slice. rewrite upd_syn by exact Hl. exact (walks_sl i g ls n).
  - rewrite !ends_map, upd_syn by exact Hl. apply walks_ends.
  - apply upd_ok; [exact Hok|]. rewrite walks_ends. unfold ls. now rewrite <- ends_map.
  - intros j Hj. unfold slice. rewrite upd_syn by exact Hl. apply (walks_other i j g). congruence.
Qed.
Lemma connected_slice i ps : Forall index_ok ps ->
  exists ps1, connected_refs i ps = (ps1, crefs 0 i ps1) /\ same_but i ps ps1 /\ slice i ps1 = slice i ps.
Proof.
  intros H. exists (map reindex ps). unfold connected_refs. rewrite (connected_eq i ps 0 H).
  assert (E : map ends (map reindex ps) = map ends ps) by (now rewrite !ends_map, map_syn_reindex).
  split; [now rewrite (crefs_ends i _ _ 0 E)|]. split; [|unfold slice; now rewrite map_syn_reindex]. split; [exact E|]. split.
  - apply Forall_map. eapply Forall_impl; [|exact H]. intros p. apply reindex_ok.
  - intros j _. unfold slice. now rewrite map_syn_reindex.
Qed.

(** ** One neuron on its own *)
Section Neuron.
Variable pow2f : flt -> flt.
Definition spiking_n (step : N) (n : tview) (l : list rparams) : tview * list rparams :=
  let n := update_isi_f step (on_x (with_last_spike step) n) in
  let n := if isi_eqb period_started (t_status (v_x n))
           then on_x (fun x => with_stab (f_sub (t_stab x) (t_stab_isi x)) x) n else n in
  let r := fm (mark_f step) (with_add d_zero n) l in
  let n := with_add (d_mul (v_add (fst r)) (d_of_f (t_coef (v_x (fst r))))) (fst r) in
  let r := if negb (isi_eqb (t_status (v_x n)) period_continued) then fm unhebb_f n (snd r) else (n, snd r) in
  let r := if negb (isi_eqb (t_status (v_x (fst r))) is_forced) then fm (hebb_f pow2f) (fst r) (snd r) else r in
  fm recalc_f (fst r) (snd r).
Definition dopamine_n (step : N) (n : tview) (l : list rparams) : tview * list rparams :=
  if f_gt (v_dopa n) d_zero || (f_lt (v_dopa n) d_zero && negb (isi_eqb (t_status (v_x n)) is_forced)) then
    let r := fm (reward_f pow2f step) n l in
    fm recalc_f (stability_change_f step (fst r)) (snd r)
  else (n, l).
Definition renorm_n (step : N) (n : tview) (l : list rparams) : tview * list rparams :=
  let x := v_x n in
  if (sub64 step (t_last x) <=? t_isi_max x)%N && negb (isi_eqb (t_status x) is_forced) then (n, l)
  else if f_lt (SFabs (t_free x)) (t_thr x) then (n, l)
  else
    let d := f_div (t_free x) (f_of_Z (Z.of_N (add64 (N.of_nat (length l)) (t_drain x)))) in
    let r := fm (give_f d) n l in
    fm recalc_f (on_x (with_free (f_of_Z 0)) (fst r)) (snd r).

(** [f] acts on the neuron and its synapses as [F] does, and on nothing else. *)
Definition acts_as (F : tview -> list rparams -> tview * list rparams)
    (f : N -> tview -> list rproj -> outcome (tview * list rproj)) : Prop :=
  forall i n ps, Forall index_ok ps -> exists n' ps',
    f i n ps = Ret (n', ps') /\ F n (slice i ps) = (n', slice i ps') /\ same_but i ps ps'.

Ltac use_each H ps0 Hs :=
  match goal with |- context [each_ref ?g (crefs 0 ?i ps0) ?n ?ps] =>
    destruct (each_slice i g (crefs 0 i ps0) ps0 ps n eq_refl (proj1 Hs) (proj1 (proj2 Hs))) as H
  end.

Lemma spiking_acts step : acts_as (spiking_n step) (spiking_f pow2f step).
Proof.
  intros i n ps Hok. destruct (connected_slice i ps Hok) as (ps1 & Ec & S1 & L1). unfold spiking_f, spiking_n. rewrite Ec. clear Ec.
  cbv zeta. rewrite <- L1.
  match goal with |- context [with_add d_zero ?m] => generalize m as n1 end. intros n1.
  destruct (each_slice i (mark_f step) _ ps1 ps1 (with_add d_zero n1) eq_refl eq_refl (proj1 (proj2 S1))) as (n2 & ps2 & E2 & F2 & S2).
  rewrite E2, F2. cbn [obind fst snd]. pose proof (same_trans _ _ _ _ S1 S2) as S12.
  set (n3 := with_add (d_mul (v_add n2) (d_of_f (t_coef (v_x n2)))) n2).
  assert (H3 : exists n4 ps4, (if negb (isi_eqb (t_status (v_x n3)) period_continued) then each_ref unhebb_f (crefs 0 i ps1) n3 ps2 else Ret (n3, ps2)) = Ret (n4, ps4) /\
     (if negb (isi_eqb (t_status (v_x n3)) period_continued) then fm unhebb_f n3 (slice i ps2) else (n3, slice i ps2)) = (n4, slice i ps4) /\ same_but i ps2 ps4).
  { destruct (negb _).
    - destruct (each_slice i unhebb_f _ ps1 ps2 n3 eq_refl (proj1 S2) (proj1 (proj2 S2))) as (n4 & ps4 & E4 & F4 & S4). eauto 6.
    - exists n3, ps2. split; [reflexivity|]. split; [reflexivity|]. apply same_refl, S2. }
  destruct H3 as (n4 & ps4 & E4 & F4 & S4). rewrite E4, F4. cbn [obind fst snd]. clear E4 F4.
  pose proof (same_trans _ _ _ _ S2 S4) as S24. pose proof (same_trans _ _ _ _ S1 S24) as S14.
  assert (H5 : exists n5 ps5, (if negb (isi_eqb (t_status (v_x n4)) is_forced) then each_ref (hebb_f pow2f) (crefs 0 i ps1) n4 ps4 else Ret (n4, ps4)) = Ret (n5, ps5) /\
     (if negb (isi_eqb (t_status (v_x n4)) is_forced) then fm (hebb_f pow2f) n4 (slice i ps4) else (n4, slice i ps4)) = (n5, slice i ps5) /\ same_but i ps4 ps5).
  { destruct (negb _).
    - destruct (each_slice i (hebb_f pow2f) _ ps1 ps4 n4 eq_refl (proj1 S24) (proj1 (proj2 S24))) as (n5 & ps5 & E5 & F5 & S5). eauto 6.
    - exists n4, ps4. split; [reflexivity|]. split; [reflexivity|]. apply same_refl, S4. }
  destruct H5 as (n5 & ps5 & E5 & F5 & S5). rewrite E5, F5. cbn [obind fst snd]. clear E5 F5.
  pose proof (same_trans _ _ _ _ S24 S5) as S25.
  destruct (each_slice i recalc_f _ ps1 ps5 n5 eq_refl (proj1 S25) (proj1 (proj2 S25))) as (n6 & ps6 & E6 & F6 & S6).
  exists n6, ps6. split; [exact E6|]. split; [exact F6|]. eapply same_trans; [exact S1|]. eapply same_trans; eassumption.
Qed.
Lemma dopamine_acts_f step : acts_as (dopamine_n step) (dopamine_f pow2f step).
Proof.
  intros i n ps Hok. unfold dopamine_f, dopamine_n. destruct (_ || _).
  2:{ exists n, ps. split; [reflexivity|]. split; [reflexivity|]. now apply same_refl. }
  destruct (connected_slice i ps Hok) as (ps1 & Ec & S1 & L1). rewrite Ec. cbv zeta. rewrite <- L1.
  destruct (each_slice i (reward_f pow2f step) _ ps1 ps1 n eq_refl eq_refl (proj1 (proj2 S1))) as (n2 & ps2 & E2 & F2 & S2).
  rewrite E2, F2. cbn [obind fst snd].
  destruct (each_slice i recalc_f _ ps1 ps2 (stability_change_f step n2) eq_refl (proj1 S2) (proj1 (proj2 S2))) as (n6 & ps6 & E6 & F6 & S6).
  exists n6, ps6. split; [exact E6|]. split; [exact F6|]. eapply same_trans; [exact S1|]. eapply same_trans; eassumption.
Qed.
Lemma renorm_acts_f step : acts_as (renorm_n step) (renorm_f step).
Proof.
  intros i n ps Hok. unfold renorm_f, renorm_n. cbv zeta. destruct (_ && _); [|destruct (f_lt _ _)].
  1,2: exists n, ps; split; [reflexivity|]; split; [reflexivity|]; now apply same_refl.
  destruct (connected_slice i ps Hok) as (ps1 & Ec & S1 & L1). rewrite Ec. cbv zeta. rewrite crefs_len, L1.
  set (d := f_div _ _).
  destruct (each_slice i (give_f d) _ ps1 ps1 n eq_refl eq_refl (proj1 (proj2 S1))) as (n2 & ps2 & E2 & F2 & S2).
  rewrite E2. rewrite L1 in F2. rewrite F2. cbn [obind fst snd].
  destruct (each_slice i recalc_f _ ps1 ps2 (on_x (with_free (f_of_Z 0)) n2) eq_refl (proj1 S2) (proj1 (proj2 S2))) as (n6 & ps6 & E6 & F6 & S6).
  exists n6, ps6. split; [exact E6|]. split; [exact F6|]. eapply same_trans; [exact S1|]. eapply same_trans; eassumption.
Qed.

(** ** All neurons *)
Lemma put_len {A} (x : A) : forall l k, length (put k x l) = length l.
Proof. induction l as [|y l IH]; intros [|k]; cbn [put length]; auto. Qed.
Lemma put_nth {A} (x : A) : forall l k j, nth_error (put k x l) j = if Nat.eqb j k then (if Nat.ltb k (length l) then Some x else None) else nth_error l j.
Proof.
  induction l as [|y l IH]; intros [|k] [|j]; cbn [put nth_error length Nat.eqb]; try reflexivity.
  - destruct (Nat.eqb j k); [|reflexivity]. destruct (Nat.ltb_spec (S k) 0); [lia|reflexivity].
  - rewrite IH. destruct (Nat.eqb j k); [|reflexivity]. destruct (Nat.ltb_spec k (length l)), (Nat.ltb_spec (S k) (S (length l))); try lia; reflexivity.
Qed.
Lemma for_acts F f : acts_as F f -> forall idx vs ps, Forall index_ok ps -> NoDup idx -> Forall (fun i => i < length vs) idx ->
  exists vs' ps', for_neurons_f f idx (vs, ps) = Ret (vs', ps') /\ length vs' = length vs /\ map ends ps' = map ends ps /\ Forall index_ok ps' /\
    (forall i n, nth_error vs i = Some n -> exists n', nth_error vs' i = Some n' /\
       (n', slice (N.of_nat i) ps') = if existsb (Nat.eqb i) idx then F n (slice (N.of_nat i) ps) else (n, slice (N.of_nat i) ps)) /\
    (forall j, (N.of_nat (length vs) <= j)%N -> slice j ps' = slice j ps).
Proof.
  intros HF. induction idx as [|i idx IH]; intros vs ps Hok Hnd Hr; cbn [for_neurons_f existsb].
  - exists vs, ps. split; [reflexivity|]. repeat split; auto. intros i n Hn. eauto.
  - apply NoDup_cons_iff in Hnd as [Hni Hnd]. apply Forall_cons_iff in Hr as [Hi Hr]. unfold on_neuron_f at 1. cbn [fst snd].
    destruct (nth_error vs i) as [n|] eqn:En; [|apply nth_error_None in En; lia].
    destruct (HF (N.of_nat i) n ps Hok) as (n1 & ps1 & E1 & F1 & (Sa & Sb & Sc)). rewrite E1. cbn [obind fst snd].
    destruct (IH (put i n1 vs) ps1 Sb Hnd) as (vs' & ps' & E & L & En' & Hok' & Hall & Hout).
    { eapply Forall_impl; [|exact Hr]. intros k. now rewrite put_len. }
    rewrite put_len in *. exists vs', ps'. split; [exact E|]. split; [exact L|]. split; [congruence|]. split; [exact Hok'|]. split.
    + intros j m Hm. destruct (Nat.eqb_spec j i) as [->|Hne].
      * cbn [orb]. assert (m = n) by congruence. subst m.
        destruct (Hall i n1) as (n' & H1 & H2); [rewrite put_nth, Nat.eqb_refl; destruct (Nat.ltb_spec i (length vs)); [reflexivity|lia]|].
        exists n'. split; [exact H1|]. rewrite H2, F1. destruct (existsb (Nat.eqb i) idx) eqn:Ex; [|reflexivity].
        exfalso. apply Hni. apply existsb_exists in Ex as (k & Hk & Hk'). apply Nat.eqb_eq in Hk'. now subst.
      * cbn [orb]. destruct (Hall j m) as (n' & H1 & H2).
        { rewrite put_nth. apply Nat.eqb_neq in Hne. now rewrite Hne. }
        exists n'. split; [exact H1|]. rewrite H2. rewrite (Sc (N.of_nat j)) by lia. reflexivity.
    + intros j Hj. rewrite (Hout j Hj). apply Sc. lia.
Qed.

(** The training of one neuron in one step. *)
Definition train_n (step : N) (spiked : bool) (n : tview) (l : list rparams) : tview * list rparams :=
  let r := if spiked then spiking_n step n l else (n, l) in
  let r := dopamine_n step (fst r) (snd r) in
  renorm_n step (fst r) (snd r).

Lemma train_spec step spikes vs ps : Forall index_ok ps -> NoDup spikes -> Forall (fun i => (i < N.of_nat (length vs))%N) spikes ->
  exists vs' ps', train_f pow2f step spikes (vs, ps) = Ret (vs', ps') /\ length vs' = length vs /\ map ends ps' = map ends ps /\ Forall index_ok ps' /\
    (forall i n, nth_error vs i = Some n -> exists n', nth_error vs' i = Some n' /\
       (n', slice (N.of_nat i) ps') = train_n step (existsb (N.eqb (N.of_nat i)) spikes) n (slice (N.of_nat i) ps)) /\
    (forall j, (N.of_nat (length vs) <= j)%N -> slice j ps' = slice j ps).
Proof.
  intros Hok Hnd Hr. unfold train_f. cbn [fst snd].
  destruct (for_acts _ _ (spiking_acts step) (map N.to_nat spikes) vs ps Hok) as (v1 & p1 & E1 & L1 & N1 & O1 & A1 & U1).
  { clear -Hnd. induction spikes as [|x t IH]; cbn [map]; [constructor|]. apply NoDup_cons_iff in Hnd as [H1 H2]. constructor; [|auto].
    intros H. apply H1. apply in_map_iff in H as (y & Hy & Hin). apply N2Nat.inj in Hy. now subst. }
  { apply Forall_map. eapply Forall_impl; [|exact Hr]. intros a Ha. cbn beta in Ha. lia. }
  rewrite E1. cbn [obind].
  assert (Hseq : NoDup (seq 0 (length vs)) /\ Forall (fun i => i < length v1) (seq 0 (length vs))).
  { split; [apply seq_NoDup|]. apply Forall_forall. intros i Hi. apply in_seq in Hi. lia. }
  destruct Hseq as (Hs1 & Hs2).
  destruct (for_acts _ _ (dopamine_acts_f step) (seq 0 (length vs)) v1 p1 O1 Hs1 Hs2) as (v2 & p2 & E2 & L2 & N2 & O2 & A2 & U2).
  rewrite E2. cbn [obind].
  assert (Hs3 : Forall (fun i => i < length v2) (seq 0 (length vs))) by (eapply Forall_impl; [|exact Hs2]; cbn beta; intros; lia).
  destruct (for_acts _ _ (renorm_acts_f step) (seq 0 (length vs)) v2 p2 O2 Hs1 Hs3) as (v3 & p3 & E3 & L3 & N3 & O3 & A3 & U3).
  exists v3, p3. split; [exact E3|]. split; [lia|]. split; [congruence|]. split; [exact O3|]. split.
  - intros i n Hn. destruct (A1 i n Hn) as (n1 & H1 & K1). destruct (A2 i n1 H1) as (n2 & H2 & K2). destruct (A3 i n2 H2) as (n3 & H3 & K3).
    exists n3. split; [exact H3|].
    assert (Hi : i < length vs) by (apply nth_error_Some; congruence).
    assert (Hm : existsb (Nat.eqb i) (seq 0 (length vs)) = true).
    { apply existsb_exists. exists i. split; [apply in_seq; lia|apply Nat.eqb_refl]. }
    rewrite Hm in K2, K3. rewrite K3. unfold train_n. cbv zeta.
    replace (existsb (N.eqb (N.of_nat i)) spikes) with (existsb (Nat.eqb i) (map N.to_nat spikes)).
    + rewrite <- K1. cbn [fst snd]. rewrite <- K2. reflexivity.
    + clear. induction spikes as [|x t IH]; [reflexivity|]. cbn [map existsb]. rewrite IH. f_equal.
      destruct (Nat.eqb_spec i (N.to_nat x)), (N.eqb_spec (N.of_nat i) x); lia.
  - intros j Hj. rewrite U3, U2, U1; try lia. reflexivity.
Qed.
End Neuron.
