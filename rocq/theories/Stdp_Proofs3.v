From Coq Require Import QArith Qabs Lqa.
From Verif Require Import Base ListLemmas Stdp_Model Stdp_Spec Stdp_Spec2 Stdp_Proofs Stdp_Proofs2.
Local Open Scope Q_scope.

Lemma bool_cases (b : bool) : b = true \/ b = false. Proof. destruct b; auto. Qed.
(** A loop whose function treats the synapse independently of how far it is. *)
Lemma each_map i g (inv : tneu -> Prop) (R : tsyn -> tsyn -> Prop) (f : tsyn -> Q) (q : tneu -> Q) :
  (forall n s, inv n -> inv (fst (g n s)) /\ R s (snd (g n s)) /\ q (fst (g n s)) == q n + f s) ->
  forall c n, inv n -> Forall (fun s => ts_to s = i) c ->
  inv (fst (each i g n c)) /\ Forall2 R c (snd (each i g n c)) /\ q (fst (each i g n c)) == q n + sum_over f c.
Proof.
  intros Hg. induction c as [|s c IH]; intros n Hn Hc; cbn [each fst snd sum_over fold_right]; [repeat split; auto; ring|].
  inversion Hc as [|? ? Hs Hc']; subst. rewrite Nat.eqb_refl. destruct (Hg n s Hn) as (G1 & G2 & G3).
  destruct (g n s) as [n1 s1]. cbn [fst snd] in *. destruct (IH n1 G1 Hc') as (I1 & I2 & I3).
  destruct (each (ts_to s) g n1 c) as [n2 c2]. cbn [fst snd] in *. split; [exact I1|]. split; [constructor; assumption|].
  rewrite I3, G3. unfold sum_over. ring.
Qed.
Lemma F2_trans {A} (P Q R : A -> A -> Prop) : (forall x y z, P x y -> Q y z -> R x z) ->
  forall a b c, Forall2 P a b -> Forall2 Q b c -> Forall2 R a c.
Proof.
  intros H a b c Hab. revert c. induction Hab; intros c Hbc; inversion Hbc; subst; constructor; eauto.
Qed.
Lemma F2_impl {A} (P Q : A -> A -> Prop) a b : (forall x y, P x y -> Q x y) -> Forall2 P a b -> Forall2 Q a b.
Proof. intros H F. induction F; constructor; auto. Qed.
Lemma F2_refl {A} (P : A -> A -> Prop) a : (forall x, P x x) -> Forall2 P a a.
Proof. intros H. induction a; constructor; auto. Qed.
Lemma F2_to (R : tsyn -> tsyn -> Prop) i c c' : (forall s s', R s s' -> ts_to s' = ts_to s) -> Forall2 R c c' ->
  Forall (fun s => ts_to s = i) c -> Forall (fun s => ts_to s = i) c'.
Proof. intros H F. induction F as [|x y c c' R1 _ IH]; intros Hc; inversion Hc as [|? ? E1 E2]; subst; constructor; [now apply H|now apply IH]. Qed.

(** equal but for the free resource *)
Definition but_free (n0 n : tneu) : Prop := set_free 0 n = set_free 0 n0.
Definition but_thr (n0 n : tneu) : Prop := set_add_thr 0 n = set_add_thr 0 n0.
Lemma thr_field {B} (p : tneu -> B) n0 n : (forall m, p (set_add_thr 0 m) = p m) -> but_thr n0 n -> p n = p n0.
Proof. intros Hp H. unfold but_thr in H. rewrite <- (Hp n), H. apply Hp. Qed.
Lemma free_field {B} (p : tneu -> B) n0 n : (forall m, p (set_free 0 m) = p m) -> but_free n0 n -> p n = p n0.
Proof. intros Hp H. unfold but_free in H. rewrite <- (Hp n), H. apply Hp. Qed.
Ltac tf p H := rewrite (thr_field p _ _ (fun _ => eq_refl) H).
Ltac ff p H := rewrite (free_field p _ _ (fun _ => eq_refl) H).

Lemma recalc_loop i c n : Forall (fun s => ts_to s = i) c ->
  each i recalc_each n c = (n, map recalc c).
Proof.
  intros H. revert n. induction H as [|s c Hs Hc IH]; intros n; [reflexivity|]. cbn [each map]. rewrite Hs, Nat.eqb_refl. unfold recalc_each at 1. rewrite IH. reflexivity.
Qed.
Lemma unhebb_loop i c n : Forall (fun s => ts_to s = i) c ->
  each i unhebb n c = (n, map (fun s => set_syn (ts_weight s) (ts_res s) false (ts_contrib s) s) c).
Proof.
  intros H. revert n. induction H as [|s c Hs Hc IH]; intros n; [reflexivity|]. cbn [each map]. rewrite Hs, Nat.eqb_refl. unfold unhebb at 1. rewrite IH. reflexivity.
Qed.
Lemma give_loop i d c n : Forall (fun s => ts_to s = i) c ->
  each i (give d) n c = (n, map (fun s => set_syn (ts_weight s) (ts_res s + d) (ts_hebb s) (ts_contrib s) s) c).
Proof.
  intros H. revert n. induction H as [|s c Hs Hc IH]; intros n; [reflexivity|]. cbn [each map]. rewrite Hs, Nat.eqb_refl. unfold give at 1. rewrite IH. reflexivity.
Qed.
Lemma F2_map {A} (f : A -> A) c : Forall2 (fun x y => y = f x) c (map f c).
Proof. induction c; constructor; auto. Qed.
Lemma update_isi_same step n : let n' := update_isi step n in
  tn_coef n' = tn_coef n /\ tn_dtime n' = tn_dtime n /\ tn_free n' = tn_free n /\ tn_thr n' = tn_thr n /\ tn_drain n' = tn_drain n /\
  tn_stab n' = tn_stab n /\ tn_stab_isi n' = tn_stab_isi n /\ tn_isi_max n' = tn_isi_max n /\ tn_dh n' = tn_dh n /\
  tn_last_spike n' = tn_last_spike n /\ tn_forced n' = tn_forced n /\ tn_dopa n' = tn_dopa n.
Proof. cbn zeta. unfold update_isi. destruct (tn_forced n) eqn:E1, (tn_status n); repeat match goal with |- context [if ?b then _ else _] => destruct b end; cbn; repeat split; auto. Qed.

Lemma spiking_effect damp step i n c : Forall (fun s => ts_to s = i) c ->
  spike_effect damp step n c (fst (spiking_neuron damp step i n c)) (snd (spiking_neuron damp step i n c)) /\
  tn_status (fst (spiking_neuron damp step i n c)) = tn_status (update_isi step n) /\
  tn_first (fst (spiking_neuron damp step i n c)) = tn_first (update_isi step n) /\
  tn_last (fst (spiking_neuron damp step i n c)) = tn_last (update_isi step n).
Proof.
  intros Hc. pose proof (spiking_total damp step i n c) as Tot. destruct (spiking_neuron damp step i n c) as [n' c'] eqn:E. specialize (Tot n' c' eq_refl). cbn [fst snd].
  unfold spiking_neuron in E. cbn zeta in E.
  set (a := update_isi step (set_last_spike step n)) in *.
  assert (Ea : tn_status a = tn_status (update_isi step n) /\ tn_first a = tn_first (update_isi step n) /\ tn_last a = tn_last (update_isi step n)).
  { unfold a, update_isi. cbn [tn_forced tn_status tn_last tn_isi_max tn_dopa set_last_spike]. destruct (tn_forced n), (tn_status n); repeat match goal with |- context [if ?b then _ else _] => destruct b end; cbn; auto. }
  pose proof (update_isi_same step (set_last_spike step n)) as S. cbn zeta in S. fold a in S. cbn [set_last_spike tn_coef tn_dtime tn_free tn_thr tn_drain tn_stab tn_stab_isi tn_isi_max tn_dh tn_last_spike tn_forced tn_dopa] in S.
  destruct S as (S1 & S2 & S3 & S4 & S5 & S6 & S7 & S8 & S9 & S10 & S11 & S12).
  set (b := if isi_eqb period_started (tn_status a) then set_stab (tn_stab a - tn_stab_isi a) a else a) in *.
  assert (Hb : tn_status b = tn_status a /\ tn_first b = tn_first a /\ tn_last b = tn_last a /\ tn_coef b = tn_coef n /\ tn_dtime b = tn_dtime n /\ tn_free b = tn_free n /\ tn_thr b = tn_thr n /\ tn_drain b = tn_drain n /\
     tn_isi_max b = tn_isi_max n /\ tn_dh b = tn_dh n /\ tn_last_spike b = step /\ tn_forced b = tn_forced n /\ tn_dopa b = tn_dopa n /\
     tn_stab b == tn_stab n - (if isi_eqb (tn_status a) period_started then tn_stab_isi n else 0)).
  { unfold b. destruct (tn_status a) eqn:Es; cbn [isi_eqb]; cbn [set_stab tn_status tn_first tn_last tn_coef tn_dtime tn_free tn_thr tn_drain tn_isi_max tn_dh tn_last_spike tn_forced tn_dopa tn_stab];
    rewrite ?S6, ?S7; repeat split; auto; ring. }
  destruct Hb as (B1 & B2 & B3 & B4 & B5 & B6 & B7 & B8 & B9 & B10 & B11 & B12 & B13 & B14).
  clearbody b. set (b0 := set_add_thr 0 b) in *. set (st := tn_status a) in *.
  (* marking *)
  destruct (each_map i (mark step) (but_thr b0)
    (fun s s1 => s1 = set_syn (ts_weight s) (ts_res s) (ts_hebb s) (contributes step st s) s)
    (fun s => if Qle_bool (ts_weight s) 0 then 0 else ts_weight s) tn_add_thr) with (c := c) (n := b0) as (M1 & M2 & M3).
  { intros m s Hm. assert (Hst : tn_status m = st) by (tf tn_status Hm; exact B1). unfold mark. cbn [fst snd]. split; [|split].
    - unfold but_thr in *. rewrite <- Hm. reflexivity.
    - rewrite Hst. unfold contributes. destruct st, (had_spike step s); cbn [isi_eqb negb orb andb]; try reflexivity; destruct s; reflexivity.
    - cbn [set_add_thr tn_add_thr]. reflexivity. }
  { reflexivity. } { exact Hc. }
  destruct (each i (mark step) b0 c) as [m1 c1] eqn:E1. cbn [fst snd] in *.
  assert (Hc1 : Forall (fun s => ts_to s = i) c1) by (eapply F2_to; [|exact M2|exact Hc]; intros s s' ->; reflexivity).
  set (m2 := set_add_thr (tn_add_thr m1 * tn_coef m1) m1) in *.
  assert (Hm2 : but_thr b0 m2) by (unfold but_thr in *; rewrite <- M1; reflexivity).
  assert (Tm2 : tn_add_thr m2 == tn_coef n * sum_over (fun s => if Qle_bool (ts_weight s) 0 then 0 else ts_weight s) c).
  { unfold m2. cbn [set_add_thr tn_add_thr]. rewrite M3. assert (X : tn_coef m1 = tn_coef n) by (tf tn_coef M1; exact B4). rewrite X. unfold b0. cbn [set_add_thr tn_add_thr]. ring. }
  assert (F2m : tn_status m2 = st /\ tn_first m2 = tn_first a /\ tn_last m2 = tn_last a /\ tn_dtime m2 = tn_dtime n /\ tn_free m2 = tn_free n /\ tn_thr m2 = tn_thr n /\ tn_drain m2 = tn_drain n /\
     tn_isi_max m2 = tn_isi_max n /\ tn_dh m2 = tn_dh n /\ tn_last_spike m2 = step /\ tn_forced m2 = tn_forced n /\ tn_dopa m2 = tn_dopa n /\ tn_stab m2 = tn_stab b).
  { tf tn_status Hm2; tf tn_first Hm2; tf tn_last Hm2; tf tn_dtime Hm2; tf tn_free Hm2; tf tn_thr Hm2; tf tn_drain Hm2; tf tn_isi_max Hm2; tf tn_dh Hm2; tf tn_last_spike Hm2; tf tn_forced Hm2; tf tn_dopa Hm2; tf tn_stab Hm2.
    unfold b0. cbn [set_add_thr tn_status tn_first tn_last tn_dtime tn_free tn_thr tn_drain tn_isi_max tn_dh tn_last_spike tn_forced tn_dopa tn_stab]. auto 20. }
  destruct F2m as (D1 & D2 & D3 & D4 & D5 & D6 & D7 & D8 & D9 & D10 & D11 & D12 & D13). clearbody m2.
  (* forgetting the Hebbian update *)
  assert (U : exists c2, (if negb (isi_eqb (tn_status m2) period_continued) then each i unhebb m2 c1 else (m2, c1)) = (m2, c2) /\
     Forall2 (fun s s2 => s2 = set_syn (ts_weight s) (ts_res s) (isi_eqb st period_continued && ts_hebb s) (contributes step st s) s) c c2).
  { rewrite D1. destruct (isi_eqb st period_continued) eqn:Ep; cbn [negb andb].
    - exists c1. split; [reflexivity|]. exact M2.
    - rewrite unhebb_loop by exact Hc1. eexists. split; [reflexivity|].
      eapply (F2_trans _ (fun x y => y = set_syn (ts_weight x) (ts_res x) false (ts_contrib x) x)); [|exact M2|apply F2_map]. intros x y z -> ->. reflexivity. }
  destruct U as (c2 & U1 & U2). rewrite U1 in E. rewrite D1 in E.
  assert (Hc2 : Forall (fun s => ts_to s = i) c2) by (eapply F2_to; [|exact U2|exact Hc]; intros s s' ->; reflexivity).
  (* Hebbian *)
  assert (Hb : exists m3 c3, (if negb (isi_eqb st is_forced) then each i (hebb damp) m2 c2 else (m2, c2)) = (m3, c3) /\ but_free m2 m3 /\
     Forall2 (fun s s3 => same_synapse s s3 /\ ts_contrib s3 = contributes step st s /\
        ts_hebb s3 = (strengthened step st s || (isi_eqb st period_continued && ts_hebb s)) /\
        ts_res s3 == ts_res s - (if isi_eqb st is_forced then 0 else ts_du s) + (if strengthened step st s then tn_dh n * damp (tn_stab m2) else 0)) c c3).
  { destruct (negb (isi_eqb st is_forced)) eqn:Ef; [apply negb_true_iff in Ef|apply negb_false_iff in Ef].
    - destruct (each_map i (hebb damp) (but_free m2)
        (fun s s3 => same_synapse s s3 /\ ts_contrib s3 = ts_contrib s /\ ts_hebb s3 = ts_hebb s || ts_contrib s /\
           ts_res s3 == ts_res s - ts_du s + (if ts_contrib s && negb (ts_hebb s) then tn_dh n * damp (tn_stab m2) else 0))%bool
        (fun _ => 0) (fun _ => 0)) with (c := c2) (n := m2) as (H1 & H2 & _).
      { intros m s Hm. assert (X : tn_dh m = tn_dh n /\ tn_stab m = tn_stab m2) by (split; [ff tn_dh Hm; exact D9|now ff tn_stab Hm]). destruct X as [X1 X2].
        unfold hebb. cbn [ts_contrib ts_hebb set_syn]. rewrite X1, X2. destruct (ts_contrib s) eqn:C1, (ts_hebb s) eqn:C2; cbn [andb orb negb fst snd].
        all: split; [unfold but_free in *; rewrite <- Hm; reflexivity|].
        all: split; [|ring].
        all: split; [repeat split|]; cbn [set_syn ts_contrib ts_hebb ts_res]; repeat split; auto; ring. }
      { reflexivity. } { exact Hc2. }
      destruct (each i (hebb damp) m2 c2) as [m3 c3]. cbn [fst snd] in *. exists m3, c3. split; [reflexivity|]. split; [exact H1|].
      eapply (F2_trans _ _ _); [|exact U2|exact H2]. cbn beta. intros x y z -> (Y1 & Y2 & Y3 & Y4).
      cbn [set_syn ts_contrib ts_hebb ts_res ts_du] in *.
      split; [exact Y1|]. split; [exact Y2|]. rewrite Y3.
      unfold strengthened. rewrite Ef. cbn [negb andb]. split.
      + destruct (contributes step st x), (isi_eqb st period_continued), (ts_hebb x); reflexivity.
      + rewrite Y4. reflexivity.
    - exists m2, c2. split; [reflexivity|]. split; [reflexivity|]. eapply F2_impl; [|exact U2]. cbn beta. intros x y ->. unfold strengthened. rewrite Ef. cbn [negb andb orb].
      split; [repeat split|]. cbn [set_syn ts_contrib ts_hebb ts_res]. repeat split; auto. ring. }
  destruct Hb as (m3 & c3 & H1 & H2 & H3). rewrite H1 in E.
  assert (Hc3 : Forall (fun s => ts_to s = i) c3) by (eapply F2_to; [|exact H3|exact Hc]; intros s s' (Y & _); apply Y).
  rewrite recalc_loop in E by exact Hc3. injection E as <- <-.
  assert (G : tn_status m3 = st /\ tn_first m3 = tn_first a /\ tn_last m3 = tn_last a /\ tn_stab m3 = tn_stab m2 /\ tn_dtime m3 = tn_dtime m2 /\ tn_thr m3 = tn_thr m2 /\ tn_drain m3 = tn_drain m2 /\
     tn_isi_max m3 = tn_isi_max m2 /\ tn_last_spike m3 = tn_last_spike m2 /\ tn_forced m3 = tn_forced m2 /\ tn_dopa m3 = tn_dopa m2 /\ tn_add_thr m3 = tn_add_thr m2).
  { ff tn_status H2; ff tn_first H2; ff tn_last H2; ff tn_stab H2; ff tn_dtime H2; ff tn_thr H2; ff tn_drain H2; ff tn_isi_max H2; ff tn_last_spike H2; ff tn_forced H2; ff tn_dopa H2; ff tn_add_thr H2. auto 20. }
  destruct G as (G1 & G2 & G3 & G4 & G5 & G6 & G7 & G8 & G9 & G10 & G11 & G12).
  split; [|destruct Ea as (-> & -> & ->) || (rewrite G1, G2, G3; exact Ea)].
  - split; [|split; [|split; [|split; [|split]]]].
    + unfold spike_synapse. rewrite G1, G4. eapply (F2_trans _ (fun x y => y = recalc x)); [|exact H3|apply F2_map]. cbn beta.
      intros x y z (Y1 & Y2 & Y3 & Y4) ->. split; [|split; [reflexivity|]]; [exact Y1|]. cbn [recalc set_syn ts_contrib ts_hebb ts_res]. auto.
    + congruence.
    + rewrite G1, G4, D13. exact B14.
    + rewrite G12. exact Tm2.
    + unfold total in Tot. lra.
    + repeat split; congruence.
Qed.
Lemma acts_felt n : dopamine_acts n = true <-> dopamine_felt n.
Proof.
  unfold dopamine_acts, dopamine_felt. rewrite orb_true_iff, andb_true_iff, !negb_true_iff.
  assert (L : forall a b, Qle_bool a b = false <-> b < a).
  { intros a b. split; intros H.
    - apply Qnot_le_lt. intros X. apply Qle_bool_iff in X. congruence.
    - destruct (Qle_bool a b) eqn:E; [|reflexivity]. apply Qle_bool_iff in E. lra. }
  rewrite !L. assert (S : isi_eqb (tn_status n) is_forced = false <-> tn_status n <> is_forced) by (destruct (tn_status n); cbn; split; congruence).
  rewrite S. tauto.
Qed.
Lemma dopamine_effect_ok damp step i n c : Forall (fun s => ts_to s = i) c -> (tn_last_spike n <= step)%N -> (step < two64)%N ->
  (dopamine_felt n -> dopamine_effect damp step n c (fst (dopamine_neuron damp step i n c)) (snd (dopamine_neuron damp step i n c)) /\
     tn_stab (fst (dopamine_neuron damp step i n c)) = tn_stab (stability_change step n)) /\
  (~ dopamine_felt n -> dopamine_neuron damp step i n c = (n, c)).
Proof.
  intros Hc Hl Hw. pose proof (dopamine_total damp step i n c) as Tot. unfold dopamine_neuron in *. rewrite <- acts_felt. destruct (dopamine_acts n); [|split; [discriminate|reflexivity]].
  split; [intros _|congruence].
  set (near := (sub64 step (tn_last_spike n) <=? tn_dtime n)%N).
  assert (Hnear : near = true <-> spiked_recently step n).
  { unfold near, spiked_recently. rewrite sub64_le by assumption. rewrite N.leb_le. lia. }
  destruct (each_map i (reward damp step) (but_free n)
    (fun s s1 => same_synapse s s1 /\ ts_contrib s1 = ts_contrib s /\ ts_hebb s1 = ts_hebb s /\
       (near = true -> ts_contrib s = true -> ts_res s1 == ts_res s + tn_dopa n * damp (tn_stab n)) /\ (near = false \/ ts_contrib s = false -> ts_res s1 = ts_res s))
    (fun _ => 0) (fun _ => 0)) with (c := c) (n := n) as (H1 & H2 & _).
  { intros m s Hm. assert (X : tn_dopa m = tn_dopa n /\ tn_stab m = tn_stab n /\ tn_last_spike m = tn_last_spike n /\ tn_dtime m = tn_dtime n) by (split; [|split; [|split]]; [now ff tn_dopa Hm|now ff tn_stab Hm|now ff tn_last_spike Hm|now ff tn_dtime Hm]).
    destruct X as (X1 & X2 & X3 & X4). unfold reward. rewrite X1, X2, X3, X4. fold near. destruct near eqn:En, (ts_contrib s) eqn:Ec; cbn [andb fst snd].
    all: split; [first [exact Hm|unfold but_free in *; rewrite <- Hm; reflexivity]|].
    all: split; [|ring].
    all: split; [repeat split|]; cbn [set_syn ts_contrib ts_hebb ts_res]; repeat split; auto; try (intros; reflexivity); try discriminate; intros [?|?]; discriminate. }
  { reflexivity. } { exact Hc. }
  destruct (each i (reward damp step) n c) as [n1 c1] eqn:E1. cbn [fst snd] in *.
  assert (Hc1 : Forall (fun s => ts_to s = i) c1) by (eapply F2_to; [|exact H2|exact Hc]; intros s s' (Y & _); apply Y).
  rewrite recalc_loop in * by exact Hc1. specialize (Tot _ _ eq_refl). cbn [fst snd].
  assert (G : forall (P : tneu -> Prop), (forall m, P (stability_change step m) <-> P m) -> P n1 -> P (stability_change step n1)) by (intros P HP; apply HP).
  assert (K : tn_dopa n1 = tn_dopa n /\ tn_status n1 = tn_status n /\ tn_last_spike n1 = tn_last_spike n /\ tn_last n1 = tn_last n /\ tn_isi_max n1 = tn_isi_max n /\ tn_thr n1 = tn_thr n /\ tn_drain n1 = tn_drain n /\
     tn_stab n1 = tn_stab n /\ tn_forced n1 = tn_forced n /\ tn_stab_par n1 = tn_stab_par n /\ tn_first n1 = tn_first n).
  { ff tn_dopa H1; ff tn_status H1; ff tn_last_spike H1; ff tn_last H1; ff tn_isi_max H1; ff tn_thr H1; ff tn_drain H1; ff tn_stab H1; ff tn_forced H1; ff tn_stab_par H1; ff tn_first H1. auto 20. }
  destruct K as (K1 & K2 & K3 & K4 & K5 & K6 & K7 & K8 & K9 & K10 & K11).
  split.
  - split; [|split].
    + eapply (F2_trans _ (fun x y => y = recalc x)); [|exact H2|apply F2_map]. cbn beta. intros x y z (Y1 & Y2 & Y3 & Y4 & Y5) ->.
      split; [exact Y1|]. split; [reflexivity|]. cbn [recalc set_syn ts_contrib ts_hebb ts_res]. split; [exact Y2|]. split; [exact Y3|]. split.
      * intros Hr. apply Y4. now apply Hnear.
      * intros [Hr|Hr]; apply Y5; [left|now right]. destruct near; [|reflexivity]. exfalso. apply Hr. now apply Hnear.
    + unfold total in Tot. lra.
    + unfold stability_change. destruct (_ || _); cbn [set_stab tn_dopa tn_status tn_last_spike tn_last tn_isi_max tn_thr tn_drain]; auto 10.
  - unfold stability_change. rewrite K1, K5, K8, K9, K10, K11. destruct (_ || _); reflexivity.
Qed.
Lemma renorm_effect_ok step i n c : Forall (fun s => ts_to s = i) c -> (tn_last n <= step)%N -> (step < two64)%N ->
  (renormalised step n -> renorm_effect n c (fst (renorm_neuron step i n c)) (snd (renorm_neuron step i n c))) /\
  (~ renormalised step n -> renorm_neuron step i n c = (n, c)).
Proof.
  intros Hc Hl Hw. unfold renorm_neuron.
  assert (A : renorm_acts step n = true <-> renormalised step n).
  { unfold renorm_acts, renormalised. rewrite andb_true_iff, negb_true_iff, andb_false_iff, N.leb_gt, negb_false_iff, Qle_bool_iff, sub64_le by assumption.
    assert (S : isi_eqb (tn_status n) is_forced = true <-> tn_status n = is_forced) by (destruct (tn_status n); cbn; split; congruence).
    rewrite S. assert (X : (tn_isi_max n < step - tn_last n)%N <-> (tn_last n + tn_isi_max n < step)%N) by lia. rewrite X. reflexivity. }
  rewrite <- A. destruct (renorm_acts step n); [|split; [discriminate|reflexivity]]. split; [intros _|congruence].
  rewrite give_loop by exact Hc. rewrite recalc_loop by (apply Forall_map; exact Hc). cbn [fst snd]. split; [|reflexivity].
  rewrite connected_own by exact Hc. rewrite map_map. eapply F2_impl; [|apply F2_map]. cbn beta. intros x y ->.
  split; [repeat split|]. split; [reflexivity|]. cbn [recalc set_syn ts_contrib ts_hebb ts_res]. repeat split.
Qed.
(** Dopamine and renormalisation leave the flags alone. *)
Definition same_flags (x y : tsyn) : Prop := ts_to y = ts_to x /\ ts_hebb y = ts_hebb x.
Lemma each_flags i g n c : (forall m s, same_flags s (snd (g m s))) -> Forall2 same_flags c (snd (each i g n c)).
Proof.
  intros Hg. revert n. induction c as [|s c IH]; intros n; cbn [each]; [constructor|]. destruct (ts_to s =? i)%nat.
  - specialize (Hg n s). destruct (g n s) as [n1 s1]. specialize (IH n1). destruct (each i g n1 c). constructor; assumption.
  - specialize (IH n). destruct (each i g n c). constructor; [split; reflexivity|assumption].
Qed.
Lemma flags_trans a b c : Forall2 same_flags a b -> Forall2 same_flags b c -> Forall2 same_flags a c.
Proof. apply F2_trans. intros x y z [H1 H2] [H3 H4]. split; congruence. Qed.
Lemma dopamine_flags damp step i n c : Forall2 same_flags c (snd (dopamine_neuron damp step i n c)).
Proof.
  unfold dopamine_neuron. destruct (dopamine_acts n); [|apply F2_refl; split; reflexivity].
  pose proof (each_flags i (reward damp step) n c) as H. destruct (each i (reward damp step) n c) as [n1 c1]. cbn [snd] in H.
  eapply flags_trans; [apply H|apply each_flags].
  - intros m s. unfold reward. destruct (_ && _); split; reflexivity.
  - intros m s. split; reflexivity.
Qed.
Lemma renorm_flags step i n c : Forall2 same_flags c (snd (renorm_neuron step i n c)).
Proof.
  unfold renorm_neuron. destruct (renorm_acts step n); [|apply F2_refl; split; reflexivity].
  pose proof (each_flags i (give (share n (length (connected i c)))) n c) as H. destruct (each i _ n c) as [n1 c1]. cbn [snd] in H.
  eapply flags_trans; [apply H|apply each_flags]; intros m s; split; reflexivity.
Qed.
(** The flags of the synapses of neuron [j] under one training. *)
Lemma train_flags damp step spikes s j n : NoDup spikes -> nth_error (fst s) j = Some n ->
  Forall2 (fun x y => (In j spikes -> ts_hebb y = strengthened step (tn_status (update_isi step n)) x || (isi_eqb (tn_status (update_isi step n)) period_continued && ts_hebb x)) /\
                      (~ In j spikes -> ts_hebb y = ts_hebb x))
    (own j (snd s)) (own j (snd (train damp step spikes s))).
Proof.
  intros Hd Hn. destruct s as [ns l]. destruct (train damp step spikes (ns, l)) as [ns' l'] eqn:E. cbn [fst snd] in *.
  destruct (train_at damp step spikes ns l Hd ns' l' E) as (_ & _ & T & _). destruct (T j n Hn) as (n' & c' & Et & _ & Hc'). unfold train_neuron in Et. change (connected j) with (own j) in *.
  assert (Ho : Forall (fun s => ts_to s = j) (own j l)) by apply connected_to.
  set (sp := if existsb (Nat.eqb j) spikes then spiking_neuron damp step j n (own j l) else (n, own j l)) in Et.
  assert (Hs : Forall2 (fun x y => (In j spikes -> ts_hebb y = strengthened step (tn_status (update_isi step n)) x || (isi_eqb (tn_status (update_isi step n)) period_continued && ts_hebb x)) /\
                      (~ In j spikes -> ts_hebb y = ts_hebb x)) (own j l) (snd sp)).
  { unfold sp. destruct (existsb (Nat.eqb j) spikes) eqn:Ei.
    - apply existsb_In in Ei. destruct (spiking_effect damp step j n (own j l) Ho) as (E1 & E2 & _). rewrite <- E2.
      eapply F2_impl; [|exact (proj1 E1)]. intros x y (_ & _ & _ & Y & _). split; [intros _; exact Y|contradiction].
    - apply F2_refl. intros x. split; [intros Hi; apply existsb_In in Hi; congruence|reflexivity]. }
  destruct sp as [n1 c1]. cbn [snd] in Hs.
  pose proof (dopamine_flags damp step j n1 c1) as D. destruct (dopamine_neuron damp step j n1 c1) as [n2 c2]. cbn [snd] in D.
  pose proof (renorm_flags step j n2 c2) as R. rewrite Et in R. cbn [snd] in R. rewrite Hc'.
  pose proof (flags_trans _ _ _ D R) as DR. eapply F2_trans; [|exact Hs|exact DR]. cbn beta. intros x y z [H1 H2] [_ ->]. auto.
Qed.
Lemma F2_nth {A} (R : A -> A -> Prop) a b : Forall2 R a b -> forall k x, nth_error a k = Some x -> exists y, nth_error b k = Some y /\ R x y.
Proof. induction 1; intros [|k] z Hz; try discriminate; cbn in *; [injection Hz as <-; eauto|eauto]. Qed.
Lemma after_S damp tr k s t : nth_error tr k = Some t -> after damp tr (S k) s = train damp (fst t) (snd t) (after damp tr k s).
Proof.
  unfold after. revert k s. induction tr as [|u tr IH]; intros [|k] s H; try discriminate.
  - injection H as ->. reflexivity.
  - cbn [nth_error] in H. change (firstn (S (S k)) (u :: tr)) with (u :: firstn (S k) tr). change (firstn (S k) (u :: tr)) with (u :: firstn k tr). cbn [fold_left]. now apply IH.
Qed.
Lemma train_keeps damp step spikes s j n : NoDup spikes -> nth_error (fst s) j = Some n -> exists n', nth_error (fst (train damp step spikes s)) j = Some n'.
Proof.
  intros Hd Hn. destruct s as [ns l]. destruct (train damp step spikes (ns, l)) as [ns' l'] eqn:E.
  destruct (train_at damp step spikes ns l Hd ns' l' E) as (_ & _ & T & _). destruct (T j n Hn) as (n' & _ & _ & H & _). eauto.
Qed.
