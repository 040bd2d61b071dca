From Coq Require Import QArith Qabs Lqa.
From Verif Require Import Base ListLemmas Stdp_Model Stdp_Spec.
Local Open Scope Q_scope.

(** ** Weights *)
Lemma Qmax'_r a b : b <= Qmax' a b.
Proof. unfold Qmax'. destruct (Qle_bool a b) eqn:E; [lra|]. assert (~ a <= b) by (rewrite <- Qle_bool_iff, E; discriminate). lra. Qed.
Lemma Qmax'_mono a b c : a <= b -> Qmax' a c <= Qmax' b c.
Proof.
  intros H. unfold Qmax'. destruct (Qle_bool a c) eqn:E1, (Qle_bool b c) eqn:E2; try lra.
  - assert (~ b <= c) by (rewrite <- Qle_bool_iff, E2; discriminate). lra.
  - apply Qle_bool_iff in E2. lra.
Qed.
Lemma frac_mono d x y : 0 < d -> 0 <= x -> x <= y -> d * x / (d + x) <= d * y / (d + y).
Proof.
  intros Hd Hx Hxy. apply Qle_shift_div_l; [lra|]. 
  assert (E : d * x / (d + x) * (d + y) == d * x * (d + y) / (d + x)) by (field; lra).
  rewrite E. apply Qle_shift_div_r; [lra|]. nra.
Qed.
Lemma weight_range wmin wmax r : wmin < wmax -> wmin <= weight_of wmin wmax r /\ weight_of wmin wmax r < wmax.
Proof.
  intros H. unfold weight_of. pose proof (Qmax'_r r 0) as H0. set (w := Qmax' r 0) in *. set (d := wmax - wmin).
  assert (Hd : 0 < d) by (unfold d; lra). cbn zeta. split.
  - assert (0 <= d * w / (d + w)); [|lra]. apply Qle_shift_div_l; [lra|]. nra.
  - assert (d * w / (d + w) < d); [|unfold d in *; lra]. apply Qlt_shift_div_r; [lra|]. nra.
Qed.
Lemma weight_mono wmin wmax r r' : wmin < wmax -> r <= r' -> weight_of wmin wmax r <= weight_of wmin wmax r'.
Proof.
  intros H Hr. unfold weight_of. cbn zeta. pose proof (Qmax'_r r 0) as H0.
  assert (wmax - wmin > 0) by lra. pose proof (frac_mono (wmax - wmin) (Qmax' r 0) (Qmax' r' 0) H1 H0 (Qmax'_mono _ _ _ Hr)). lra.
Qed.
Lemma weight_low wmin wmax r : r <= 0 -> weight_of wmin wmax r == wmin.
Proof.
  intros H. unfold weight_of, Qmax'. apply Qle_bool_iff in H. rewrite H. cbn zeta.
  assert (E : (wmax - wmin) * 0 / (wmax - wmin + 0) == 0) by (unfold Qdiv; ring). rewrite E. ring.
Qed.

(** ** Loops over the synapses of one neuron *)
Lemma connected_idem i l : connected i (connected i l) = connected i l.
Proof.
  unfold connected. induction l as [|s l IH]; cbn; [reflexivity|]. destruct (ts_to s =? i)%nat eqn:E; cbn; [rewrite E, IH|]; auto.
Qed.
Definition keeps_to (g : tneu -> tsyn -> tneu * tsyn) : Prop := forall n s, ts_to (snd (g n s)) = ts_to s.
Lemma each_local i g : keeps_to g -> forall l n n' l', each i g n l = (n', l') ->
  each i g n (connected i l) = (n', connected i l') /\ (forall j, j <> i -> connected j l' = connected j l) /\ map ts_to l' = map ts_to l.
Proof.
  intros Hg. induction l as [|s l IH]; intros n n' l' H; cbn [each] in H.
  - injection H as <- <-. cbn. auto.
  - destruct (Nat.eqb_spec (ts_to s) i) as [E|E].
    + pose proof (Hg n s) as Hs. destruct (g n s) as [n1 s1] eqn:Eg. cbn [snd] in Hs.
      destruct (each i g n1 l) as [n2 t2] eqn:E2. injection H as <- <-. destruct (IH n1 n2 t2 E2) as (I1 & I2 & I3).
      unfold connected at 1 2. cbn [filter]. rewrite Hs, E, Nat.eqb_refl. fold (connected i l) (connected i t2).
      split; [|split].
      * cbn [each]. rewrite E, Nat.eqb_refl, Eg, I1. reflexivity.
      * intros j Hj. unfold connected. cbn [filter]. rewrite Hs, E. destruct (Nat.eqb_spec i j); [congruence|]. now apply I2.
      * cbn [map]. now rewrite Hs, I3.
    + destruct (each i g n l) as [n2 t2] eqn:E2. injection H as <- <-. destruct (IH n n2 t2 E2) as (I1 & I2 & I3).
      unfold connected at 1 2. cbn [filter]. apply Nat.eqb_neq in E. rewrite E. fold (connected i l) (connected i t2). split; [exact I1|]. split.
      * intros j Hj. unfold connected. cbn [filter]. destruct (ts_to s =? j)%nat; [f_equal|]; now apply I2.
      * cbn [map]. now rewrite I3.
Qed.
(** [local f]: f on all synapses = f on those of the neuron, the others stay. *)
Definition local (f : nat -> tneu -> list tsyn -> tneu * list tsyn) : Prop :=
  forall i n l n' l', f i n l = (n', l') ->
  f i n (connected i l) = (n', connected i l') /\ (forall j, j <> i -> connected j l' = connected j l) /\ map ts_to l' = map ts_to l.
Lemma keeps_mark step : keeps_to (mark step).
Proof. intros n s. unfold mark. cbn [snd]. destruct (_ || _); reflexivity. Qed.
Lemma keeps_unhebb : keeps_to unhebb. Proof. intros n s. reflexivity. Qed.
Lemma keeps_hebb damp : keeps_to (hebb damp).
Proof. intros n s. unfold hebb. destruct (_ && _); reflexivity. Qed.
Lemma keeps_recalc : keeps_to recalc_each. Proof. intros n s. reflexivity. Qed.
Lemma keeps_reward damp step : keeps_to (reward damp step).
Proof. intros n s. unfold reward. destruct (_ && _); reflexivity. Qed.
Lemma keeps_give d : keeps_to (give d). Proof. intros n s. reflexivity. Qed.

Ltac run_each H E := match type of H with context [each ?i ?g ?n ?l] =>
  let a := fresh "n" in let b := fresh "l" in destruct (each i g n l) as [a b] eqn:E end.
Lemma spiking_local damp step : local (spiking_neuron damp step).
Proof.
  intros i n l n' l' H. unfold spiking_neuron in *. cbn zeta in *.
  match type of H with context [each i (mark step) ?a l] => set (n0 := a) in * end.
  destruct (each i (mark step) n0 l) as [n1 l1] eqn:E1. destruct (each_local i _ (keeps_mark step) _ _ _ _ E1) as (A1 & A2 & A3).
  rewrite A1. set (n2 := set_add_thr (tn_add_thr n1 * tn_coef n1) n1) in *.
  assert (B : exists n3 l3, (if negb (isi_eqb (tn_status n2) period_continued) then each i unhebb n2 l1 else (n2, l1)) = (n3, l3) /\
     (if negb (isi_eqb (tn_status n2) period_continued) then each i unhebb n2 (connected i l1) else (n2, connected i l1)) = (n3, connected i l3) /\
     (forall j, j <> i -> connected j l3 = connected j l1) /\ map ts_to l3 = map ts_to l1).
  { destruct (negb _).
    - destruct (each i unhebb n2 l1) as [n3 l3] eqn:E. exists n3, l3. split; [reflexivity|]. exact (each_local i _ keeps_unhebb _ _ _ _ E).
    - exists n2, l1. auto. }
  destruct B as (n3 & l3 & B1 & B2 & B3 & B4). rewrite B1 in H. rewrite B2.
  assert (C : exists n4 l4, (if negb (isi_eqb (tn_status n3) is_forced) then each i (hebb damp) n3 l3 else (n3, l3)) = (n4, l4) /\
     (if negb (isi_eqb (tn_status n3) is_forced) then each i (hebb damp) n3 (connected i l3) else (n3, connected i l3)) = (n4, connected i l4) /\
     (forall j, j <> i -> connected j l4 = connected j l3) /\ map ts_to l4 = map ts_to l3).
  { destruct (negb _).
    - destruct (each i (hebb damp) n3 l3) as [n4 l4] eqn:E. exists n4, l4. split; [reflexivity|]. exact (each_local i _ (keeps_hebb damp) _ _ _ _ E).
    - exists n3, l3. auto. }
  destruct C as (n4 & l4 & C1 & C2 & C3 & C4). rewrite C1 in H. rewrite C2.
  destruct (each_local i _ keeps_recalc _ _ _ _ H) as (D1 & D2 & D3). rewrite D1. split; [reflexivity|]. split.
  - intros j Hj. rewrite D2, C3, B3, A2 by exact Hj. reflexivity.
  - congruence.
Qed.
Lemma dopamine_local damp step : local (dopamine_neuron damp step).
Proof.
  intros i n l n' l' H. unfold dopamine_neuron in *. destruct (dopamine_acts n); [|injection H as <- <-; auto].
  destruct (each i (reward damp step) n l) as [n1 l1] eqn:E1. destruct (each_local i _ (keeps_reward damp step) _ _ _ _ E1) as (A1 & A2 & A3).
  rewrite A1. destruct (each_local i _ keeps_recalc _ _ _ _ H) as (D1 & D2 & D3). rewrite D1. split; [reflexivity|]. split.
  - intros j Hj. rewrite D2, A2 by exact Hj. reflexivity.
  - congruence.
Qed.
Lemma renorm_local step : local (renorm_neuron step).
Proof.
  intros i n l n' l' H. unfold renorm_neuron in *. destruct (renorm_acts step n); [|injection H as <- <-; auto].
  rewrite connected_idem.
  match type of H with context [each i (give ?d) n l] => destruct (each i (give d) n l) as [n1 l1] eqn:E1;
    destruct (each_local i _ (keeps_give d) _ _ _ _ E1) as (A1 & A2 & A3) end.
  rewrite A1. destruct (each_local i _ keeps_recalc _ _ _ _ H) as (D1 & D2 & D3). rewrite D1. split; [reflexivity|]. split.
  - intros j Hj. rewrite D2, A2 by exact Hj. reflexivity.
  - congruence.
Qed.

(** ** Loops over neurons *)
Lemma set_nth_length {A} : forall (l : list A) i x, length (set_nth i x l) = length l.
Proof. induction l as [|y l IH]; intros [|i] x; cbn; auto. Qed.
Lemma set_nth_same {A} : forall (l : list A) i x, (i < length l)%nat -> nth_error (set_nth i x l) i = Some x.
Proof. induction l as [|y l IH]; intros [|i] x H; cbn in *; try lia; auto. apply IH. lia. Qed.
Lemma set_nth_other {A} : forall (l : list A) i j x, i <> j -> nth_error (set_nth i x l) j = nth_error l j.
Proof. induction l as [|y l IH]; intros [|i] [|j] x H; cbn; auto; try congruence. Qed.
Lemma on_neuron_at f i s : local f -> let s' := on_neuron f i s in
  length (fst s') = length (fst s) /\ map ts_to (snd s') = map ts_to (snd s) /\
  (forall j, j <> i -> nth_error (fst s') j = nth_error (fst s) j /\ connected j (snd s') = connected j (snd s)) /\
  (forall n, nth_error (fst s) i = Some n -> forall n' c', f i n (connected i (snd s)) = (n', c') ->
     nth_error (fst s') i = Some n' /\ connected i (snd s') = c').
Proof.
  intros Hf. cbn zeta. unfold on_neuron. destruct (nth_error (fst s) i) as [n|] eqn:E.
  - destruct (f i n (snd s)) as [n1 l1] eqn:Ef. destruct (Hf i n (snd s) n1 l1 Ef) as (F1 & F2 & F3). cbn [fst snd].
    split; [apply set_nth_length|]. split; [exact F3|]. split.
    + intros j Hj. split; [apply set_nth_other; congruence|]. now apply F2.
    + intros n0 [= <-] n' c' Hc. rewrite F1 in Hc. injection Hc as <- <-. split; [|reflexivity].
      apply set_nth_same. apply nth_error_Some. congruence.
  - repeat split; auto; discriminate.
Qed.
Lemma for_neurons_at f : local f -> forall idx s, NoDup idx -> let s' := for_neurons f idx s in
  length (fst s') = length (fst s) /\ map ts_to (snd s') = map ts_to (snd s) /\
  (forall j, ~ In j idx -> nth_error (fst s') j = nth_error (fst s) j /\ connected j (snd s') = connected j (snd s)) /\
  (forall j n, In j idx -> nth_error (fst s) j = Some n -> forall n' c', f j n (connected j (snd s)) = (n', c') ->
     nth_error (fst s') j = Some n' /\ connected j (snd s') = c').
Proof.
  intros Hf. induction idx as [|i idx IH]; intros s Hd; cbn zeta; cbn [for_neurons fold_left].
  - repeat split; auto; contradiction.
  - inversion Hd as [|? ? Hi Hd']; subst. destruct (on_neuron_at f i s Hf) as (O1 & O2 & O3 & O4).
    specialize (IH (on_neuron f i s) Hd'). unfold for_neurons in IH. cbn zeta in IH. destruct IH as (I1 & I2 & I3 & I4).
    fold (for_neurons f) in *. split; [congruence|]. split; [congruence|]. split.
    + intros j Hj. cbn in Hj. destruct (I3 j) as [X Y]; [tauto|]. destruct (O3 j) as [X' Y']; [intros ->; tauto|]. split; congruence.
    + intros j n Hj Hn n' c' Hc. destruct (Nat.eq_dec j i) as [->|Hne].
      * destruct (I3 i Hi) as [X Y]. destruct (O4 n Hn n' c' Hc) as [X' Y']. split; congruence.
      * destruct Hj as [->|Hj]; [contradiction|]. destruct (O3 j Hne) as [X' Y'].
        apply (I4 j n Hj); [congruence|]. now rewrite Y'.
Qed.

(** What training does to neuron [j] with its own synapses [c]. *)
Definition train_neuron (damp : Q -> Q) (step : N) (spiked : bool) (j : nat) (n : tneu) (c : list tsyn) : tneu * list tsyn :=
  let (n, c) := if spiked then spiking_neuron damp step j n c else (n, c) in
  let (n, c) := dopamine_neuron damp step j n c in
  renorm_neuron step j n c.
Lemma train_at damp step spikes ns l : NoDup spikes -> forall ns' l', train damp step spikes (ns, l) = (ns', l') ->
  length ns' = length ns /\ map ts_to l' = map ts_to l /\
  (forall j n, nth_error ns j = Some n -> exists n' c',
     train_neuron damp step (existsb (Nat.eqb j) spikes) j n (connected j l) = (n', c') /\ nth_error ns' j = Some n' /\ connected j l' = c') /\
  (forall j, (length ns <= j)%nat -> connected j l' = connected j l).
Proof.
  intros Hd ns' l' H. unfold train in H. cbn zeta in H.
  destruct (for_neurons_at _ (spiking_local damp step) spikes (ns, l) Hd) as (A1 & A2 & A3 & A4).
  set (s1 := for_neurons (spiking_neuron damp step) spikes (ns, l)) in *. cbn [fst snd] in *.
  destruct (for_neurons_at _ (dopamine_local damp step) (seq 0 (length (fst s1))) s1 (seq_NoDup _ _)) as (B1 & B2 & B3 & B4).
  set (s2 := for_neurons (dopamine_neuron damp step) (seq 0 (length (fst s1))) s1) in *.
  destruct (for_neurons_at _ (renorm_local step) (seq 0 (length (fst s2))) s2 (seq_NoDup _ _)) as (C1 & C2 & C3 & C4).
  rewrite H in *. cbn [fst snd] in *. split; [congruence|]. split; [congruence|]. split.
  - intros j n Hn. assert (Hj : (j < length ns)%nat) by (apply nth_error_Some; congruence).
    unfold train_neuron.
    assert (X1 : exists n1 c1, (if existsb (Nat.eqb j) spikes then spiking_neuron damp step j n (connected j l) else (n, connected j l)) = (n1, c1) /\
       nth_error (fst s1) j = Some n1 /\ connected j (snd s1) = c1).
    { destruct (existsb (Nat.eqb j) spikes) eqn:E.
      - apply existsb_exists in E as (x & Hx & Ex). apply Nat.eqb_eq in Ex. subst x.
        destruct (spiking_neuron damp step j n (connected j l)) as [n1 c1] eqn:Es. exists n1, c1. split; [reflexivity|]. now apply (A4 j n).
      - exists n, (connected j l). split; [reflexivity|]. destruct (A3 j) as [X Y]; [|split; congruence].
        intros Hin. assert (existsb (Nat.eqb j) spikes = true) by (apply existsb_exists; exists j; split; [exact Hin|apply Nat.eqb_refl]). congruence. }
    destruct X1 as (n1 & c1 & E1 & N1 & L1). rewrite E1.
    destruct (dopamine_neuron damp step j n1 c1) as [n2 c2] eqn:E2.
    destruct (B4 j n1) with (n' := n2) (c' := c2) as [N2 L2]; [apply in_seq; rewrite A1; lia|exact N1|now rewrite L1|].
    destruct (renorm_neuron step j n2 c2) as [n3 c3] eqn:E3. exists n3, c3. split; [reflexivity|].
    apply (C4 j n2); [apply in_seq; rewrite B1, A1; lia|exact N2|now rewrite L2].
  - intros j Hj. assert (Hs : connected j (snd s1) = connected j l).
    { assert (forall idx s, connected j (snd (for_neurons (spiking_neuron damp step) idx s)) = connected j (snd s) \/ (j < length (fst s))%nat).
      { induction idx as [|i idx IH]; intros s; cbn [for_neurons fold_left]; [now left|].
        destruct (on_neuron_at _ i s (spiking_local damp step)) as (O1 & O2 & O3 & O4). cbn zeta in *.
        destruct (Nat.lt_ge_cases j (length (fst s))) as [|Hge]; [now right|]. left.
        destruct (IH (on_neuron (spiking_neuron damp step) i s)) as [X|X]; [|rewrite O1 in X; lia].
        unfold for_neurons in X. rewrite X. destruct (Nat.eq_dec j i) as [->|Hne]; [|now apply O3].
        unfold on_neuron. assert (E : nth_error (fst s) i = None) by (apply nth_error_None; lia). rewrite E. reflexivity. }
      destruct (H0 spikes (ns, l)) as [X|X]; [exact X|cbn in X; lia]. }
    destruct (B3 j) as [_ Y]; [rewrite in_seq; lia|]. destruct (C3 j) as [_ Z]; [rewrite in_seq; lia|]. congruence.
Qed.

(** ** Conservation *)
Lemma each_total i g : (forall n s, tn_free (fst (g n s)) + ts_res (snd (g n s)) == tn_free n + ts_res s) -> forall l n n' l',
  each i g n l = (n', l') -> total n' l' == total n l.
Proof.
  intros Hg. unfold total. induction l as [|s l IH]; intros n n' l' H; cbn [each] in H.
  - injection H as <- <-. reflexivity.
  - destruct (ts_to s =? i)%nat.
    + specialize (Hg n s). destruct (g n s) as [n1 s1]. cbn [fst snd] in Hg. destruct (each i g n1 l) as [n2 t2] eqn:E2. injection H as <- <-.
      specialize (IH n1 n2 t2 E2). cbn [resources fold_right] in *. fold (resources t2) (resources l). lra.
    + destruct (each i g n l) as [n2 t2] eqn:E2. injection H as <- <-. specialize (IH n n2 t2 E2).
      cbn [resources fold_right] in *. fold (resources t2) (resources l). lra.
Qed.
Lemma each_keeps {B} (p : tneu -> B) i g : (forall n s, p (fst (g n s)) = p n) -> forall l n, p (fst (each i g n l)) = p n.
Proof.
  intros Hg. induction l as [|s l IH]; intros n; cbn [each]; [reflexivity|]. destruct (ts_to s =? i)%nat.
  - specialize (Hg n s). destruct (g n s) as [n1 s1]. cbn [fst] in Hg. specialize (IH n1). destruct (each i g n1 l). cbn [fst] in *. congruence.
  - specialize (IH n). destruct (each i g n l). exact IH.
Qed.
Lemma spiking_total damp step i n l n' l' : spiking_neuron damp step i n l = (n', l') -> total n' l' == total n l.
Proof.
  unfold spiking_neuron. cbn zeta.
  match goal with |- context [each i (mark step) ?a l] => set (n0 := a) end. intros H.
  assert (E0 : tn_free n0 = tn_free n).
  { unfold n0. cbn. match goal with |- context [if ?b then _ else _] => destruct b end; cbn; unfold update_isi;
    repeat match goal with |- context [if ?b then _ else _] => destruct b | |- context [match tn_status ?x with _ => _ end] => destruct (tn_status x) end; reflexivity. }
  destruct (each i (mark step) n0 l) as [n1 l1] eqn:E1.
  apply each_total in E1; [|intros m s; unfold mark; cbn [fst snd]; destruct (_ || _); cbn; reflexivity].
  set (n2 := set_add_thr (tn_add_thr n1 * tn_coef n1) n1) in *.
  assert (T0 : total n0 l == total n l) by (unfold total; rewrite E0; reflexivity).
  assert (T2 : total n2 l1 == total n l) by (unfold total in *; cbn; lra).
  destruct (if negb (isi_eqb (tn_status n2) period_continued) then each i unhebb n2 l1 else (n2, l1)) as [n3 l3] eqn:E3.
  assert (T3 : total n3 l3 == total n l).
  { match type of E3 with (if ?b then _ else _) = _ => destruct b end; [|injection E3 as <- <-; exact T2]. apply each_total in E3; [lra|]. intros m s; reflexivity. }
  destruct (if negb (isi_eqb (tn_status n3) is_forced) then each i (hebb damp) n3 l3 else (n3, l3)) as [n4 l4] eqn:E4.
  assert (T4 : total n4 l4 == total n l).
  { match type of E4 with (if ?b then _ else _) = _ => destruct b end; [|injection E4 as <- <-; exact T3]. apply each_total in E4; [lra|].
    intros m s. unfold hebb. cbn zeta. destruct (_ && _); cbn; ring. }
  apply each_total in H; [lra|]. intros m s; reflexivity.
Qed.
Lemma stability_change_free step n : tn_free (stability_change step n) = tn_free n.
Proof. unfold stability_change. destruct (_ || _); reflexivity. Qed.
Lemma dopamine_total damp step i n l n' l' : dopamine_neuron damp step i n l = (n', l') -> total n' l' == total n l.
Proof.
  unfold dopamine_neuron. destruct (dopamine_acts n); [|intros [= <- <-]; reflexivity].
  destruct (each i (reward damp step) n l) as [n1 l1] eqn:E1. intros H.
  apply each_total in E1; [|intros m s; unfold reward; destruct (_ && _); cbn; ring].
  apply each_total in H; [|intros m s; reflexivity]. rewrite H, <- E1. unfold total. now rewrite stability_change_free.
Qed.
Lemma give_each i d : forall l n n' l', each i (give d) n l = (n', l') -> n' = n /\
  resources l' == resources l + inject_Z (Z.of_nat (length (connected i l))) * d.
Proof.
  induction l as [|s l IH]; intros n n' l' H; cbn [each] in H.
  - injection H as <- <-. split; [reflexivity|]. cbn. ring.
  - unfold connected. cbn [filter]. fold (connected i l). destruct (ts_to s =? i)%nat.
    + unfold give in H at 1. destruct (each i (give d) n l) as [n2 t2] eqn:E2. injection H as <- <-.
      destruct (IH n n2 t2 E2) as [-> R]. split; [reflexivity|]. cbn [resources fold_right length]. fold (resources t2) (resources l).
      rewrite R. cbn [ts_res set_syn]. rewrite Nat2Z.inj_succ. unfold Z.succ. rewrite inject_Z_plus. ring.
    + destruct (each i (give d) n l) as [n2 t2] eqn:E2. injection H as <- <-. destruct (IH n n2 t2 E2) as [-> R].
      split; [reflexivity|]. cbn [resources fold_right]. fold (resources t2) (resources l). rewrite R. ring.
Qed.
(** what renormalisation loses *)
Definition lost (n : tneu) (k : nat) : Q := tn_free n - inject_Z (Z.of_nat k) * share n k.
Lemma renorm_total step i n l n' l' : renorm_neuron step i n l = (n', l') ->
  (renorm_acts step n = false /\ n' = n /\ l' = l) \/
  (renorm_acts step n = true /\ total n' l' == total n l - lost n (length (connected i l)) /\ tn_free n' == 0).
Proof.
  unfold renorm_neuron. destruct (renorm_acts step n); [|intros [= <- <-]; left; auto]. right. split; [reflexivity|].
  destruct (each i (give _) n l) as [n1 l1] eqn:E1. apply give_each in E1 as [-> R].
  pose proof (each_keeps tn_free i recalc_each (fun m s => eq_refl) l1 (set_free 0 n)) as K. rewrite H in K. cbn [fst] in K.
  apply each_total in H; [|intros m s; reflexivity]. split.
  - rewrite H. unfold total, lost. cbn [set_free tn_free]. rewrite R. ring.
  - rewrite K. cbn. reflexivity.
Qed.
Lemma lost_none n k : tn_drain n = 0%N -> (0 < k)%nat -> lost n k == 0.
Proof.
  intros Hd Hk. unfold lost, share. rewrite Hd. cbn [Z.of_N]. rewrite Z.add_0_r. field.
  intros E. unfold Qeq in E. cbn in E. lia.
Qed.
Lemma update_isi_keeps step n : tn_drain (update_isi step n) = tn_drain n /\ tn_free (update_isi step n) = tn_free n.
Proof.
  unfold update_isi. repeat match goal with |- context [if ?b then _ else _] => destruct b | |- context [match tn_status ?x with _ => _ end] => destruct (tn_status x) end; split; reflexivity.
Qed.
Lemma spiking_drain damp step i n l : tn_drain (fst (spiking_neuron damp step i n l)) = tn_drain n.
Proof.
  unfold spiking_neuron. cbn zeta.
  match goal with |- context [each i (mark step) ?a l] => set (n0 := a) end.
  assert (E0 : tn_drain n0 = tn_drain n).
  { unfold n0. destruct (update_isi_keeps step (set_last_spike step n)) as [U _]. cbn [set_add_thr tn_drain].
    match goal with |- context [if ?b then _ else _] => destruct b end; cbn [set_stab tn_drain]; exact U. }
  pose proof (each_keeps tn_drain i (mark step) (fun m s => eq_refl) l n0) as K1.
  destruct (each i (mark step) n0 l) as [n1 l1]. cbn [fst] in K1.
  set (n2 := set_add_thr (tn_add_thr n1 * tn_coef n1) n1) in *. assert (K2 : tn_drain n2 = tn_drain n1) by reflexivity.
  pose proof (each_keeps tn_drain i unhebb (fun m s => eq_refl) l1 n2) as K3.
  destruct (if negb (isi_eqb (tn_status n2) period_continued) then each i unhebb n2 l1 else (n2, l1)) as [n3 l3] eqn:E3.
  assert (K3' : tn_drain n3 = tn_drain n2) by (match type of E3 with (if ?b then _ else _) = _ => destruct b end; [rewrite E3 in K3; exact K3|injection E3 as <- <-; reflexivity]).
  assert (Hh : forall m s, tn_drain (fst (hebb damp m s)) = tn_drain m) by (intros m s; unfold hebb; cbn zeta; destruct (_ && _); reflexivity).
  pose proof (each_keeps tn_drain i (hebb damp) Hh l3 n3) as K4.
  destruct (if negb (isi_eqb (tn_status n3) is_forced) then each i (hebb damp) n3 l3 else (n3, l3)) as [n4 l4] eqn:E4.
  assert (K4' : tn_drain n4 = tn_drain n3) by (match type of E4 with (if ?b then _ else _) = _ => destruct b end; [rewrite E4 in K4; exact K4|injection E4 as <- <-; reflexivity]).
  rewrite (each_keeps tn_drain i recalc_each (fun m s => eq_refl) l4 n4). congruence.
Qed.
Lemma dopamine_drain damp step i n l : tn_drain (fst (dopamine_neuron damp step i n l)) = tn_drain n.
Proof.
  unfold dopamine_neuron. destruct (dopamine_acts n); [|reflexivity].
  assert (Hr : forall m s, tn_drain (fst (reward damp step m s)) = tn_drain m) by (intros m s; unfold reward; destruct (_ && _); reflexivity).
  pose proof (each_keeps tn_drain i (reward damp step) Hr l n) as K. destruct (each i (reward damp step) n l) as [n1 l1]. cbn [fst] in K.
  rewrite (each_keeps tn_drain i recalc_each (fun m s => eq_refl) l1 _). unfold stability_change. destruct (_ || _); exact K.
Qed.
Lemma connected_length j l l' : map ts_to l' = map ts_to l -> length (connected j l') = length (connected j l).
Proof.
  revert l'. induction l as [|s l IH]; intros [|s' l'] H; cbn in H; try discriminate; [reflexivity|].
  injection H as H1 H2. unfold connected. cbn [filter]. rewrite H1. destruct (ts_to s =? j)%nat; cbn [length]; [f_equal|]; now apply IH.
Qed.
Lemma connected_own j l : Forall (fun s => ts_to s = j) l -> connected j l = l.
Proof. induction 1 as [|s l H F IH]; [reflexivity|]. unfold connected in *. cbn [filter]. now rewrite H, Nat.eqb_refl, IH. Qed.
Lemma train_neuron_total damp step spiked j n c n' c' : Forall (fun s => ts_to s = j) c -> train_neuron damp step spiked j n c = (n', c') ->
  total n' c' == total n c \/
  exists f, tn_free n' == 0 /\ total n' c' == total n c - (f - inject_Z (Z.of_nat (length c)) * (f / inject_Z (Z.of_nat (length c) + Z.of_N (tn_drain n)))).
Proof.
  intros Hc H. unfold train_neuron in H.
  destruct (if spiked then spiking_neuron damp step j n c else (n, c)) as [n1 c1] eqn:E1.
  assert (T1 : total n1 c1 == total n c /\ map ts_to c1 = map ts_to c /\ tn_drain n1 = tn_drain n).
  { destruct spiked; [|injection E1 as <- <-; repeat split; reflexivity].
    pose proof (spiking_drain damp step j n c) as D. rewrite E1 in D.
    split; [now apply spiking_total in E1|]. split; [|exact D]. now apply (spiking_local damp step) in E1. }
  destruct (dopamine_neuron damp step j n1 c1) as [n2 c2] eqn:E2.
  assert (T2 : total n2 c2 == total n1 c1 /\ map ts_to c2 = map ts_to c1 /\ tn_drain n2 = tn_drain n1).
  { pose proof (dopamine_drain damp step j n1 c1) as D. rewrite E2 in D.
    split; [now apply dopamine_total in E2|]. split; [|exact D]. now apply (dopamine_local damp step) in E2. }
  destruct T1 as (T1 & M1 & D1), T2 as (T2 & M2 & D2).
  destruct (renorm_total step j n2 c2 n' c' H) as [(_ & -> & ->)|(_ & R1 & R2)]; [left; lra|]. right.
  exists (tn_free n2). split; [exact R2|]. rewrite R1, T2, T1. unfold lost, share. rewrite D2, D1.
  assert (L : length (connected j c2) = length c).
  { rewrite (connected_length j c c2) by congruence. now rewrite connected_own. }
  rewrite L. reflexivity.
Qed.
