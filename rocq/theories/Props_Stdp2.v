(** Property theorems C75, C76: what one training does, exactly; Hebbian plasticity once
    in a period. *)
From Coq Require Import QArith Qabs Lqa.
From Verif Require Import Base ListLemmas Stdp_Model Stdp_Spec Stdp_Spec2 Stdp_Proofs Stdp_Proofs2 Stdp_Proofs3.
Local Open Scope Q_scope.

(** *** C75 *)
(** One training of a population, for neuron [j] and the synapses that lead to it: the
    effect of its spike, if it spiked (Stdp_Spec2.spike_effect), then that of dopamine,
    if it feels any (dopamine_effect), then that of renormalisation, if it is due
    (renorm_effect); nothing else happens to them. *)
Theorem c75_training damp step spikes ns l ns' l' j n :
  NoDup spikes -> train damp step spikes (ns, l) = (ns', l') -> nth_error ns j = Some n ->
  (tn_last_spike n <= step)%N -> (tn_last n <= step)%N -> (step < two64)%N ->
  exists n1 c1 n2 c2 n3,
    (In j spikes -> spike_effect damp step n (own j l) n1 c1 /\ tn_status n1 = tn_status (update_isi step n)) /\
    (~ In j spikes -> n1 = n /\ c1 = own j l) /\
    (dopamine_felt n1 -> dopamine_effect damp step n1 c1 n2 c2 /\ tn_stab n2 = tn_stab (stability_change step n1)) /\
    (~ dopamine_felt n1 -> n2 = n1 /\ c2 = c1) /\
    (renormalised step n2 -> renorm_effect n2 c2 n3 (own j l')) /\
    (~ renormalised step n2 -> n3 = n2 /\ own j l' = c2) /\
    nth_error ns' j = Some n3.
Proof.
  intros Hd H Hn Hl1 Hl2 Hw. destruct (train_at damp step spikes ns l Hd ns' l' H) as (_ & _ & T & _).
  destruct (T j n Hn) as (n' & c' & Et & Hn' & Hc'). unfold train_neuron in Et. change (connected j) with (own j) in *.
  assert (Ho : Forall (fun s => ts_to s = j) (own j l)) by apply connected_to.
  set (sp := if existsb (Nat.eqb j) spikes then spiking_neuron damp step j n (own j l) else (n, own j l)) in Et.
  assert (Hs : (In j spikes -> sp = spiking_neuron damp step j n (own j l)) /\ (~ In j spikes -> sp = (n, own j l))).
  { unfold sp. rewrite <- existsb_In. destruct (existsb _ _); split; intros X; try reflexivity; congruence. }
  destruct sp as [n1 c1]. destruct Hs as [Hs1 Hs2].
  assert (X1 : (In j spikes -> spike_effect damp step n (own j l) n1 c1 /\ tn_status n1 = tn_status (update_isi step n)) /\ Forall (fun s => ts_to s = j) c1 /\ (tn_last_spike n1 <= step)%N /\ (tn_last n1 <= step)%N).
  { destruct (in_dec Nat.eq_dec j spikes) as [Hi|Hi].
    - specialize (Hs1 Hi). destruct (spiking_effect damp step j n (own j l) Ho) as (E & S1 & S2 & S3). rewrite <- Hs1 in E, S1, S2, S3. cbn [fst snd] in *.
      split; [intros _; split; assumption|]. split; [eapply F2_to; [|exact (proj1 E)|exact Ho]; intros s s' (Y & _); apply Y|].
      destruct E as (_ & E & _). split; [lia|]. rewrite S3. unfold update_isi.
      destruct (tn_forced n), (tn_status n); repeat match goal with |- context [if ?b then _ else _] => destruct b end; cbn [tn_last set_status]; lia.
    - specialize (Hs2 Hi). injection Hs2 as -> ->. split; [contradiction|]. auto. }
  destruct X1 as (X1 & Hc1 & L1 & L2).
  destruct (dopamine_effect_ok damp step j n1 c1 Hc1 L1 Hw) as [D1 D2]. destruct (dopamine_neuron damp step j n1 c1) as [n2 c2]. cbn [fst snd] in *.
  assert (X2 : Forall (fun s => ts_to s = j) c2 /\ (tn_last n2 <= step)%N).
  { destruct (bool_cases (dopamine_acts n1)) as [A|A].
    - apply acts_felt in A. destruct (D1 A) as [(E1 & E2 & E3) _]. split; [eapply F2_to; [|exact E1|exact Hc1]; intros s s' (Y & _); apply Y|].
      destruct E3 as (_ & _ & _ & -> & _). exact L2.
    - assert (A' : ~ dopamine_felt n1) by (rewrite <- acts_felt; congruence). specialize (D2 A'). injection D2 as -> ->. auto. }
  destruct X2 as [Hc2 L3]. destruct (renorm_effect_ok step j n2 c2 Hc2 L3 Hw) as [R1 R2]. rewrite Et in R1, R2. cbn [fst snd] in *.
  exists n1, c1, n2, c2, n'. subst c'. split; [exact X1|]. split; [intros Hi; specialize (Hs2 Hi); now injection Hs2|].
  split; [exact D1|]. split; [intros Hi; specialize (D2 Hi); now injection D2|]. split; [exact R1|]. split; [intros Hi; specialize (R2 Hi); now injection R2|]. exact Hn'.
Qed.
Print Assumptions c75_training.

(** Documented: the value stability_change_at_isi_ is added to the stability at the
    beginning of each ISI period.  The code takes it away. *)
Theorem c75_stability_at_isi_refuted damp step spikes ns l ns' l' j n :
  NoDup spikes -> train damp step spikes (ns, l) = (ns', l') -> nth_error ns j = Some n -> In j spikes ->
  (step < two64)%N -> (tn_last_spike n <= step)%N -> (tn_last n <= step)%N ->
  tn_status (update_isi step n) = period_started -> tn_dopa n == 0 -> Qabs (tn_free n) < tn_thr n -> own j l = [] ->
  exists n', nth_error ns' j = Some n' /\ tn_stab n' == tn_stab n - tn_stab_isi n.
Proof.
  intros Hd H Hn Hi Hw L1 L2 Hst Hdo Hf Ho.
  destruct (c75_training damp step spikes ns l ns' l' j n Hd H Hn L1 L2 Hw) as (n1 & c1 & n2 & c2 & n3 & A1 & _ & A3 & A4 & A5 & A6 & A7).
  destruct (A1 Hi) as [(E1 & E2 & E3 & E4 & E5 & E6) Es].
  assert (X : ~ dopamine_felt n1) by (unfold dopamine_felt; destruct E6 as (-> & _); intros [?|[? _]]; lra).
  destruct (A4 X) as [-> ->]. rewrite Ho in E1. inversion E1; subst c1. rewrite Ho in E5. cbn in E5.
  assert (Y : ~ renormalised step n1).
  { intros [_ Y]. destruct E6 as (_ & _ & _ & _ & E6 & _). rewrite E6 in Y. assert (Z : tn_free n1 == tn_free n) by lra.
    assert (Z' : Qabs (tn_free n1) == Qabs (tn_free n)) by now rewrite Z. lra. }
  destruct (A6 Y) as [-> _]. exists n1. split; [exact A7|]. rewrite E3, Es, Hst. reflexivity.
Qed.
Print Assumptions c75_stability_at_isi_refuted.

Definition ex_s (contrib hebb : bool) : tsyn := mkTS 0 1 0 1 (-1) 1 (1 # 4) 10 95 hebb contrib.
Definition ex_n (dopa : Q) : tneu := mkTN (1 # 2) 5 0 1 0 0 1 1 10 (1 # 2) not_in_period 0 0 0 false dopa 0.
Example c75_met : let '(ns', l') := train (fun _ => 1) 97 [0%nat] ([ex_n 3], [ex_s false false; mkTS 0 1 0 1 (-1) 1 (1 # 4) 10 20 true true]) in
  forallb (fun sq => Qeq_bool (ts_res (fst sq)) (snd sq)) (combine l' [17 # 4; 3 # 4]) = true /\ map ts_contrib l' = [true; false] /\ map ts_hebb l' = [true; false] /\
  forallb (fun n => Qeq_bool (tn_free n) (- (3))) ns' = true.
Proof. vm_compute. auto. Qed.
Example c75_met_hyps : NoDup [0%nat] /\ nth_error [ex_n 3] 0 = Some (ex_n 3) /\ (tn_last_spike (ex_n 3) <= 97)%N /\ (tn_last (ex_n 3) <= 97)%N /\ (97 < two64)%N /\
  dopamine_felt (ex_n 3) /\ ~ dopamine_felt (ex_n 0).
Proof.
  split; [repeat constructor; intros []|]. split; [reflexivity|]. split; [discriminate|]. split; [discriminate|]. split; [reflexivity|]. split; [left; reflexivity|].
  intros [H|[H _]]; vm_compute in H; discriminate.
Qed.

(** *** C76 *)
(** In one ISI period a synapse is strengthened at most once: after it has been, it is
    not again until a spike of the neuron that does not continue the period. *)
Theorem c76_once damp tr s j x a b :
  Forall (fun t => NoDup (snd t)) tr -> (a < b)%nat -> strengthens damp tr s a j x ->
  (forall k p, (a < k <= b)%nat -> spikes_in damp tr s k j p -> p = period_continued) ->
  ~ strengthens damp tr s b j x.
Proof.
  intros Hd Hab Ha Hp Hb.
  assert (Tr : forall k t, nth_error tr k = Some t -> NoDup (snd t)) by (intros k t Hk; rewrite Forall_forall in Hd; apply Hd; eapply nth_error_In; exact Hk).
  destruct Hb as (stepb & spb & nb & yb & Hb1 & Hb2 & Hb3 & Hb4 & Hb5).
  assert (Flag : forall k, (a < k <= b)%nat -> exists n y, nth_error (fst (after damp tr k s)) j = Some n /\ nth_error (own j (snd (after damp tr k s))) x = Some y /\ ts_hebb y = true).
  { induction k as [|k IH]; intros Hk; [lia|].
    assert (Hlen : (k < length tr)%nat) by (assert (b < length tr)%nat by (apply nth_error_Some; congruence); lia).
    destruct (nth_error tr k) as [[step sp]|] eqn:Ek; [|apply nth_error_None in Ek; lia].
    pose proof (Tr k _ Ek) as Hnd. cbn [snd] in Hnd. rewrite (after_S damp tr k s _ Ek). cbn [fst snd].
    destruct (Nat.eq_dec k a) as [->|Hne].
    - destruct Ha as (step' & sp' & n & y & H1 & H2 & H3 & H4 & H5). rewrite Ek in H1. injection H1 as <- <-.
      destruct (train_keeps damp step sp (after damp tr a s) j n Hnd H3) as (n' & Hn').
      destruct (F2_nth _ _ _ (train_flags damp step sp (after damp tr a s) j n Hnd H3) x y H4) as (y' & Hy' & Hf & _).
      exists n', y'. split; [exact Hn'|]. split; [exact Hy'|]. rewrite (Hf H2), H5. reflexivity.
    - destruct IH as (n & y & H1 & H2 & H3); [lia|].
      destruct (train_keeps damp step sp (after damp tr k s) j n Hnd H1) as (n' & Hn').
      destruct (F2_nth _ _ _ (train_flags damp step sp (after damp tr k s) j n Hnd H1) x y H2) as (y' & Hy' & Hf1 & Hf2).
      exists n', y'. split; [exact Hn'|]. split; [exact Hy'|].
      destruct (in_dec Nat.eq_dec j sp) as [Hi|Hi]; [|now rewrite (Hf2 Hi)].
      rewrite (Hf1 Hi). rewrite <- (Hp k (tn_status (update_isi step n))); [rewrite (Hp k (tn_status (update_isi step n))); [cbn [isi_eqb]; rewrite H3; apply orb_true_r|lia|]|lia|].
      all: exists step, sp, n; auto. }
  destruct (Flag b) as (n & y & H1 & H2 & H3); [lia|]. assert (n = nb) by congruence. assert (y = yb) by congruence. subst n y.
  assert (E : tn_status (update_isi stepb nb) = period_continued).
  { apply (Hp b); [lia|]. exists stepb, spb, nb. auto. }
  unfold strengthened in Hb5. rewrite E, H3 in Hb5. cbn [isi_eqb negb andb] in Hb5. rewrite andb_false_r in Hb5. discriminate.
Qed.
Print Assumptions c76_once.

(** But with step numbers that grow no spike continues a period (C40): a synapse is
    strengthened at every spike, however close the spikes are. *)
Theorem c76_every_spike_refuted step n s :
  tn_status n <> period_continued -> tn_forced n = false -> (tn_last n < step)%N -> (step < 2 ^ 63)%N -> (tn_isi_max n < 2 ^ 32)%N ->
  had_spike step s = true -> strengthened step (tn_status (update_isi step n)) s = true /\ tn_status (update_isi step n) = period_started.
Proof.
  intros Hst Hf Hl Hw Hm Hs.
  assert (E : tn_status (update_isi step n) = period_started).
  { unfold update_isi. rewrite Hf. destruct (tn_status n); try reflexivity; [|congruence]. rewrite isi_wrap by assumption. reflexivity. }
  rewrite E. split; [|reflexivity]. unfold strengthened, contributes. rewrite Hs. reflexivity.
Qed.
Print Assumptions c76_every_spike_refuted.
(** Two spikes two steps apart, isi_max_ 10: the synapse is strengthened twice. *)
Example c76_twice : let tr := [(97%N, [0%nat]); (99%N, [0%nat])] in
  let s0 := ([ex_n 0], [ex_s false false]) in
  strengthens (fun _ => 1) tr s0 0 0 0 /\ strengthens (fun _ => 1) tr s0 1 0 0.
Proof.
  cbn zeta. split.
  - eexists _, _, _, _. split; [reflexivity|]. split; [now left|]. split; [reflexivity|]. split; [reflexivity|]. vm_compute. reflexivity.
  - eexists _, _, _, _. split; [reflexivity|]. split; [now left|]. split; [vm_compute; reflexivity|]. split; [vm_compute; reflexivity|]. vm_compute. reflexivity.
Qed.
(** A case that meets the hypotheses of [c76_once]: the period continues when the steps
    of the spikes do not grow. *)
Example c76_met : let tr := [(97%N, [0%nat]); (97%N, [0%nat])] in let s0 := ([ex_n 0], [ex_s false false]) in
  strengthens (fun _ => 1) tr s0 0 0 0 /\ spikes_in (fun _ => 1) tr s0 1 0 period_continued.
Proof.
  cbn zeta. split.
  - eexists _, _, _, _. split; [reflexivity|]. split; [now left|]. split; [reflexivity|]. split; [reflexivity|]. vm_compute. reflexivity.
  - eexists _, _, _. split; [reflexivity|]. split; [now left|]. split; vm_compute; reflexivity.
Qed.
