(** Theorems C28, C30-C37: neurons and populations. *)
From Coq Require Import Sorted.
From Verif Require Import Base Messaging_Model Projection_Model Delta_Model Delta_Spec Delta_Proofs2 Props_Delta
  Neuron_Model Neuron_Spec Neuron_Proofs Neuron_Proofs2 Neuron_Proofs3.

Definition ex_i (t : output_type) (v : Z) (to : N) : impact := mkImpact 0 (f_of_Z v) t 0 to.
Definition ex_lif_par : lif_par := mkLifPar (f_of_Z 0) (f_of_Z 10) (f_of_Z 1) 2.

Lemma bl_rest_eq stdp p n : b_pot (bl_prestep stdp p n) = bl_rest p n.
Proof. unfold bl_prestep, bl_rest. destruct (N.eqb (b_phase n) 1); reflexivity. Qed.
Lemma al_leaked_eq p v : al_leaked p v = al_leak p v.
Proof. unfold al_leaked, al_leak. do 2 f_equal. destruct (ap_rev p && f_lt v (S754_zero false)); lia. Qed.
Lemma bl_count_eq z : bl_next_block z = bl_count z.
Proof.
  unfold bl_next_block, bl_count. rewrite Z.gtb_ltb. destruct (Z.eqb_spec z (-1)) as [->|]; [reflexivity|].
  destruct (Z.ltb_spec z 0); [destruct (Z.eqb_spec (z + 1) 0); lia|]. destruct (Z.ltb_spec 0 z), (Z.eqb_spec z 0); lia.
Qed.
Lemma al_count_eq z : al_next_time z = al_count z.
Proof.
  unfold al_next_time, al_count. rewrite Z.gtb_ltb.
  destruct (Z.leb_spec (-1) z), (Z.leb_spec z 1), (Z.ltb_spec 0 z), (Z.ltb_spec z 0); cbn [andb]; try lia;
    repeat match goal with |- context [(?a =? 0)%Z] => destruct (Z.eqb_spec a 0) end; lia.
Qed.

(** *** C30 *)
(** A LIF step with currents is always defined; it spikes exactly if the neuron is
    not refractory and its potential, after leak and impacts, exceeds the
    threshold; a spike sets the reset potential. *)
Theorem c30_spike_iff p n l : currents_only l -> exists n' b, lif_step p n l = Ret (n', b) /\
  (b = true <-> l_cnt n = 0%N /\ f_gt (f_drive (f_mul (l_pot n) (lp_leak p)) l) (lp_thr p) = true) /\
  (b = true -> l_pot n' = lp_reset p /\ l_cnt n' = lp_period p) /\
  (b = false -> l_cnt n = 0%N -> l_pot n' = f_drive (f_mul (l_pot n) (lp_leak p)) l /\ l_cnt n' = 0%N).
Proof.
  intros Hl. destruct (lif_step p n l) as [[n' b]| |] eqn:E.
  - exists n', b. split; [reflexivity|]. now apply lif_spike_iff.
  - rewrite (lif_step_eq p n l Hl) in E. discriminate.
  - rewrite (lif_step_eq p n l Hl) in E. discriminate.
Qed.
Print Assumptions c30_spike_iff.
(** After a spike: for up to refract_period_ steps no spike and a constant
    potential, whatever currents arrive; after exactly that many the neuron is no
    longer refractory (so that [c30_spike_iff] applies with [l_cnt = 0]). *)
Theorem c30_refractory p n l n1 ls :
  currents_only l -> lif_step p n l = Ret (n1, true) -> Forall currents_only ls -> (N.of_nat (length ls) <= lp_period p)%N ->
  exists n' bs, lif_run p n1 ls = Ret (n', bs) /\ Forall (fun b => b = false) bs /\ length bs = length ls /\
    l_pot n' = l_pot n1 /\ (N.of_nat (length ls) = lp_period p -> l_cnt n' = 0%N) /\
    (N.of_nat (length ls) < lp_period p -> l_cnt n' <> 0)%N.
Proof.
  intros Hl H HF Hlen. destruct (lif_spike_iff p n l n1 true Hl H) as (_ & K & _). destruct (K eq_refl) as [_ Kc].
  destruct (lif_refractory p ls n1 HF) as (n' & bs & E & Hb & L & Hp & Hc); [now rewrite Kc|].
  exists n', bs. repeat split; auto; rewrite Hc, Kc; lia.
Qed.
Print Assumptions c30_refractory.
(** The same seen from outside: in any run, the refract_period_ steps after a spike
    are silent. *)
Theorem c30_silence p n ls n' bs i j : Forall currents_only ls -> lif_run p n ls = Ret (n', bs) ->
  nth_error bs i = Some true -> i < j -> (N.of_nat (j - i) <= lp_period p)%N -> j < length bs -> nth_error bs j = Some false.
Proof. apply lif_silence. Qed.
Print Assumptions c30_silence.
(** Any other kind of impact throws (the model's outcome [Throw]). *)
Theorem c30_other_impacts_throw p n l1 i l2 : is_current i = false -> currents_only l1 -> lif_step p n (l1 ++ i :: l2) = Throw.
Proof. apply lif_other_type. Qed.
Print Assumptions c30_other_impacts_throw.
Example c30_hypotheses :
  let l := [ex_i EXCITATORY 11 0] in
  exists n', lif_run ex_lif_par (mkLif (f_of_Z 0) 0) [l; l; l; l; l] = Ret (n', [true; false; false; true; false]).
Proof. ex_compute. Qed.

(** *** C31 *)
(** In any run, from any state, of both variants: two spikes are more than
    absolute_refractory_period_ (32 bits) steps apart. *)
Theorem c31_refractory stdp p n ls n' bs i j :
  (bp_refract p < two32)%N -> bl_run stdp p n ls = Ret (n', bs) ->
  i < j -> nth_error bs i = Some true -> nth_error bs j = Some true -> (bp_refract p < N.of_nat (j - i))%N.
Proof. intros Hr H. now apply (bl_refractory stdp p ls n n' bs Hr H). Qed.
Print Assumptions c31_refractory.
Definition ex_bl_par (refract burst : N) (reflex : Z) : bl_par :=
  mkBlPar d_one d_zero d_zero d_zero d_zero d_zero d_zero d_one burst (d_of_Z reflex) (d_of_Z (-3)) refract d_zero (d_of_Z (-9)).
Example c31_hypotheses :
  let l := [ex_i EXCITATORY 5 0] in
  exists n', bl_run false (ex_bl_par 1 0 0) bl_default [l; l; l; l; l; l] = Ret (n', [false; false; true; false; true; false]).
Proof. ex_compute. Qed.

(** *** C32 *)
(** False: the default "steps since last firing" is 2^64-1, which the first step
    increments to 0, so the first step of a fresh neuron never spikes: for all
    parameters, states with that default and impacts. *)
Theorem c32_fresh_refuted stdp p n l n' b : b_since n = b_since bl_default -> bl_step stdp p n l = Ret (n', b) -> b = false.
Proof. intros H. now apply bl_wrapped. Qed.
Print Assumptions c32_fresh_refuted.
(** A neuron with default parameters, driven well above its threshold of 1. *)
Example c32_witness :
  let l := [ex_i EXCITATORY 5 0] in
  f_ge (d_drive (bl_rest bl_default_par bl_default) l) (bp_thr bl_default_par) = true /\
  (exists n', bl_step false bl_default_par bl_default l = Ret (n', false)) /\
  (exists n', bl_run false bl_default_par bl_default [l; l] = Ret (n', [false; true])).
Proof. cbv zeta. repeat split; ex_compute. Qed.
(** Partial: with any other counter value (2^64-2 and below), and always from the
    second step on, only the refractory period and the threshold decide. *)
Theorem c32_fires_partial stdp p n l : no_blocking l -> (0 < b_block n)%Z -> (b_since n < two64 - 1)%N ->
  exists n' b, bl_step stdp p n l = Ret (n', b) /\
  (b = true <-> (bp_refract p <= b_since n)%N /\
     f_ge (inhibited p (d_conductance (d_mul (b_inh n) (bp_inh_decay p)) l) (d_drive (bl_rest p n) l))
          (d_add (d_add (bp_thr p) (d_mul (b_dyn n) (bp_thr_decay p))) (bp_add p)) = true).
Proof.
  intros Hl Hb Hs. destruct (bl_step_total stdp p n l Hl) as (n' & b & E). exists n', b. split; [exact E|].
  rewrite (bl_fires_iff stdp p n l n' b Hl Hb E), bl_rest_eq. unfold add64, w64. rewrite N.mod_small.
  - rewrite N.add_1_r, N.lt_succ_r. reflexivity.
  - change two64 with 18446744073709551616%N in *. lia.
Qed.
Print Assumptions c32_fires_partial.

(** *** C33 *)
(** A blocking impact of value -k arrives: this step and the next k-1 steps have the
    same states and spikes for any two inputs that differ in currents only, and
    after exactly these k steps the neuron is not blocked any more. *)
Theorem c33_blocked stdp p n l l' ls ls' k :
  blocks_with l (- k)%Z -> same_apart_from_currents l l' -> Forall no_blocking ls -> Forall2 same_apart_from_currents ls ls' ->
  (1 <= k)%Z -> (Z.of_nat (S (length ls)) <= k)%Z ->
  exists n' bs, bl_run stdp p n (l :: ls) = Ret (n', bs) /\ bl_run stdp p n (l' :: ls') = Ret (n', bs) /\
    ((0 < b_block n')%Z <-> Z.of_nat (S (length ls)) = k).
Proof.
  intros H1 H2 H3 H4 H5 H6. destruct (blocked_from_impact stdp p n l l' ls ls' k H1 H2 H3 H4 H5 H6) as (n' & bs & R1 & R2 & R3).
  exists n', bs. repeat split; auto; rewrite R3; unfold after_block; destruct (Z.eqb_spec (Z.of_nat (S (length ls))) k); unfold int64_max; lia.
Qed.
Print Assumptions c33_blocked.
(** After that it reacts again: the currents decide whether it fires
    ([c32_fires_partial] for a state with a positive counter); e.g. after k steps. *)
Theorem c33_reacts_again stdp p n l ls k m bs lnext :
  blocks_with l (- k)%Z -> Forall no_blocking ls -> (1 <= k)%Z -> Z.of_nat (S (length ls)) = k ->
  bl_run stdp p n (l :: ls) = Ret (m, bs) -> no_blocking lnext -> exists n' b, bl_step stdp p m lnext = Ret (n', b) /\
  (b = true <-> (bp_refract p < add64 (b_since m) 1)%N /\
     f_ge (inhibited p (d_conductance (d_mul (b_inh m) (bp_inh_decay p)) lnext) (d_drive (bl_rest p m) lnext))
          (d_add (d_add (bp_thr p) (d_mul (b_dyn m) (bp_thr_decay p))) (bp_add p)) = true).
Proof.
  intros H1 H2 H3 H4 H5 H6.
  destruct (c33_blocked stdp p n l l ls ls k H1 eq_refl H2) as (n' & bs' & R1 & _ & R3); [|exact H3|lia|].
  - clear. induction ls; constructor; auto. reflexivity.
  - rewrite R1 in H5. injection H5 as -> ->. destruct (bl_step_total stdp p m lnext H6) as (q & b & E). exists q, b.
    split; [exact E|]. rewrite <- (bl_rest_eq stdp). apply (bl_fires_iff stdp p m lnext q b H6); [now apply R3|exact E].
Qed.
Print Assumptions c33_reacts_again.
(** Beside it: a blocking impact of value 0 (or a fraction truncated to 0) blocks for ever. *)
Theorem c33_zero_blocks_forever stdp p n ls ls' : b_block n = 0%Z -> Forall no_blocking ls -> Forall2 same_apart_from_currents ls ls' ->
  exists n' bs, bl_run stdp p n ls = Ret (n', bs) /\ bl_run stdp p n ls' = Ret (n', bs) /\ b_block n' = 0%Z.
Proof. intros. now apply blocked_forever. Qed.
Print Assumptions c33_zero_blocks_forever.
(** A positive counter is the number of steps the neuron still reacts to currents:
    after exactly that many steps without blocking impacts it is blocked, for
    ever, by the theorem before. *)
Theorem c33_active_period stdp p : forall ls n, Forall no_blocking ls -> (Z.of_nat (length ls) <= b_block n)%Z ->
  exists n' bs, bl_run stdp p n ls = Ret (n', bs) /\ b_block n' = (b_block n - Z.of_nat (length ls))%Z.
Proof.
  induction ls as [|l ls IH]; intros n F L; cbn [length] in *.
  - exists n, []. split; [reflexivity|lia].
  - apply Forall_cons_iff in F. destruct F as [F1 F2]. destruct (bl_step_total stdp p n l F1) as (m & b & E).
    pose proof (bl_step_block stdp p n l m b F1 E) as B. rewrite bl_count_eq in B. unfold bl_count in B.
    assert (Bm : b_block m = (b_block n - 1)%Z).
    { rewrite B. destruct (Z.eqb_spec (b_block n) (-1)); [lia|]. destruct (Z.ltb_spec (b_block n) 0); [lia|].
      destruct (Z.eqb_spec (b_block n) 0); lia. }
    destruct (IH m F2 ltac:(lia)) as (n' & bs & R & Bn). exists n', (b :: bs). unfold bl_run in *. cbn [neuron_run].
    fold (bl_step stdp p). rewrite E. cbn [obind fst snd]. rewrite R. cbn [obind fst snd]. split; [reflexivity|lia].
Qed.
Print Assumptions c33_active_period.
Example c33_hypotheses :
  let p := ex_bl_par 0 0 0 in let x := ex_i EXCITATORY 5 0 in let y := ex_i BLOCKING (-2) 0 in
  blocks_with [x; y] (-2) /\ same_apart_from_currents [x; y] [y] /\
  (exists n' bs, bl_run false p bl_default [[y; x]; [x]; [x]] = Ret (n', bs) /\ bs = [false; false; true]) /\
  (exists n' bs, bl_run false p bl_default [[x]; [x]; [x]] = Ret (n', bs) /\ bs = [false; true; true]).
Proof.
  cbv zeta. split; [|split; [reflexivity|split; ex_compute]].
  exists [ex_i EXCITATORY 5 0], (ex_i BLOCKING (-2) 0), []. repeat split; try constructor; try constructor. discriminate.
Qed.

(** *** C34 *)
(** False for every bursting period but 1: the reflexive weight has no effect on
    any run at all (the bursting counter is not decremented). *)
Theorem c34_bursting_refuted stdp p r n ls : bp_burst p <> 1%N -> b_phase n <> 1%N ->
  bl_run stdp (with_reflex r p) n ls = bl_run stdp p n ls.
Proof. intros Hb Hn. now apply bl_reflex_unused. Qed.
Print Assumptions c34_bursting_refuted.
(** False for period 1 in the STDP variant: without spikes in between, the
    reflexive weight is added at every step, not once. *)
Theorem c34_stdp_refuted p n l n1 ls n2 bs : bp_burst p = 1%N -> bl_step true p n l = Ret (n1, true) ->
  bl_run true p n1 ls = Ret (n2, bs) -> Forall (fun b => b = false) bs ->
  bl_rest p n2 = d_add (d_mul (b_pot n2) (bp_pot_decay p)) (bp_reflex p).
Proof.
  intros Hb H H2 Hf. destruct (bl_step_fields _ _ _ _ _ _ H) as (K & _). destruct (K eq_refl) as (_ & _ & Kp). rewrite Hb in Kp.
  rewrite <- (bl_rest_eq true), bl_pot_phase, (bl_stdp_phase p ls n1 n2 bs Kp H2 Hf). reflexivity.
Qed.
Print Assumptions c34_stdp_refuted.
(** Partial: period 1, plain variant: exactly once, in the step after the spike. *)
Theorem c34_bursting_partial p n l n1 : bp_burst p = 1%N -> bl_step false p n l = Ret (n1, true) ->
  bl_rest p n1 = d_add (d_mul (b_pot n1) (bp_pot_decay p)) (bp_reflex p) /\
  forall l2 n2, bl_step false p n1 l2 = Ret (n2, false) ->
  forall ls n3 bs, bl_run false p n2 ls = Ret (n3, bs) -> Forall (fun b => b = false) bs ->
    bl_rest p n3 = d_mul (b_pot n3) (bp_pot_decay p).
Proof.
  intros B H. destruct (bl_burst_one p n l n1 B H) as [A C]. rewrite bl_rest_eq in A. split; [exact A|].
  intros l2 n2 H2 ls n3 bs H3 F. rewrite <- (bl_rest_eq false). exact (C l2 n2 H2 ls n3 bs H3 F).
Qed.
Print Assumptions c34_bursting_partial.
Example c34_hypotheses :
  let l := [ex_i EXCITATORY 5 0] in
  (exists n', bl_run false (ex_bl_par 0 1 2) bl_default [l; l; []; []; []] = Ret (n', [false; true; true; true; true])) /\
  (exists n', bl_run false (ex_bl_par 0 2 2) bl_default [l; l; []; []; []] = Ret (n', [false; true; false; false; false])) /\
  (exists n1 n2, bl_step true (ex_bl_par 1 1 2) (mkBl 5 d_zero d_zero d_zero d_zero d_zero 0 int64_max d_zero) l = Ret (n1, true) /\
     bl_run true (ex_bl_par 1 1 2) n1 [[]] = Ret (n2, [false])).
Proof. cbv zeta. split; [ex_compute|split; ex_compute]. Qed.

(** *** C35 *)
(** After every step, of both variants, from any state and for any impacts: the
    potential is not below min_potential_ ([f_lt] is false if a value is NaN). *)
Theorem c35_floor stdp p n l n' b : bl_step stdp p n l = Ret (n', b) -> f_lt (b_pot n') (bp_min p) = false.
Proof. intros H. apply (bl_step_fields _ _ _ _ _ _ H). Qed.
Print Assumptions c35_floor.
(** The whole state after a step without blocking impacts. *)
Theorem c35_state stdp p n l n' b : no_blocking l -> bl_step stdp p n l = Ret (n', b) ->
  let g := d_conductance (d_mul (b_inh n) (bp_inh_decay p)) l in
  let v := inhibited p g (if (0 <? b_block n)%Z then d_drive (bl_rest p n) l else bl_rest p n) in
  let w := if b then bp_reset p else v in
  let plus (c : bool) (x inc : flt) := if c then d_add x inc else x in
  b = ((bp_refract p <? add64 (b_since n) 1)%N &&
       f_ge v (d_add (d_add (bp_thr p) (d_mul (b_dyn n) (bp_thr_decay p))) (bp_add p))) /\
  n' = mkBl (if b then 0 else add64 (b_since n) 1) (plus b (d_mul (b_dyn n) (bp_thr_decay p)) (bp_thr_inc p))
            (plus b (d_mul (b_trace n) (bp_trace_decay p)) (bp_trace_inc p)) g
            (if f_lt w (bp_min p) then bp_min p else w) (bl_rest p n)
            (if b then bp_burst p else if N.eqb (b_phase n) 1 && negb stdp then 0%N else b_phase n)
            (bl_count (b_block n)) (d_dopamine (if stdp then d_zero else b_dopa n) l).
Proof.
  intros Hl H. cbv zeta. unfold bl_step, neuron_step in H.
  destruct (impacts bl_impact (bl_prestep stdp p n) l) as [n1| |] eqn:E; cbn [obind] in H; try discriminate. apply ret_inj in H.
  pose proof (bl_impacts_pot l _ _ Hl E) as Ep. pose proof (bl_impacts_block l _ _ Hl E) as Eb. pose proof (bl_impacts_inh l _ _ E) as Eg.
  assert (Ed : b_dopa n1 = d_dopamine (b_dopa (bl_prestep stdp p n)) l).
  { clear - Hl E. revert E. generalize (bl_prestep stdp p n) as q. induction l as [|i l IH]; intros q E; cbn [impacts] in E; [now injection E as <-|].
    apply Forall_cons_iff in Hl. destruct Hl as [H1 H2]. destruct (bl_impact q i) as [q1| |] eqn:X; cbn [obind] in E; try discriminate.
    rewrite (IH H2 q1 E). unfold d_dopamine. cbn [fold_left]. f_equal. unfold bl_impact, is_blocking in *.
    destruct (i_type i); try discriminate; injection X as <-; reflexivity. }
  assert (Ek : b_since n1 = b_since (bl_prestep stdp p n) /\ b_dyn n1 = b_dyn (bl_prestep stdp p n) /\ b_trace n1 = b_trace (bl_prestep stdp p n) /\
    b_pre n1 = b_pre (bl_prestep stdp p n) /\ b_phase n1 = b_phase (bl_prestep stdp p n)).
  { clear - E. revert E. generalize (bl_prestep stdp p n) as q. induction l as [|i l IH]; intros q E; cbn [impacts] in E; [injection E as <-; auto|].
    destruct (bl_impact q i) as [q1| |] eqn:X; cbn [obind] in E; try discriminate. specialize (IH q1 E).
    assert (K : b_since q1 = b_since q /\ b_dyn q1 = b_dyn q /\ b_trace q1 = b_trace q /\ b_pre q1 = b_pre q /\ b_phase q1 = b_phase q).
    { unfold bl_impact in X. destruct (i_type i); try (injection X as <-; repeat split; reflexivity).
      destruct (to_int64 (i_value i)); cbn [obind] in X; try discriminate. injection X as <-. repeat split; reflexivity. }
    destruct IH as (A1 & A2 & A3 & A4 & A5), K as (K1 & K2 & K3 & K4 & K5). repeat split; congruence. }
  rewrite (bl_rest_eq stdp p n) in Ep. rewrite bl_prestep_block in Eb.
  assert (X : b_since (bl_prestep stdp p n) = add64 (b_since n) 1 /\ b_dyn (bl_prestep stdp p n) = d_mul (b_dyn n) (bp_thr_decay p) /\
    b_trace (bl_prestep stdp p n) = d_mul (b_trace n) (bp_trace_decay p) /\ b_inh (bl_prestep stdp p n) = d_mul (b_inh n) (bp_inh_decay p) /\
    b_pre (bl_prestep stdp p n) = bl_rest p n /\ b_dopa (bl_prestep stdp p n) = (if stdp then d_zero else b_dopa n) /\
    b_phase (bl_prestep stdp p n) = if N.eqb (b_phase n) 1 && negb stdp then 0%N else b_phase n).
  { unfold bl_prestep, bl_rest. destruct (N.eqb_spec (b_phase n) 1) as [Ph|]; [|repeat split; reflexivity].
    rewrite Ph. destruct stdp; repeat split; reflexivity. }
  destruct X as (X1 & X2 & X3 & X4 & X5 & X6 & X7), Ek as (K1 & K2 & K3 & K4 & K5).
  rewrite X1 in K1. rewrite X2 in K2. rewrite X3 in K3. rewrite X5 in K4. rewrite X7 in K5. rewrite X4 in Eg. rewrite X6 in Ed.
  unfold bl_post in H. cbv zeta in H. rewrite K1, K2, K3, K4, K5, Eg, Ed, Ep, Eb, bl_count_eq in H.
  assert (Bl : (if (b_block n <=? 0)%Z then bl_rest p n else d_drive (bl_rest p n) l) = if (0 <? b_block n)%Z then d_drive (bl_rest p n) l else bl_rest p n).
  { destruct (Z.leb_spec (b_block n) 0), (Z.ltb_spec 0 (b_block n)); try lia; reflexivity. }
  rewrite Bl in H. fold (inhibited p (d_conductance (d_mul (b_inh n) (bp_inh_decay p)) l) (if (0 <? b_block n)%Z then d_drive (bl_rest p n) l else bl_rest p n)) in H.
  set (v := inhibited _ _ _) in *. unfold bl_fires in H. cbn [b_since b_pot b_dyn b_trace b_inh b_pre b_phase b_block b_dopa] in H.
  set (f := (_ && _)%bool) in *. destruct f eqn:F; cbn [b_since b_pot b_dyn b_trace b_inh b_pre b_phase b_block b_dopa] in H;
    (split; [injection H as _ <-; reflexivity|]);
    (injection H as <- <-; match goal with |- context [f_lt ?x ?y] => destruct (f_lt x y) end; reflexivity).
Qed.
Print Assumptions c35_state.
Example c35_hypotheses : exists n', bl_step false (ex_bl_par 0 0 0) bl_default [ex_i INHIBITORY_CURRENT 100 0] = Ret (n', false) /\
  b_pot n' = d_of_Z (-9).
Proof. ex_compute. Qed.

(** *** C36 *)
(** Without blocking impacts: a spike exactly if the timer is -1 or more before the
    step and the potential after impacts and leak reaches the threshold. *)
Theorem c36_spike_iff stdp p n l : al_legal l -> (int64_min <= a_time n <= int64_max)%Z ->
  exists n' b, al_step stdp p n l = Ret (n', b) /\
    (b = true <-> (-1 <= a_time n)%Z /\
       f_ge (d_of_f (al_leaked p (f_drive (al_rest p n) l))) (al_limit p) = true) /\
    ((-1 <= a_time n)%Z <-> (0 < a_time n')%Z).
Proof.
  intros Hl Ht. destruct (al_step_eq stdp p n l Hl Ht) as (n' & b & E & Hb & Hn). exists n', b. split; [exact E|]. split; [rewrite al_leaked_eq; exact Hb|].
  rewrite Hn, <- (al_time_pos _ Ht). rewrite Z.gtb_ltb, Z.ltb_lt. reflexivity.
Qed.
Print Assumptions c36_spike_iff.
(** With any impacts: a spike only if the new timer is positive and the potential
    after impacts and leak reaches the threshold. *)
Theorem c36_spike_only_if stdp p n l n' : al_step stdp p n l = Ret (n', true) ->
  (0 < a_time n')%Z /\ exists n1, impacts al_impact (al_prestep stdp p n) l = Ret n1 /\
    f_ge (d_of_f (al_leaked p (a_pot n1))) (al_limit p) = true.
Proof.
  unfold al_step, neuron_step. intros H. destruct (impacts al_impact (al_prestep stdp p n) l) as [n1| |]; cbn [obind] in H; try discriminate.
  apply ret_inj in H. unfold al_post in H. cbn zeta in H. injection H as <- H2. apply andb_true_iff in H2 as [H2 H3]. cbn [a_time].
  rewrite Z.gtb_ltb, Z.ltb_lt in H3. split; [exact H3|]. exists n1. rewrite al_leaked_eq. auto.
Qed.
Print Assumptions c36_spike_only_if.
(** A blocking impact of -k, k >= 2, on a neuron that is not silenced: silent in the
    step of arrival and all later ones up to k-1 steps in total; after exactly
    k-1 steps the timer is -1, and [c36_spike_iff] says the next step may spike. *)
Theorem c36_silenced stdp p n l1 i l2 ls k :
  al_legal l1 -> al_legal l2 -> Forall al_legal ls -> (0 <= a_time n <= int64_max)%Z ->
  is_blocking i = true -> sign_bit (i_value i) = true -> to_int64 (i_value i) = Ret (- k)%Z -> (2 <= k <= int64_max)%Z ->
  (Z.of_nat (S (length ls)) <= k - 1)%Z ->
  exists n' bs, al_run stdp p n ((l1 ++ i :: l2) :: ls) = Ret (n', bs) /\ Forall (fun b => b = false) bs /\
    length bs = S (length ls) /\ ((-1 <= a_time n')%Z <-> Z.of_nat (S (length ls)) = (k - 1)%Z).
Proof.
  intros H1 H2 H3 H4 H5 H6 H7 H8 H9.
  destruct (al_silent_from_impact stdp p n l1 i l2 ls k H1 H2 H3 H4 H5 H6 H7 H8 ltac:(lia)) as (n' & bs & R & Hf & Hl & Ht).
  exists n', bs. rewrite Ht. repeat split; auto; lia.
Qed.
Print Assumptions c36_silenced.
(** With the saturation flag (a default), the potential is never below the negative
    threshold after a step. *)
Theorem c36_floor stdp p n l n' b : ap_sat p = true -> al_step stdp p n l = Ret (n', b) -> f_lt (a_pot n') (al_lowest p) = false.
Proof. intros. now apply (al_floor_ok p n l stdp n' b). Qed.
Print Assumptions c36_floor.
(** The whole state after a step without blocking impacts. *)
Theorem c36_state stdp p n l : al_legal l ->
  let v := al_leaked p (f_drive (al_rest p n) l) in let over := f_ge (d_of_f v) (al_limit p) in
  al_step stdp p n l = Ret (mkAl (al_after p over v) (al_rest p n) (al_count (a_time n)) (d_dopamine (if stdp then d_zero else a_dopa n) l),
                            over && (0 <? al_count (a_time n))%Z).
Proof.
  intros Hl. cbv zeta. unfold al_step, neuron_step.
  assert (X : forall l v q t dd, al_legal l -> exists n1, impacts al_impact (mkAl v q t dd) l = Ret n1 /\ a_time n1 = t /\ a_pot n1 = f_drive v l /\
    a_pre n1 = q /\ a_dopa n1 = d_dopamine dd l).
  { clear. induction l as [|i l IH]; intros v q t dd Hl; cbn [impacts].
    - eexists. split; [reflexivity|]. repeat split; reflexivity.
    - apply Forall_cons_iff in Hl. destruct Hl as [[H1 H1'] H2]. unfold is_blocking in H1'. unfold al_impact at 1. cbn [a_pot a_pre a_time a_dopa].
      unfold f_drive, d_dopamine. cbn [fold_left]. destruct (i_type i); try contradiction; try discriminate; cbn [obind]; now apply IH. }
  pose proof (X l (al_rest p n) (al_rest p n) (a_time n) (if stdp then d_zero else a_dopa n) Hl) as E. clear X.
  change (al_prestep stdp p n) with (mkAl (al_rest p n) (al_rest p n) (a_time n) (if stdp then d_zero else a_dopa n)).
  destruct E as (n1 & -> & E1 & E2 & E3 & E4). cbn [obind]. unfold al_post. cbv zeta. rewrite E1, E2, E3, E4, al_count_eq, al_leaked_eq, Z.gtb_ltb.
  change (al_threshold p) with (al_limit p). change (al_floor p) with (al_lowest p). set (v := al_leak p _). unfold al_after. cbv zeta.
  destruct (f_ge (d_of_f v) (al_limit p)), (ap_reset p); cbn [andb orb negb];
    rewrite ?andb_false_r, ?andb_true_r; try reflexivity;
    match goal with |- context [f_le ?x ?y] => destruct (f_le x y) end; reflexivity.
Qed.
Print Assumptions c36_state.
Example c36_hypotheses :
  let x := ex_i EXCITATORY 3 0 in let y := ex_i BLOCKING (-3) 0 in
  to_int64 (i_value y) = Ret (-3)%Z /\ sign_bit (i_value y) = true /\ ap_sat al_default_par = true /\
  (exists n', al_run false al_default_par al_default [[x]; [x]; [x]; [x]] = Ret (n', [true; true; true; true])) /\
  (exists n', al_run false al_default_par al_default [[x; y]; [x]; [x]; [x]] = Ret (n', [false; false; true; true])) /\
  (exists n', al_step false al_default_par al_default [ex_i INHIBITORY_CURRENT 40000 0] = Ret (n', false) /\ a_pot n' = f_of_Z (-30000)).
Proof. cbv zeta. split; [reflexivity|]. split; [reflexivity|]. split; [reflexivity|]. split; [ex_compute|split; ex_compute]. Qed.

(** *** C37 *)
(** For every kind of neuron (given by its three phases), every population of up to
    2^32 neurons and all messages: the step is defined with a result exactly if
    every impact names a neuron of the population and every neuron's own step on
    its own impacts is; then the new states are those of the single neurons, the
    message has the population's identifier, the step, and in strictly ascending
    order exactly the neurons that spiked; it is sent iff there are any. *)
Theorem c37_population_step {A} (pre : A -> A) imp post u step ms ns : (N.of_nat (length ns) <= two32)%N ->
  forall ns' m sent, population_step pre imp post u step ms ns = Ret (ns', m, sent) <->
  Forall (fun x => (i_post x < N.of_nat (length ns))%N) (impacts_of ms) /\
  exists rs idx, length rs = length ns /\
    (forall i n, nth_error ns i = Some n ->
       exists r, nth_error rs i = Some r /\ neuron_step pre imp post n (addressed i (impacts_of ms)) = Ret r) /\
    ns' = map fst rs /\
    StronglySorted lt idx /\ (forall i, In i idx <-> exists n', nth_error rs i = Some (n', true)) /\
    m = SpikeMsg u step (map N.of_nat idx) /\ sent = (match idx with [] => None | _ => Some m end).
Proof. apply population_step_observed. Qed.
Print Assumptions c37_population_step.
(** On the multi-threaded backend, for every part size and all orders of the parts
    in the first and the last phase: the same states, the same failures, a message
    with the same indexes up to order, sent in the same cases. *)
Theorem c37_population_step_mt {A} (pre : A -> A) imp post u step ms ns part ps o1 o2 fuel :
  (0 < part < two64)%N -> (N.of_nat (length ns) <= two32)%N -> parts (N.of_nat (length ns)) part fuel = Some ps ->
  Permutation o1 (map to_nat_part ps) -> Permutation o2 (map to_nat_part ps) ->
  match population_step pre imp post u step ms ns, mt_population_step pre imp post u step ms o1 o2 ns with
  | Ret (ns1, m1, s1), Ret (ns2, m2, s2) =>
      ns1 = ns2 /\ exists i1 i2, m1 = SpikeMsg u step i1 /\ m2 = SpikeMsg u step i2 /\ Permutation i1 i2 /\
        s1 = (match i1 with [] => None | _ => Some m1 end) /\ s2 = (match i2 with [] => None | _ => Some m2 end)
  | Throw, Throw => True
  | UB, UB => True
  | _, _ => False
  end.
Proof.
  intros Hp Hn Hps P1 P2. apply parts_tiles in Hps; [|exact Hp|change two32 with 4294967296%N in Hn; lia].
  pose proof (mt_population_step_spec pre imp post u step ms ns ps o1 o2 Hps P1 P2) as H.
  destruct (population_step pre imp post u step ms ns) as [[[ns1 m1] s1]| |], (mt_population_step pre imp post u step ms o1 o2 ns) as [[[ns2 m2] s2]| |]; auto.
  destruct H as (E & i1 & i2 & E1 & E2 & HP & E3 & E4). split; [exact E|].
  exists (map (fun i => w32 (N.of_nat i)) i1), (map (fun i => w32 (N.of_nat i)) i2).
  split; [exact E1|]. split; [exact E2|]. split; [now apply Permutation_map|].
  rewrite E3, E4. unfold sent_of. split; [destruct i1|destruct i2]; reflexivity.
Qed.
Print Assumptions c37_population_step_mt.
Example c37_hypotheses :
  let ns := [mkLif (f_of_Z 0) 0; mkLif (f_of_Z 9) 0; mkLif (f_of_Z 0) 1] in
  let ms := [ImpactMsg 5 3 0 7 false [ex_i EXCITATORY 11 0; ex_i EXCITATORY 2 1]] in
  let p := ex_lif_par in
  (exists ns', population_step (lif_pre p) lif_impact (lif_post p) 7 3 ms ns
    = Ret (ns', SpikeMsg 7 3 [0; 1]%N, Some (SpikeMsg 7 3 [0; 1]%N))) /\
  (exists ns', mt_population_step (lif_pre p) lif_impact (lif_post p) 7 3 ms [(1, 2); (0, 1); (2, 3)] [(2, 3); (1, 2); (0, 1)] ns
    = Ret (ns', SpikeMsg 7 3 [1; 0]%N, Some (SpikeMsg 7 3 [1; 0]%N))) /\
  parts 3 1 3 = Some [(0, 1); (1, 2); (2, 3)]%N.
Proof. cbv zeta. split; [ex_compute|]. split; [ex_compute|reflexivity]. Qed.

(** *** C28 *)
(** False: two orders of the two parts of one projection put the impacts of its
    message in different orders, binary32 addition is not associative, and the
    potential of the target neuron differs: 0 or 1. *)
Definition ex_w (t : output_type) (w : Z) : dsyn := mkSyn (mkDP (f_of_Z w) 1 t) 0%N 0%N.
Theorem c28_schedule_refuted :
  let h := mkPH 9 7 8 false in
  let syn := [ex_w EXCITATORY 16777216; ex_w INHIBITORY_CURRENT 16777216] in
  let p := mkLifPar (f_of_Z 0) (f_of_Z 100000000) (f_of_Z 1) 2 in
  let after order :=
    match mt_run h 0 [mkMtIn syn [SpikeMsg 7 0 [0]%N] order] [] with
    | [Some m] => population_step (lif_pre p) lif_impact (lif_post p) 8 1 [m] [mkLif (f_of_Z 1) 0]
    | _ => UB
    end in
  parts 2 1 2 = Some [(0, 1); (1, 2)]%N /\
  (exists m, after [(0, 1); (1, 2)] = Ret ([mkLif (f_of_Z 0) 0], m, None)) /\
  (exists m, after [(1, 2); (0, 1)] = Ret ([mkLif (f_of_Z 1) 0], m, None)).
Proof. cbv zeta. split; [reflexivity|]. split; ex_compute. Qed.
Print Assumptions c28_schedule_refuted.
(** Partial 1: any two schedules of the projection parts, over whole runs, give
    messages that differ in the order of their impacts only.  (One message per
    step, see C29.) *)
Theorem c28_projections_partial h part ins jns jns' s p ends :
  (0 < part < two64)%N -> Forall2 (corresponds part) ins jns -> Forall2 (corresponds part) ins jns' ->
  sound_projection p -> ends_of (p_syn p) = ends -> Forall (fun i => ends_of (in_syn i) = ends) ins ->
  Forall (fun i => (N.of_nat (length (in_syn i)) <= 2 ^ 63)%N) ins -> (s + N.of_nat (length ins) < two64)%N ->
  Forall2 same_output (mt_run h s jns []) (mt_run h s jns' []).
Proof.
  intros H1 H2 H2' H3 H4 H5 H6 H7.
  destruct (c27_same_results_partial h part ins jns s p ends H1 H2 H3 H4 H5 H6 H7) as (o & E & F).
  destruct (c27_same_results_partial h part ins jns' s p ends H1 H2' H3 H4 H5 H6 H7) as (o' & E' & F').
  rewrite E in E'. injection E' as <-. now apply (same_outputs_trans o).
Qed.
Print Assumptions c28_projections_partial.
(** Partial 2: the population phases do not depend on the schedule
    ([c37_population_step_mt]); and a population step does not depend on the order
    of the impacts if each neuron gets at most one ... *)
Theorem c28_single_impacts_partial {A} (pre : A -> A) imp post u step ms ms' ns r :
  (forall i, length (addressed i (impacts_of ms)) <= 1) -> Permutation (impacts_of ms) (impacts_of ms') ->
  population_step pre imp post u step ms ns = Ret r -> population_step pre imp post u step ms' ns = Ret r.
Proof. intros H. apply population_order. now apply single_impacts_insensitive. Qed.
Print Assumptions c28_single_impacts_partial.
(** ... or if potentials and weights are integers whose absolute values add up to
    less than 2^24 (LIF, AltAI) or 2^53 (BLIFAT), where floating-point addition is
    exact. *)
Theorem c28_integer_lif_partial p u step ms ms' ns val r :
  (forall i n, nth_error ns i = Some n -> currents_only (addressed i (impacts_of ms)) /\
     (l_cnt n <> 0%N \/ exists base, f_mul (l_pot n) (lp_leak p) = f_of_Z base /\ integer_currents val (2 ^ 24) base (addressed i (impacts_of ms)))) ->
  Permutation (impacts_of ms) (impacts_of ms') ->
  population_step (lif_pre p) lif_impact (lif_post p) u step ms ns = Ret r ->
  population_step (lif_pre p) lif_impact (lif_post p) u step ms' ns = Ret r.
Proof.
  intros H. apply population_order. apply (lif_int_insensitive p val). intros i n Hn. destruct (H i n Hn) as [Hc Hi]. split; [exact Hc|].
  destruct (N.eq_dec (l_cnt n) 0) as [E|E]; [|now left]. destruct Hi as [Hi|(base & Hb & Hi)]; [now left|]. right. exists base.
  split; [|exact Hi]. unfold lif_pre. rewrite E. exact Hb.
Qed.
Print Assumptions c28_integer_lif_partial.
Theorem c28_integer_blifat_partial stdp p u step ms ms' ns val r :
  (forall i n, nth_error ns i = Some n -> exists base, b_pot (bl_prestep stdp p n) = d_of_Z base /\
     integer_currents val (2 ^ 53) base (addressed i (impacts_of ms)) /\
     Forall (fun x => (Z.abs (val x) < 2 ^ 24)%Z) (addressed i (impacts_of ms))) ->
  Permutation (impacts_of ms) (impacts_of ms') ->
  population_step (bl_prestep stdp p) bl_impact (bl_post p) u step ms ns = Ret r ->
  population_step (bl_prestep stdp p) bl_impact (bl_post p) u step ms' ns = Ret r.
Proof. intros H. apply population_order. now apply (bl_int_insensitive stdp p val). Qed.
Print Assumptions c28_integer_blifat_partial.
Theorem c28_integer_altai_partial stdp p u step ms ms' ns val r :
  (forall i n, nth_error ns i = Some n -> exists base, a_pot (al_prestep stdp p n) = f_of_Z base /\
     integer_currents val (2 ^ 24) base (addressed i (impacts_of ms))) ->
  Permutation (impacts_of ms) (impacts_of ms') ->
  population_step (al_prestep stdp p) al_impact (al_post p) u step ms ns = Ret r ->
  population_step (al_prestep stdp p) al_impact (al_post p) u step ms' ns = Ret r.
Proof. intros H. apply population_order. now apply (al_int_insensitive stdp p val). Qed.
Print Assumptions c28_integer_altai_partial.
Example c28_hypotheses :
  let l := [ex_i EXCITATORY 11 0; ex_i INHIBITORY_CURRENT 4 0; ex_i EXCITATORY 2 0] in
  let val (i : impact) := match Z_trunc (i_value i) with Some z => z | None => 0%Z end in
  f_mul (f_of_Z 5) (f_of_Z 1) = f_of_Z 5 /\ integer_currents val (2 ^ 24) 5 l.
Proof. cbv zeta. split; [reflexivity|]. split; [repeat constructor|]. split; [repeat constructor|]. vm_compute. reflexivity. Qed.
