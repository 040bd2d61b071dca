(** C82, C83: normalization of parameters. *)
From Verif Require Import Base FloatReal Neuron_Model Projection_Model Delta_Model Normalize_Model Normalize_Proofs.
From Coq Require Import Reals Psatz.
From Flocq Require Import Core IEEE754.BinarySingleNaN.

(** ** C82 *)
(** The value of a number, and the numbers of a format: [float] is (24, 128), [double]
    is (53, 1024). *)
Notation val := (SF2R radix2).
Definition number (prec emax : Z) (x : flt) : Prop := valid_binary prec emax x = true /\ Base.is_finite x = true.
(** The function that maps [a, b] to [c, d] linearly. *)
Definition linear (a b c d x : R) : R := (c + (x - a) * ((d - c) / (b - a)))%R.
Definition is_format (prec emax : Z) : Prop := (prec = 24 /\ emax = 128)%Z \/ (prec = 53 /\ emax = 1024)%Z.

(** With float or double: the start of the input interval becomes the start of the
    output interval, greater values do not become smaller, no value of the input
    interval becomes less than the start of the output interval, and the result is the
    linear image up to a relative error of 8 units in the last place and an absolute one
    of underflow - whenever the length of the input interval and the result did not
    overflow. *)
Theorem c82_rescale_partial prec emax a b c d : is_format prec emax ->
  number prec emax a -> number prec emax b -> number prec emax c -> number prec emax d ->
  f_lt a b = true -> f_le c d = true -> Base.is_finite (SFsub prec emax b a) = true ->
  let rs := rescale prec emax (rescaler_new prec emax a b c d) in
  (Base.is_finite (rs a) = true -> SFeqb (rs a) c = true) /\
  (forall x y, number prec emax x -> number prec emax y -> Base.is_finite (rs x) = true -> Base.is_finite (rs y) = true -> f_le x y = true -> f_le (rs x) (rs y) = true) /\
  (forall x, number prec emax x -> Base.is_finite (rs x) = true -> f_le a x = true -> f_le c (rs x) = true) /\
  (forall x, number prec emax x -> Base.is_finite (rs x) = true -> f_le a x = true -> f_le x b = true ->
     (Rabs (val (rs x) - linear (val a) (val b) (val c) (val d) (val x)) <=
        powerRZ 2 (3 - prec) * (Rabs (val c) + Rabs (val d)) + powerRZ 2 (4 - emax - prec) * (1 + (val b - val a)))%R).
Proof.
  intros FM Fa Fb Fc Fd Lab Lcd HI rs.
  assert (Hp : Prec_gt_0 prec) by (destruct FM as [[-> _]|[-> _]]; reflexivity).
  assert (Hm : Prec_lt_emax prec emax) by (destruct FM as [[-> ->]|[-> ->]]; reflexivity).
  assert (H4 : (4 <= prec)%Z) by (destruct FM as [[-> _]|[-> _]]; lia).
  change (number prec emax a) with (fin prec emax a) in Fa. change (number prec emax b) with (fin prec emax b) in Fb.
  change (number prec emax c) with (fin prec emax c) in Fc. change (number prec emax d) with (fin prec emax d) in Fd.
  unfold f_lt, f_le in *. rewrite (lt_real prec emax) in Lab by assumption. rewrite (le_real prec emax) in Lcd by assumption.
  assert (Hab : (val a < val b)%R) by (destruct (Rlt_bool_spec (val a) (val b)); [assumption|discriminate]).
  assert (Hcd : (val c <= val d)%R) by (destruct (Rle_bool_spec (val c) (val d)); [assumption|discriminate]).
  assert (FR : forall x, fin prec emax x -> Base.is_finite (rs x) = true -> fin prec emax (rs x)).
  { intros x Fx H. apply (rescale_parts prec emax Hp Hm a b c d Fa Fb Fc Fd Hab Hcd HI x Fx H). }
  assert (LE : forall x y, fin prec emax x -> fin prec emax y -> SFleb x y = true -> (val x <= val y)%R).
  { intros x y Fx Fy L. rewrite (le_real prec emax) in L by assumption. destruct (Rle_bool_spec (val x) (val y)); [assumption|discriminate]. }
  repeat split.
  - intros H. specialize (FR a Fa H). destruct (fin_B _ _ _ FR) as (p & E1 & F1 & R1). destruct (fin_B _ _ _ Fc) as (q & E2 & F2 & R2).
    rewrite <- E1, <- E2. change (Beqb p q = true). rewrite Beqb_correct by assumption. apply Req_bool_true. rewrite R1, R2.
    exact (rescale_start prec emax Hp Hm a b c d Fa Fb Fc Fd Hab Hcd HI H).
  - intros x y Fx Fy Hx Hy L. rewrite (le_real prec emax) by auto. apply Rle_bool_true.
    apply (rescale_mono prec emax Hp Hm a b c d Fa Fb Fc Fd Hab Hcd HI); auto.
  - intros x Fx Hx L. rewrite (le_real prec emax) by auto. apply Rle_bool_true.
    apply (rescale_low prec emax Hp Hm a b c d Fa Fb Fc Fd Hab Hcd HI); auto.
  - intros x Fx Hx L1 L2.
    pose proof (rescale_accuracy prec emax Hp Hm a b c d Fa Fb Fc Fd Hab Hcd HI H4 x Fx Hx (conj (LE _ _ Fa Fx L1) (LE _ _ Fx Fb L2))) as A.
    assert (E : forall e, powerRZ 2 e = bpow radix2 e) by (intros e; symmetry; exact (bpow_powerRZ radix2 e)). rewrite !E.
    replace (8 * (/ 2 * bpow radix2 (- prec + 1)))%R with (bpow radix2 (3 - prec)) in A.
    2:{ replace (3 - prec)%Z with ((- prec + 1) + 2)%Z by lia. rewrite bpow_plus. change (bpow radix2 2) with 4%R. field. }
    replace (4 * (/ 2 * bpow radix2 (3 - emax - prec)))%R with (bpow radix2 (4 - emax - prec)) in A.
    2:{ replace (4 - emax - prec)%Z with ((3 - emax - prec) + 1)%Z by lia. rewrite bpow_plus. change (bpow radix2 1) with 2%R. field. }
    exact A.
Qed.
(** The end of the input interval need not become the end of the output interval: [0, 21]
    rescaled to [0, 3] gives more than 3, [0, 41] to [0, 1] less than 1. *)
Theorem c82_end_refuted :
  f_gt (rescale 24 128 (rescaler_new 24 128 (f_of_Z 0) (f_of_Z 21) (f_of_Z 0) (f_of_Z 3)) (f_of_Z 21)) (f_of_Z 3) = true /\
  f_lt (rescale 24 128 (rescaler_new 24 128 (f_of_Z 0) (f_of_Z 41) (f_of_Z 0) (f_of_Z 1)) (f_of_Z 41)) (f_of_Z 1) = true.
Proof. split; vm_compute; reflexivity. Qed.
(** An input interval of one point is not refused: its point becomes not-a-number. *)
Theorem c82_point_refuted a c d : number 24 128 a -> Base.is_nan (rescale 24 128 (rescaler_new 24 128 a a c d) a) = true.
Proof.
  intros [_ F]. assert (Z : SFsub 24 128 a a = S754_zero false \/ SFsub 24 128 a a = S754_zero true).
  { destruct a as [s| | |s m e]; try discriminate; [destruct s; cbn; auto|]. cbn [SFsub]. rewrite Z.sub_diag. destruct s; cbn; auto. }
  unfold rescale, rescaler_new. cbn [rs_out_start rs_in_start rs_ratio].
  destruct Z as [-> | ->]; destruct (SFsub 24 128 d c) as [s|s| |s m e]; cbn; destruct c; cbn; reflexivity.
Qed.
(** Rescaler<int> divides the lengths of the intervals as integers: when the output
    interval is shorter, every value becomes the start of the output interval. *)
Theorem c82_int_refuted a b c d v : (a < b)%Z -> (c <= d)%Z -> (d - c < b - a)%Z -> int_rescale a b c d v = Ret c.
Proof.
  intros H1 H2 H3. unfold int_rescale. destruct (Z.eqb_spec (b - a) 0); [lia|]. rewrite Z.quot_small by lia. f_equal. lia.
Qed.

(** ** C83 *)
(** With a corrector without state: every neuron of every population gets the corrected
    potential (converted to the type of the corrector and back), every other parameter of
    a neuron, the populations and the projections stay the same.  The same for weights. *)
Definition stateless (f : flt -> flt) : unit -> flt -> unit * flt := fun _ x => (tt, f x).
(** Two neurons of the same kind that differ in the potential at most. *)
Definition same_but_potential (n n' : neuron) : Prop :=
  match n, n' with
  | NLif p s, NLif p' s' => p' = p /\ l_cnt s' = l_cnt s
  | NBlifat p s, NBlifat p' s' => p' = p /\ b_since s' = b_since s /\ b_dyn s' = b_dyn s /\ b_trace s' = b_trace s /\ b_inh s' = b_inh s /\
      b_pre s' = b_pre s /\ b_phase s' = b_phase s /\ b_block s' = b_block s /\ b_dopa s' = b_dopa s
  | NAltai p s, NAltai p' s' => p' = p /\ a_pre s' = a_pre s /\ a_time s' = a_time s /\ a_dopa s' = a_dopa s
  | _, _ => False
  end.
Definition same_but_weight {R} (y y' : synapse (sparams R)) : Prop :=
  sy_from y' = sy_from y /\ sy_to y' = sy_to y /\ sp_rule (sy_params y') = sp_rule (sy_params y) /\
  d_delay (sp_delta (sy_params y')) = d_delay (sp_delta (sy_params y)) /\ d_type (sp_delta (sy_params y')) = d_type (sp_delta (sy_params y)).
Lemma each_stateless {E} w f (we : E -> width) get set l : each w (stateless f) we get set tt l = map (fun e => set e (conv w (we e) (f (conv (we e) w (get e))))) l.
Proof. induction l as [|e l IH]; [reflexivity|]. cbn [each stateless map]. now rewrite IH. Qed.
Lemma Forall2_map_r {A B} (P : A -> B -> Prop) (g : A -> B) l : (forall x, P x (g x)) -> Forall2 P l (map g l).
Proof. intros H. induction l; constructor; auto. Qed.
Theorem c83_neurons {R} w f (net : nnet R) : let net' := normalize_neurons w (stateless f) tt net in
  nn_projs net' = nn_projs net /\
  Forall2 (fun p p' => np_uid p' = np_uid p /\
    Forall2 (fun n n' => same_but_potential n n' /\ width_of n' = width_of n /\ get_potential n' = conv w (width_of n) (f (conv (width_of n) w (get_potential n))))
      (np_neurons p) (np_neurons p')) (nn_pops net) (nn_pops net').
Proof.
  cbn zeta. split; [reflexivity|]. unfold normalize_neurons. cbn [nn_pops]. apply Forall2_map_r. intros p. split; [reflexivity|]. cbn [normalize_population np_neurons].
  rewrite each_stateless. apply Forall2_map_r. intros [q s|q s|q s]; cbn; auto 12.
Qed.
Theorem c83_synapses {R} w f (net : nnet R) : let net' := normalize_synapses w (stateless f) tt net in
  nn_pops net' = nn_pops net /\
  Forall2 (fun p p' => nj_uid p' = nj_uid p /\ nj_pre p' = nj_pre p /\ nj_post p' = nj_post p /\
    Forall2 (fun y y' => same_but_weight y y' /\ get_weight (sy_params y') = conv w F32 (f (get_weight (sy_params y))))
      (p_syn (nj_proj p)) (p_syn (nj_proj p')) /\ p_index (nj_proj p') = p_index (nj_proj p) /\ p_updated (nj_proj p') = p_updated (nj_proj p)) (nn_projs net) (nn_projs net').
Proof.
  cbn zeta. split; [reflexivity|]. unfold normalize_synapses. cbn [nn_projs]. apply Forall2_map_r. intros p. cbn [normalize_projection nj_uid nj_pre nj_post nj_proj p_syn p_index p_updated].
  repeat split. rewrite each_stateless. apply Forall2_map_r. intros y. unfold same_but_weight. cbn. auto 10.
Qed.
(** A corrector that counts its calls starts again with every population: it is copied. *)
Definition some_lif (x : flt) : neuron := NLif (mkLifPar (f_of_Z 0) (f_of_Z 1) (f_of_Z 1) 0) (mkLif x 0).
Theorem c83_state_refuted : let two := mkNnet [mkNpop 1 [some_lif (f_of_Z 5); some_lif (f_of_Z 5)]; mkNpop 2 [some_lif (f_of_Z 5)]] ([] : list (nproj unit)) in
  normalize_neurons F32 (fun k x => (S k, f_of_Z (Z.of_nat k))) 7 two =
    mkNnet [mkNpop 1 [some_lif (f_of_Z 7); some_lif (f_of_Z 8)]; mkNpop 2 [some_lif (f_of_Z 7)]] [].
Proof. reflexivity. Qed.

(** ** Non-vacuity *)
Example c82_met : let a := f_of_Z 10 in let b := f_of_Z 30 in let c := f_of_Z 0 in let d := f_of_Z 1 in let rs := rescale 24 128 (rescaler_new 24 128 a b c d) in
  is_format 24 128 /\ number 24 128 a /\ number 24 128 b /\ number 24 128 c /\ number 24 128 d /\ f_lt a b = true /\ f_le c d = true /\ Base.is_finite (SFsub 24 128 b a) = true /\
  Base.is_finite (rs a) = true /\ Base.is_finite (rs b) = true /\ number 24 128 (f_of_Z 20) /\ f_gt (rs (f_of_Z 20)) c = true /\ f_lt (rs (f_of_Z 20)) d = true.
Proof. cbv zeta. split; [left; split; reflexivity|]. repeat split; vm_compute; reflexivity. Qed.
Example c82_double_met : is_format 53 1024 /\ number 53 1024 (d_of_Z 3) /\ Base.is_finite (rescale 53 1024 (rescaler_new 53 1024 (d_of_Z 1) (d_of_Z 7) (d_of_Z (-1)) (d_of_Z 1)) (d_of_Z 3)) = true.
Proof. split; [right; split; reflexivity|]. repeat split; vm_compute; reflexivity. Qed.
Example c83_met : let net := mkNnet [mkNpop 1 [some_lif (f_of_Z 5); NBlifat bl_default_par bl_default]] [mkNproj 3 1 1 (mkProj [mkSyn (mkSparams (mkDP (f_of_Z 20) 1 EXCITATORY) tt) 0 1]%N [] false)] in
  get_potential (nth 0 (np_neurons (nth 0 (nn_pops (normalize_neurons F32 (stateless (fun x => f_add x (f_of_Z 1))) tt net)) (mkNpop 0 []))) (some_lif (f_of_Z 0))) = f_of_Z 6 /\
  map (fun p => map (fun y => get_weight (sy_params y)) (p_syn (nj_proj p))) (nn_projs (normalize_synapses F64 (stateless (fun x => d_mul x (d_of_Z 2))) tt net)) = [[f_of_Z 40]].
Proof. split; vm_compute; reflexivity. Qed.

Print Assumptions c82_rescale_partial. Print Assumptions c82_end_refuted. Print Assumptions c82_point_refuted. Print Assumptions c82_int_refuted.
Print Assumptions c83_neurons. Print Assumptions c83_synapses. Print Assumptions c83_state_refuted.
