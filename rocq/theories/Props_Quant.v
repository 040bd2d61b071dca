(** C118: preparation of a network for AltAI hardware: quantization of weights and thresholds. *)
From Verif Require Import Base Messaging_Model Projection_Model Delta_Model Neuron_Model Pipeline_Model
  Stdp_Model Additive_Model Train_Model Net_Model Props_Net2 FloatReal Normalize_Proofs Classify_Model Metrics_Proofs Storage_Proofs2 Additive_Proofs2
  Quant_Model Quant_Proofs Quant_Spec Quant_Proofs2 Quant_Proofs3 Quant_Proofs4 Quant_Proofs5.
From Coq Require Import Reals Psatz.
From Flocq Require Import Core IEEE754.BinarySingleNaN.
Open Scope R_scope.

Lemma firstn_in {A} k (l : list A) x : In x (firstn k l) -> exists j, (j < k)%nat /\ nth_error l j = Some x.
Proof.
  revert k. induction l as [|y t IH]; intros [|k] H; try destruct H.
  - subst. exists 0%nat. split; [lia|reflexivity].
  - destruct (IH _ H) as (j & A1 & A2). exists (S j). split; [lia|exact A2].
Qed.
(** Where the projection with number [k] is quantized. *)
Lemma at_step projs pops r k w l : NoDup (map fst pops) -> quantize_network projs pops = Ret r -> nth_error projs k = Some w ->
  altai_neurons (np_post w) pops l -> l <> [] ->
  exists before a lk, quantize_network (firstn k projs) pops = Ret before /\ quantize_one w (snd before) = Ret a /\ nth_error (fst r) k = Some (fst a) /\
    pop_lookup (np_post w) (snd before) = Some (NStdpAltai lk) /\ lk <> [] /\
    ((forall j v, (j < k)%nat -> nth_error projs j = Some v -> np_post v <> np_post w) -> lk = l) /\
    quantize_network (skipn (S k) projs) (snd a) = Ret (skipn (S k) (fst r), snd r).
Proof.
  intros Nd H Hk Hl Ne. apply (in_lookup _ _ _ Nd) in Hl. destruct (quantize_nth _ _ _ _ _ H Hk) as (before & a & A & B & C & D).
  destruct (net_size _ _ _ _ _ A Hl) as (lk & L & Len). exists before, a, lk. split; [exact A|]. split; [exact B|]. split; [exact C|]. split; [exact L|].
  split; [intros ->; destruct l; [congruence|discriminate]|]. split; [|exact D]. intros He. destruct (net_pops _ _ _ A) as (_ & _ & O). rewrite O in L.
  - rewrite Hl in L. exact (f_equal (fun o => match o with Some (NStdpAltai z) => z | _ => lk end) (eq_sym L)).
  - intros v Hv. apply firstn_in in Hv as (j & J1 & J2). eauto.
Qed.

(** Every projection is scaled by its own factor, 255 over the largest of its weights and of the
    thresholds of the neurons it leads to - as the projections before it left them - and rounded. *)
Theorem c118_weights projs pops r k w l : NoDup (map fst pops) -> quantize_network projs pops = Ret r -> nth_error projs k = Some w ->
  altai_neurons (np_post w) pops l -> l <> [] -> Forall fin32 (syn_weights (np_kind w)) ->
  exists before lk M w', quantize_network (firstn k projs) pops = Ret before /\ altai_neurons (np_post w) (snd before) lk /\
    ((forall j v, (j < k)%nat -> nth_error projs j = Some v -> np_post v <> np_post w) -> lk = l) /\
    largest (magnitudes w lk) M /\ 0 < M /\ nth_error (fst r) k = Some w' /\
    Forall2 (quantized M) (syn_weights (np_kind w)) (syn_weights (np_kind w')).
Proof.
  intros Nd H Hk Hl Ne Fw. destruct (at_step _ _ _ _ _ _ Nd H Hk Hl Ne) as (before & a & lk & A & B & C & L & Nk & E & _).
  destruct (one_scale _ _ _ B lk L Nk Fw) as (M & s & l' & P1 & P2 & _ & _ & P3 & P4). exists before, lk, M, (fst a).
  split; [exact A|]. split; [now apply lookup_in|]. split; [exact E|]. split; [exact P1|]. split; [apply P2|]. split; [exact C|].
  rewrite P3. clear P3 P1. induction (syn_weights (np_kind w)) as [|x t IH]; cbn [map]; [constructor|].
  apply Forall_cons_iff in Fw as [F1 F2]. apply Forall_cons_iff in P4 as [Q1 Q2]. constructor; [|now apply IH]. now apply (weight_real M s x).
Qed.
(** What being quantized means for the ends of the range, for weights without effect, and for
    weights that are already whole numbers of the right scale. *)
Theorem c118_ends M x y : quantized M x y -> 0 < M -> (val x = M -> val y = 255) /\ (val x = - M -> val y = -255) /\ (val x = 0 -> val y = 0) /\
  (M = 255 -> forall z : Z, val x = IZR z -> val y = IZR z).
Proof.
  intros (_ & z & Ez & B & D) P. rewrite Ez. change (bpow radix2 (-15)) with (/ 32768) in D. apply Rabs_le_inv in D.
  assert (K : forall c : Z, Rabs (IZR z - IZR c) < 1 -> IZR z = IZR c).
  { intros c Hc. rewrite <- minus_IZR, <- abs_IZR in Hc. apply lt_IZR in Hc. f_equal. lia. }
  split; [|split; [|split]].
  - intros E. rewrite E in D. replace (255 * M / M) with 255 in D by (field; lra). apply (K 255%Z). apply Rabs_def1; lra.
  - intros E. rewrite E in D. replace (255 * - M / M) with (-255) in D by (field; lra). apply (K (-255)%Z). apply Rabs_def1; lra.
  - intros E. rewrite E in D. replace (255 * 0 / M) with 0 in D by (field; lra). apply (K 0%Z). apply Rabs_def1; lra.
  - intros EM c E. rewrite E, EM in D. replace (255 * IZR c / 255) with (IZR c) in D by field. apply K. apply Rabs_def1; lra.
Qed.
(** The order of the weights within a projection is kept. *)
Theorem c118_order projs pops r k w l w' i j x y x' y' : NoDup (map fst pops) -> quantize_network projs pops = Ret r -> nth_error projs k = Some w ->
  altai_neurons (np_post w) pops l -> l <> [] -> Forall fin32 (syn_weights (np_kind w)) -> nth_error (fst r) k = Some w' ->
  nth_error (syn_weights (np_kind w)) i = Some x -> nth_error (syn_weights (np_kind w)) j = Some y ->
  nth_error (syn_weights (np_kind w')) i = Some x' -> nth_error (syn_weights (np_kind w')) j = Some y' ->
  val x <= val y -> val x' <= val y'.
Proof.
  intros Nd H Hk Hl Ne Fw Hk' X Y X' Y' Le. destruct (at_step _ _ _ _ _ _ Nd H Hk Hl Ne) as (before & a & lk & A & B & C & L & Nk & E & _).
  destruct (one_scale _ _ _ B lk L Nk Fw) as (M & s & l' & P1 & P2 & _ & _ & P3 & P4).
  assert (w' = fst a) by (rewrite C in Hk'; injection Hk'; auto). subst w'. rewrite P3, nth_error_map in X', Y'. rewrite X in X'. rewrite Y in Y'.
  assert (Ex : x' = f_round (f_mul x s)) by exact (f_equal (fun o => match o with Some q => q | None => x' end) (eq_sym X')).
  assert (Ey : y' = f_round (f_mul y s)) by exact (f_equal (fun o => match o with Some q => q | None => y' end) (eq_sym Y')).
  subst. rewrite Forall_forall in Fw, P4. apply nth_error_In in X, Y. apply (weight_mono M s); auto.
Qed.
(** The whole network: afterwards every weight is a whole number from -255 to 255. *)
Theorem c118_all_weights projs pops r : NoDup (map fst pops) -> quantize_network projs pops = Ret r ->
  (forall w, In w projs -> Forall fin32 (syn_weights (np_kind w)) /\ exists l, altai_neurons (np_post w) pops l /\ l <> []) ->
  forall w x, In w (fst r) -> In x (syn_weights (np_kind w)) -> fin32 x /\ exists z : Z, val x = IZR z /\ (-255 <= z <= 255)%Z.
Proof.
  intros Nd H Hw w' x Hw' Hx. apply In_nth_error in Hw' as [k Hk'].
  assert (Len : length (fst r) = length projs).
  { pose proof (net_projs _ _ _ H) as E. apply (f_equal (@length _)) in E. now rewrite !map_length in E. }
  destruct (nth_error projs k) as [w|] eqn:Hk; [|apply nth_error_None in Hk; rewrite <- Len in Hk; apply nth_error_None in Hk; congruence].
  destruct (Hw w (nth_error_In _ _ Hk)) as (Fw & l & Hl & Ne).
  destruct (c118_weights _ _ _ _ _ _ Nd H Hk Hl Ne Fw) as (before & lk & M & w2 & _ & _ & _ & _ & _ & Hk2 & Q).
  assert (w2 = w') by (rewrite Hk' in Hk2; injection Hk2; auto). subst w2. clear - Q Hx.
  induction Q as [|a b t t' Q1 Q2 IH]; [destruct Hx|]. destruct Hx as [->|Hx]; [|auto]. destruct Q1 as (F & z & A & B & _). eauto.
Qed.
(** Nothing but weights and thresholds changes, and populations no projection leads to do not change. *)
Theorem c118_unchanged projs pops r : quantize_network projs pops = Ret r ->
  map weightless (fst r) = map weightless projs /\
  map (fun q => (fst q, thresholdless (snd q))) (snd r) = map (fun q => (fst q, thresholdless (snd q))) pops /\
  (NoDup (map fst pops) -> forall u a, In (u, a) pops -> (forall w, In w projs -> np_post w <> u) -> In (u, a) (snd r)).
Proof.
  intros H. destruct (net_pops _ _ _ H) as (A & B & C). split; [eapply net_projs, H|]. split; [exact B|].
  intros Nd u a I Hu. apply lookup_in. rewrite C by exact Hu. now apply in_lookup.
Qed.
(** Only networks all of whose projections lead to populations of plastic AltAI neurons get through. *)
Theorem c118_altai_only projs pops r : quantize_network projs pops = Ret r -> forall w, In w projs -> exists l, altai_neurons (np_post w) pops l.
Proof.
  intros H w Hw. apply In_nth_error in Hw as [k Hk]. destruct (quantize_nth _ _ _ _ _ H Hk) as (before & a & A & B & _).
  apply quantize_one_inv in B as (l & _ & _ & L & _). destruct (net_pops _ _ _ A) as (_ & E & _).
  apply (lookup_map thresholdless (np_post w)) in E. rewrite L in E. cbn in E. destruct (pop_lookup (np_post w) pops) as [a0|] eqn:L0; [|discriminate].
  assert (E' : thresholdless a0 = thresholdless (NStdpAltai l)) by exact (f_equal (fun o => match o with Some y => y | None => a0 end) (eq_sym E)).
  apply blank_len in E' as (l0 & -> & _). exists l0. now apply lookup_in.
Qed.
(** Thresholds: with ordinary thresholds, the first part of the threshold of every neuron that
    a projection leads to is at most 255 afterwards. *)
Theorem c118_thresholds projs pops r : NoDup (map fst pops) -> quantize_network projs pops = Ret r ->
  (forall w, In w projs -> Forall fin32 (syn_weights (np_kind w))) ->
  (forall u l, altai_neurons u pops l -> l <> [] /\ Forall sane l) ->
  forall w l, In w projs -> altai_neurons (np_post w) (snd r) l -> Forall low l.
Proof.
  intros Nd H Fw Hs w l Hw Hl. destruct (net_low _ _ _ H) as [_ L].
  - apply Forall_forall. exact Fw.
  - intros u q Hq. apply (Hs u). now apply lookup_in.
  - apply (L (np_post w)); [|left; eauto]. apply in_lookup; [|exact Hl]. destruct (net_pops _ _ _ H) as (E & _). now rewrite E.
Qed.
(** A population that one projection leads to: both parts of the thresholds are scaled by the
    same factor as the weights; the first is cut, not rounded. *)
Definition threshold_scaled (M : R) (n n' : sneuron al_par al) : Prop :=
  let '(p, _, _) := n in let '(p', _, _) := n' in
  255 * IZR (Z.of_N (ap_thr p)) / M - 1 - bpow radix2 (-15) < IZR (Z.of_N (ap_thr p')) <= 255 * IZR (Z.of_N (ap_thr p)) / M + bpow radix2 (-15) /\
  Rabs (val (ap_add p') - 255 * val (ap_add p) / M) <= bpow radix2 (-23) * (255 * val (ap_add p) / M) + bpow radix2 (-1000).
Theorem c118_threshold_once projs pops r k w l : NoDup (map fst pops) -> quantize_network projs pops = Ret r -> nth_error projs k = Some w ->
  (forall j v, j <> k -> nth_error projs j = Some v -> np_post v <> np_post w) ->
  altai_neurons (np_post w) pops l -> l <> [] -> Forall fin32 (syn_weights (np_kind w)) -> Forall sane l ->
  exists M l' w', largest (magnitudes w l) M /\ 0 < M /\ nth_error (fst r) k = Some w' /\
    Forall2 (quantized M) (syn_weights (np_kind w)) (syn_weights (np_kind w')) /\
    altai_neurons (np_post w) (snd r) l' /\ Forall2 (threshold_scaled M) l l'.
Proof.
  intros Nd H Hk Once Hl Ne Fw Sl. destruct (at_step _ _ _ _ _ _ Nd H Hk Hl Ne) as (before & a & lk & A & B & C & L & Nk & E & Rest).
  assert (lk = l) by (apply E; intros j v J; apply Once; lia). subst lk.
  destruct (one_scale _ _ _ B l L Nk Fw) as (M & s & l' & P1 & P2 & P3 & P4 & P5 & P6).
  destruct (one_thresholds _ _ _ _ B L Nk Fw Sl) as (M2 & _ & _ & Q1 & _ & _ & _ & _ & Q2).
  assert (M2 = M). { destruct P1 as [X1 X2], Q1 as [Y1 Y2]. rewrite Forall_forall in X2, Y2. apply Rle_antisym; auto. } subst M2.
  exists M, l', (fst a). split; [exact P1|]. split; [apply P2|]. split; [exact C|]. split; [|split].
  - rewrite P5. clear P5 P1. induction (syn_weights (np_kind w)) as [|x t IH]; cbn [map]; [constructor|].
    apply Forall_cons_iff in Fw as [F1 F2]. apply Forall_cons_iff in P6 as [R1 R2]. constructor; [|now apply IH]. now apply (weight_real M s x).
  - apply lookup_in. destruct (net_pops _ _ _ Rest) as (_ & _ & O). cbn [snd] in O. rewrite O; [exact P4|].
    intros v Hv. apply In_nth_error in Hv as [j Hj]. apply (Once (S k + j)%nat); [lia|]. clear - Hj. revert k Hj.
    induction projs as [|p t IH]; intros k Hj; [destruct j; discriminate|]. destruct k as [|k]; [exact Hj|]. cbn [skipn] in Hj. cbn. now apply IH.
  - clear - P3 P2 Q2 Sl. induction P3 as [|n n' l l' S1 S2 IH]; [constructor|]. apply Forall_cons_iff in Q2 as [U1 U2]. apply Forall_cons_iff in Sl as [T1 T2].
    constructor; [|now apply IH]. destruct n as [[p st] x], n' as [[p' st'] x']. destruct S1 as (_ & _ & _ & V1 & V2). destruct T1 as (W1 & W2 & W3). destruct U1 as [U1 U3].
    cbn [threshold_scaled]. split; [now apply (threshold_real M s)|]. rewrite V2. now apply (add_near M s).
Qed.
(** Quantization goes through for every network with ordinary thresholds, all of whose
    projections lead to plastic AltAI neurons and have a weight that is not tiny. *)
Theorem c118_completes projs pops : NoDup (map fst pops) ->
  (forall w, In w projs -> Forall fin32 (syn_weights (np_kind w)) /\ Exists (fun x => / 128 <= Rabs (val x)) (syn_weights (np_kind w)) /\
     exists l, altai_neurons (np_post w) pops l) ->
  (forall u l, altai_neurons u pops l -> Forall (fun n => sane n /\ room n) l) ->
  exists r, quantize_network projs pops = Ret r.
Proof.
  intros Nd H Hp. apply net_completes.
  - apply Forall_forall. intros w Hw. destruct (H w Hw) as (A & B & l & C). split; [exact A|]. split; [exact B|]. exists l. now apply in_lookup.
  - intros u l L. apply (Hp u). now apply lookup_in.
Qed.

(** ** A network *)
Definition q_tn : tn := mkTn (f_of_Z 1) 3 (f_of_Z 0) (f_of_Z 1) 0 (f_of_Z 0) (f_of_Z 0) (f_of_Z 0) 10 (f_of_Z 0) not_in_period 0 0 0 false.
Definition q_neuron (thr : N) (leak : Z) : sneuron al_par al := (mkAlPar false true true true false thr 30000 leak 0 d_zero, mkAl (S754_zero false) (S754_zero false) int64_max d_zero, q_tn).
Definition q_syn (x : Z) (i : N) : dsyn := mkSyn (mkDP (f_of_Z x) 1 EXCITATORY) i 0.
Definition q_pops (thr : N) (leak : Z) : list (uid * npop) := [(1%N, NStdpAltai [q_neuron thr leak]); (2%N, NPlain (PopLif [ex_lif2]))].
Definition q_two : list nproj := [mkNP 21 0 1 true (NDelta (proj_generated (fun i => nth_error [q_syn 50 0; q_syn (-20) 1] i) 2)) []; mkNP 22 0 1 true (NDelta (gen1 (q_syn 100 0))) []].
Definition q_weights (o : outcome (list nproj * list (uid * npop))) : list (list flt) :=
  match o with Ret r => map (fun w => syn_weights (np_kind w)) (fst r) | _ => [] end.
Definition q_thr (o : outcome (list nproj * list (uid * npop))) : list (list N) :=
  match o with Ret r => map (fun q => match snd q with NStdpAltai l => map (fun n => ap_thr (fst (fst n))) l | _ => [] end) (snd r) | _ => [] end.
Lemma q_val (z : Z) : (Z.abs z <= 2 ^ 24)%Z -> fin32 (f_of_Z z) /\ val (f_of_Z z) = IZR z.
Proof.
  intros H. pose proof (of_Z_real 24 128 Quant_Proofs2.P24 Quant_Proofs2.E128 z) as C. cbn zeta in C. rewrite (rn_Z z H) in C. specialize (C (Z_bounded z H)). destruct z; exact C.
Qed.
Lemma q_sane thr leak : (thr < 65536)%N -> sane (q_neuron thr leak) /\ room (q_neuron thr leak).
Proof. intros H. cbn. split; [split; [exact H|split; [split; reflexivity|lra]]|]. rewrite Rplus_0_r. apply IZR_le. lia. Qed.
(** The hypotheses hold for a network with two projections. *)
Example c118_case : NoDup (map fst (q_pops 100 0)) /\
  (forall w, In w q_two -> Forall fin32 (syn_weights (np_kind w)) /\ Exists (fun x => / 128 <= Rabs (val x)) (syn_weights (np_kind w)) /\
     exists l, altai_neurons (np_post w) (q_pops 100 0) l /\ l <> []) /\
  (forall u l, altai_neurons u (q_pops 100 0) l -> l <> [] /\ Forall (fun n => sane n /\ room n) l) /\
  exists r, quantize_network q_two (q_pops 100 0) = Ret r /\
    q_weights (Ret r) = [[f_of_Z 128; f_of_Z (-51)]; [f_of_Z 100]] /\ q_thr (Ret r) = [[255%N]; []].
Proof.
  split; [repeat constructor; cbn; intuition discriminate|]. split; [|split].
  - assert (Fs : forall z : Z, (Z.abs z <= 2 ^ 24)%Z -> (50 <= Z.abs z)%Z -> / 128 <= Rabs (val (f_of_Z z))).
    { intros z Hz H. destruct (q_val z Hz) as [_ ->]. rewrite <- abs_IZR. apply IZR_le in H. lra. }
    intros w [<-|[<-|[]]]; cbn [np_kind np_post].
    + change (syn_weights _) with [f_of_Z 50; f_of_Z (-20)]. split; [repeat constructor; apply q_val; lia|]. split; [constructor; apply Fs; lia|]. exists [q_neuron 100 0]. split; [left; reflexivity|discriminate].
    + change (syn_weights _) with [f_of_Z 100]. split; [repeat constructor; apply q_val; lia|]. split; [constructor; apply Fs; lia|]. exists [q_neuron 100 0]. split; [left; reflexivity|discriminate].
  - intros u l [H|[H|[]]]; [|discriminate]. assert (l = [q_neuron 100 0]) by exact (f_equal (fun q => match snd q with NStdpAltai z => z | _ => l end) (eq_sym H)). subst l.
    split; [discriminate|]. constructor; [now apply q_sane|constructor].
  - destruct (quantize_network q_two (q_pops 100 0)) as [r| |] eqn:E.
    + exists r. split; [reflexivity|]. rewrite <- E. split; vm_compute; reflexivity.
    + vm_compute in E. discriminate.
    + vm_compute in E. discriminate.
Qed.

(** ** What does not hold *)
(** The spikes of the first population for one excitatory impact on its first neuron. *)
Definition q_spikes (o : outcome (list nproj * list (uid * npop))) (x : flt) : option (list N) :=
  match o with
  | Ret (_, (_, NStdpAltai l) :: _) =>
      match stdp_front (s_pre (al_prestep true)) (s_impact al_impact) (s_post al_post) [ImpactMsg 21 0 0 1 false [mkImpact 0 x EXCITATORY 0 0]] l with
      | Ret (_, idx) => Some idx
      | _ => None
      end
  | _ => None
  end.
(** The thresholds are scaled once for every projection that leads to the population, the
    weights once: the relation between projections is lost - a weight of 50 becomes larger than a weight of
    100 - and a neuron that the impact of the second synapse made fire does not fire any more. *)
Theorem c118_relation_refuted : exists projs pops, quantize_network projs pops <> Throw /\ quantize_network projs pops <> UB /\
  map (fun w => syn_weights (np_kind w)) projs = [[f_of_Z 50; f_of_Z (-20)]; [f_of_Z 100]] /\
  q_weights (quantize_network projs pops) = [[f_of_Z 128; f_of_Z (-51)]; [f_of_Z 100]] /\
  q_spikes (Ret (projs, pops)) (f_of_Z 100) = Some [0%N] /\ q_spikes (quantize_network projs pops) (f_of_Z 100) = Some [].
Proof. exists q_two, (q_pops 100 0). split; [vm_compute; discriminate|]. split; [vm_compute; discriminate|]. repeat split; vm_compute; reflexivity. Qed.
(** The leak is not scaled (nor the negative threshold nor the reset value): with a leak of +1, a threshold of 2 and one synapse of
    weight 1 the neuron fires on one spike; after quantization it does not. *)
Theorem c118_leak_refuted : exists projs pops, map (fun w => syn_weights (np_kind w)) projs = [[f_of_Z 1]] /\ q_weights (quantize_network projs pops) = [[f_of_Z 128]] /\
  q_spikes (Ret (projs, pops)) (f_of_Z 1) = Some [0%N] /\ q_spikes (quantize_network projs pops) (f_of_Z 128) = Some [].
Proof. exists [mkNP 21 0 1 true (NDelta (gen1 (q_syn 1 0))) []], (q_pops 2 1). repeat split; vm_compute; reflexivity. Qed.
(** Weights and thresholds that are all 0: the quotient of 255 by 0 reaches the thresholds, and the
    conversion is undefined; into an empty population the weights become not-a-number. *)
Theorem c118_zero_refuted : (exists projs pops, quantize_network projs pops = UB /\ map (fun w => syn_weights (np_kind w)) projs = [[f_of_Z 0]]) /\
  (exists projs pops, q_weights (quantize_network projs pops) = [[S754_nan]] /\ map (fun w => syn_weights (np_kind w)) projs = [[f_of_Z 0]]).
Proof.
  split.
  - exists [mkNP 21 0 1 true (NDelta (gen1 (q_syn 0 0))) []], (q_pops 0 0). split; vm_compute; reflexivity.
  - exists [mkNP 21 0 1 true (NDelta (gen1 (q_syn 0 0))) []], [(1%N, NStdpAltai [])]. split; vm_compute; reflexivity.
Qed.

Print Assumptions c118_weights.
Print Assumptions c118_ends.
Print Assumptions c118_order.
Print Assumptions c118_all_weights.
Print Assumptions c118_unchanged.
Print Assumptions c118_altai_only.
Print Assumptions c118_thresholds.
Print Assumptions c118_threshold_once.
Print Assumptions c118_completes.
Print Assumptions c118_relation_refuted.
Print Assumptions c118_leak_refuted.
Print Assumptions c118_zero_refuted.
