(** Model of the preparation of an AltAI network for inference in the MNIST example,
    /repo/examples/mnist-learn/models/altai/prepare_network_for_inference.cpp. *)
From Verif Require Import Base Messaging_Model Projection_Model Delta_Model Neuron_Model Pipeline_Model
  Stdp_Model Additive_Model Train_Model Net_Model.

(** [std::abs] of a [float]. *)
Definition f_abs (x : flt) : flt := SFabs x.
(** Conversion of a [float] or [double] to [uint16_t]: truncation; out of range it is
    undefined behaviour. *)
Definition to_u16 (x : flt) : outcome N :=
  match Z_trunc x with
  | Some z => if ((0 <=? z) && (z <? 65536))%Z then Ret (Z.to_N z) else UB
  | None => UB
  end.

(** [std::get<synapse_data>(synapse).weight_] of all synapses of a projection, and
    replacing the weights. *)
Definition set_weight (x : flt) (d : dparams) : dparams := mkDP x (d_delay d) (d_type d).
Definition on_syn {P} (f : P -> P) (s : synapse P) : synapse P := mkSyn (f (sy_params s)) (sy_from s) (sy_to s).
Definition on_syns {P} (f : P -> P) (p : proj P) : proj P := mkProj (map (on_syn f) (p_syn p)) (p_index p) (p_updated p).
Definition kind_weights (k : nkind) : list flt :=
  match k with
  | NDelta p => map (fun s => d_weight (sy_params s)) (p_syn p)
  | NAdditive _ p => map (fun s => d_weight (a_delta (sy_params s))) (p_syn p)
  | NResource _ p => map (fun s => d_weight (rp_delta (sy_params s))) (p_syn p)
  end.
Definition on_weights (f : flt -> flt) (k : nkind) : nkind :=
  match k with
  | NDelta p => NDelta (on_syns (fun d => set_weight (f (d_weight d)) d) p)
  | NAdditive l p => NAdditive l (on_syns (fun a =>
      mkAP (set_weight (f (d_weight (a_delta a))) (a_delta a)) (a_tau_plus a) (a_tau_minus a) (a_pre a) (a_post a)) p)
  | NResource l p => NResource l (on_syns (fun r => mkRP (set_weight (f (d_weight (rp_delta r))) (rp_delta r)) (rp_rule r)) p)
  end.

(** Lines 66-72: the largest and the smallest weight, not below and not above 0. *)
Definition extremes (l : list flt) : flt * flt :=
  fold_left (fun mm x => (if f_lt (fst mm) x then x else fst mm, if f_gt (snd mm) x then x else snd mm)) l
            (S754_zero false, S754_zero false).
(** Lines 78-81; [activation_threshold_] is [uint16_t], [additional_threshold_] is
    [double] (altai_lif.h:278, 341), the sum is converted for [std::max<uint16_t>]. *)
Fixpoint max_threshold (l : list (sneuron al_par al)) (m : N) : outcome N :=
  match l with
  | [] => Ret m
  | (p, _, _) :: t => obind (to_u16 (d_add (d_of_Z (Z.of_N (ap_thr p))) (ap_add p))) (fun x => max_threshold t (N.max m x))
  end.
(** [std::max] of three, lines 83-84. *)
Definition max3 (a b c : flt) : flt := let m := if f_lt a b then b else a in if f_lt m c then c else m.
(** Lines 94-98. *)
Definition scale_threshold (scale : flt) (n : sneuron al_par al) : outcome (sneuron al_par al) :=
  let '(p, s, x) := n in
  obind (to_u16 (f_mul (f_of_Z (Z.of_N (ap_thr p))) scale)) (fun t =>
  Ret (mkAlPar (ap_diff p) (ap_reset p) (ap_rev p) (ap_sat p) (ap_nosave p) t (ap_neg p) (ap_leak p) (ap_resetv p)
               (d_mul (ap_add p) (d_of_f scale)), s, x)).
Fixpoint scale_thresholds (scale : flt) (l : list (sneuron al_par al)) : outcome (list (sneuron al_par al)) :=
  match l with
  | [] => Ret []
  | n :: t => obind (scale_threshold scale n) (fun n' => obind (scale_thresholds scale t) (fun t' => Ret (n' :: t')))
  end.
(** [network.get_population] (an unknown identifier throws) and [std::get] (another
    kind of population throws), lines 74-76. *)
Fixpoint pop_lookup (u : uid) (pops : list (uid * npop)) : option npop :=
  match pops with
  | [] => None
  | (u', a) :: t => if N.eqb u u' then Some a else pop_lookup u t
  end.
Fixpoint pop_put (u : uid) (a : npop) (pops : list (uid * npop)) : list (uid * npop) :=
  match pops with
  | [] => []
  | (u', a') :: t => if N.eqb u u' then (u', a) :: t else (u', a') :: pop_put u a t
  end.
(** The scale, line 85. *)
Definition quant_scale (weights : list flt) (mt : N) : flt :=
  f_div (f_of_Z 255) (max3 (f_abs (fst (extremes weights))) (f_abs (snd (extremes weights))) (f_abs (f_of_Z (Z.of_N mt)))).
(** The visitor for one projection, lines 64-99. *)
Definition quantize_one (w : nproj) (pops : list (uid * npop)) : outcome (nproj * list (uid * npop)) :=
  match pop_lookup (np_post w) pops with
  | Some (NStdpAltai l) =>
      obind (max_threshold l 0) (fun mt =>
      let scale := quant_scale (kind_weights (np_kind w)) mt in
      let w' := np_with w (on_weights (fun x => f_round (f_mul x scale)) (np_kind w)) (np_queue w) in
      obind (scale_thresholds scale l) (fun l' => Ret (w', pop_put (np_post w) (NStdpAltai l') pops)))
  | _ => Throw
  end.
(** [quantize_network], lines 59-102. *)
Fixpoint quantize_network (projs : list nproj) (pops : list (uid * npop)) : outcome (list nproj * list (uid * npop)) :=
  match projs with
  | [] => Ret ([], pops)
  | w :: t => obind (quantize_one w pops) (fun r => obind (quantize_network t (snd r)) (fun q => Ret (fst r :: fst q, snd q)))
  end.

(** [resource_from_weight], /repo/examples/mnist-learn/models/resource_from_weight.h:50-62.
    1e-6 cut to [float] is 8796093 * 2^-43. *)
Definition rfw_eps : flt := S754_finite false 8796093 (-43).
Definition resource_from_weight (weight min_weight max_weight : flt) : outcome flt :=
  let lo := if f_gt min_weight max_weight then max_weight else min_weight in
  let hi := if f_gt min_weight max_weight then min_weight else max_weight in
  if f_lt weight lo || f_ge weight (f_sub hi rfw_eps) then Throw
  else let diff := d_of_f (f_sub hi lo) in
       let over := d_of_f (f_sub weight lo) in
       Ret (f_of_d (d_div (d_mul over diff) (d_sub diff over))).
