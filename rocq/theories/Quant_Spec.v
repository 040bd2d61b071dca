(** What quantization should do, in terms of real numbers. *)
From Verif Require Import Base Messaging_Model Projection_Model Delta_Model Neuron_Model Pipeline_Model
  Stdp_Model Additive_Model Train_Model Net_Model FloatReal Metrics_Proofs.
From Coq Require Import Reals Psatz.
From Flocq Require Import Core IEEE754.BinarySingleNaN.

(** The weights of the synapses of a projection, in the order of the synapses. *)
Definition syn_weights (k : nkind) : list flt :=
  match k with
  | NDelta p => map (fun s => d_weight (sy_params s)) (p_syn p)
  | NAdditive _ p => map (fun s => d_weight (a_delta (sy_params s))) (p_syn p)
  | NResource _ p => map (fun s => d_weight (rp_delta (sy_params s))) (p_syn p)
  end.
(** Everything in a projection but the weights. *)
Definition no_weight (d : dparams) : dparams := mkDP (S754_zero false) (d_delay d) (d_type d).
Definition weightless (w : nproj) : nproj :=
  let kind := match np_kind w with
    | NDelta p => NDelta (mkProj (map (fun s => mkSyn (no_weight (sy_params s)) (sy_from s) (sy_to s)) (p_syn p)) (p_index p) (p_updated p))
    | NAdditive l p => NAdditive l (mkProj (map (fun s => mkSyn (mkAP (no_weight (a_delta (sy_params s))) (a_tau_plus (sy_params s))
        (a_tau_minus (sy_params s)) (a_pre (sy_params s)) (a_post (sy_params s))) (sy_from s) (sy_to s)) (p_syn p)) (p_index p) (p_updated p))
    | NResource l p => NResource l (mkProj (map (fun s => mkSyn (mkRP (no_weight (rp_delta (sy_params s))) (rp_rule (sy_params s)))
        (sy_from s) (sy_to s)) (p_syn p)) (p_index p) (p_updated p))
    end in
  mkNP (np_uid w) (np_pre w) (np_post w) (np_locked w) kind (np_queue w).
(** Everything in a population but the two parts of the thresholds of plastic AltAI neurons. *)
Definition no_threshold (p : al_par) : al_par :=
  mkAlPar (ap_diff p) (ap_reset p) (ap_rev p) (ap_sat p) (ap_nosave p) 0 (ap_neg p) (ap_leak p) (ap_resetv p) (S754_zero false).
Definition thresholdless (a : npop) : npop :=
  match a with
  | NStdpAltai l => NStdpAltai (map (fun n => let '(p, s, x) := n in (no_threshold p, s, x)) l)
  | _ => a
  end.
(** The neurons of a population of plastic AltAI neurons. *)
Definition altai_neurons (u : uid) (pops : list (uid * npop)) (l : list (sneuron al_par al)) : Prop := In (u, NStdpAltai l) pops.
(** The threshold of a neuron: the [double] sum of its two parts, cut to a whole number. *)
Definition whole_threshold (n : sneuron al_par al) : Z :=
  let '(p, _, _) := n in Ztrunc (val (d_add (d_of_Z (Z.of_N (ap_thr p))) (ap_add p))).
(** The numbers that should fit into the range, and the largest of them. *)
Definition magnitudes (w : nproj) (l : list (sneuron al_par al)) : list R :=
  map (fun x => Rabs (val x)) (syn_weights (np_kind w)) ++ map (fun n => IZR (whole_threshold n)) l.
Definition largest (l : list R) (m : R) : Prop := In m l /\ Forall (fun x => (x <= m)%R) l.
(** [y] is a whole number in [-255, 255] and [x], scaled so that [m] becomes 255, up to rounding. *)
Definition quantized (m : R) (x y : flt) : Prop :=
  fin32 y /\ exists z : Z, val y = IZR z /\ (-255 <= z <= 255)%Z /\ (Rabs (IZR z - 255 * val x / m) <= / 2 + bpow radix2 (-15))%R.
(** Ordinary thresholds: the first part is a [uint16_t], the second is not negative;
    the first part is in the range; the sum leaves room for the conversion to [uint16_t]. *)
Definition sane (n : sneuron al_par al) : Prop :=
  let '(p, _, _) := n in (ap_thr p < 65536)%N /\ fin 53 1024 (ap_add p) /\ (0 <= val (ap_add p))%R.
Definition low (n : sneuron al_par al) : Prop := let '(p, _, _) := n in (ap_thr p <= 255)%N.
Definition room (n : sneuron al_par al) : Prop := let '(p, _, _) := n in (IZR (Z.of_N (ap_thr p)) + val (ap_add p) <= 65535)%R.
