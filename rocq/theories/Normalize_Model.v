(** Model of base-framework/include/knp/framework/normalization (paths are relative to
    that directory). *)
From Verif Require Import Base Neuron_Model Projection_Model Delta_Model.

(** ** Rescaler *)
(** Rescaler<float> and Rescaler<double>: the arithmetic of the format with [prec] bits
    and exponents up to [emax]. *)
Section Rescaler.
Variable prec emax : Z.
(** normalizers.h:58-67: the bounds of the intervals and the quotient of their lengths,
    which the constructor computes. *)
Record rescaler := mkRescaler { rs_in_start : flt; rs_in_end : flt; rs_out_start : flt; rs_out_end : flt; rs_ratio : flt }.
Definition rescaler_new (a b c d : flt) : rescaler :=
  mkRescaler a b c d (SFdiv prec emax (SFsub prec emax d c) (SFsub prec emax b a)).
(** normalizers.h:76-79. *)
Definition rescale (r : rescaler) (v : flt) : flt :=
  SFadd prec emax (rs_out_start r) (SFmul prec emax (SFsub prec emax v (rs_in_start r)) (rs_ratio r)).
End Rescaler.
(** Rescaler<int>: the same text with the division of integers, which truncates and is
    undefined for 0.  Overflow of [int] is left out: the numbers here have no bound. *)
Definition int_rescale (a b c d v : Z) : outcome Z :=
  if Z.eqb (b - a) 0 then UB else Ret (c + (v - a) * Z.quot (d - c) (b - a))%Z.

(** ** Conversions between the type of a parameter and the type of the corrector *)
Inductive width := F32 | F64.
Definition conv (from to : width) (x : flt) : flt :=
  match from, to with F64, F32 => f_of_d x | _, _ => x end.

(** ** Neurons and synapses *)
(** The kinds of neurons; [potential_] of BLIFAT is a double (blifat.h:280), of LIF
    (lif.h:91) and AltAI (altai_lif.h) a float. *)
Inductive neuron := NLif (p : lif_par) (n : lif) | NBlifat (p : bl_par) (n : bl) | NAltai (p : al_par) (n : al).
Definition width_of (n : neuron) : width := match n with NBlifat _ _ => F64 | _ => F32 end.
(** PotentialAccessor, neuron_accessors.h:59, 67-70. *)
Definition get_potential (n : neuron) : flt :=
  match n with NLif _ s => l_pot s | NBlifat _ s => b_pot s | NAltai _ s => a_pot s end.
Definition set_potential (n : neuron) (x : flt) : neuron :=
  match n with
  | NLif p s => NLif p (mkLif x (l_cnt s))
  | NBlifat p s => NBlifat p (mkBl (b_since s) (b_dyn s) (b_trace s) (b_inh s) x (b_pre s) (b_phase s) (b_block s) (b_dopa s))
  | NAltai p s => NAltai p (mkAl x (a_pre s) (a_time s) (a_dopa s))
  end.
(** Parameters of a synapse: those of the delta synapse and those of a training rule. *)
Record sparams (R : Type) := mkSparams { sp_delta : dparams; sp_rule : R }.
Arguments mkSparams {R}. Arguments sp_delta {R}. Arguments sp_rule {R}.
(** WeightAccessor, synapse_accessors.h:59, 67. *)
Definition get_weight {R} (p : sparams R) : flt := d_weight (sp_delta p).
Definition set_weight {R} (p : sparams R) (w : flt) : sparams R := mkSparams (mkDP w (d_delay (sp_delta p)) (d_type (sp_delta p))) (sp_rule p).

(** ** Normalization *)
Section Normalize.
Context {R : Type}.
Record npop := mkNpop { np_uid : uid; np_neurons : list neuron }.
Record nproj := mkNproj { nj_uid : uid; nj_pre : uid; nj_post : uid; nj_proj : @proj (sparams R) }.
Record nnet := mkNnet { nn_pops : list npop; nn_projs : list nproj }.
(** A corrector works with floats or doubles and may have a state. *)
Context {S : Type}.
Variable w : width.
Variable corrector : S -> flt -> S * flt.
(** The loop over the elements, neuron_normalizer.h:59-63 and synapse_normalizer.h:61-66:
    [setter(e, corrector(getter(e)))]. *)
Fixpoint each {E} (width_e : E -> width) (get : E -> flt) (set : E -> flt -> E) (s : S) (l : list E) : list E :=
  match l with
  | [] => []
  | e :: t => let '(s', y) := corrector s (conv (width_e e) w (get e)) in
              set e (conv w (width_e e) y) :: each width_e get set s' t
  end.
Definition normalize_population (s : S) (p : npop) : npop :=
  mkNpop (np_uid p) (each width_of get_potential set_potential s (np_neurons p)).
Definition normalize_projection (s : S) (p : nproj) : nproj :=
  mkNproj (nj_uid p) (nj_pre p) (nj_post p)
    (mkProj (each (fun _ => F32) (fun y => get_weight (sy_params y)) (fun y x => mkSyn (set_weight (sy_params y) x) (sy_from y) (sy_to y)) s (p_syn (nj_proj p)))
       (p_index (nj_proj p)) (p_updated (nj_proj p))).
(** A network, neuron_normalizer.h:79-93, synapse_normalizer.h:82-96: every element of the
    container; the corrector is passed by value, so each one starts with its state [s]. *)
Definition normalize_neurons (s : S) (n : nnet) : nnet := mkNnet (map (normalize_population s) (nn_pops n)) (nn_projs n).
Definition normalize_synapses (s : S) (n : nnet) : nnet := mkNnet (nn_pops n) (map (normalize_projection s) (nn_projs n)).
End Normalize.
Arguments npop : clear implicits. Arguments nproj : clear implicits. Arguments nnet : clear implicits.
Arguments nn_pops {R}. Arguments nn_projs {R}. Arguments nj_uid {R}. Arguments nj_pre {R}. Arguments nj_post {R}. Arguments nj_proj {R}.
