(** What a network made with the network constructor should be. *)
From Verif Require Import Base Messaging_Model Projection_Model Delta_Model Neuron_Model Pipeline_Model
  Stdp_Model Additive_Model Train_Model Net_Model Net_Spec Safe_Spec Build_Model.

(** What a list of calls declares: populations; those to keep; outputs; identifiers of projections. *)
Definition declared (calls : list bcall) : list (uid * npop) :=
  flat_map (fun c => match c with AddPopulation u n k _ _ => [(u, population_of n k)] | _ => [] end) calls.
Definition declared_kept (calls : list bcall) : list uid :=
  flat_map (fun c => match c with AddPopulation u _ _ _ true => [u] | _ => [] end) calls.
Definition declared_outputs (calls : list bcall) : list uid :=
  flat_map (fun c => match c with AddPopulation u _ _ OUTPUT _ => [u] | _ => [] end) calls.
Definition declared_projections (calls : list bcall) : list uid :=
  flat_map (fun c => match c with AddProjection u _ _ _ _ _ _ => [u] | _ => [] end) calls.
(** The populations, real or channeled, a constructor knows after the calls. *)
Definition scope (calls : list bcall) : list pinfo :=
  fold_left (fun l c => match c with
    | NewConstructor => []
    | AddPopulation u _ k r keep => l ++ [mkInfo r keep k u]
    | AddChanneled k keep => l ++ [mkInfo CHANNELED keep k 0]
    | AddProjection _ _ _ _ _ _ _ => l
    end) calls [].

(** The synapses a call asks for: from every neuron to every other, or from blocks to neurons or neurons to
    blocks; from 0 to the sizes of the two ends. *)
Definition joins (c : creator) (pre post : nat) (a b : nat) : Prop :=
  a < pre /\ b < post /\
  match c with
  | AllToAll => True
  | Aligned => if Nat.leb post pre then b = a / (pre / post) else a = b / (post / pre)
  end.
(** Sizes a creator can deal with. *)
Definition sized (c : creator) (pre post : nat) : Prop :=
  match c with
  | AllToAll => (N.of_nat pre * N.of_nat post < two64)%N
  | Aligned => 0 < pre /\ 0 < post /\ Nat.max pre post mod Nat.min pre post = 0
  end.
Definition template_type (t : template) : output_type :=
  match t with GDelta x => d_type x | GAdditive x => d_type (a_delta x) | GResource x => d_type (rp_delta x) end.
Definition template_weight (t : template) : flt :=
  match t with GDelta x => d_weight x | GAdditive x => d_weight (a_delta x) | GResource x => d_weight (rp_delta x) end.

(** Projection [w] is what the call asks for when the constructor knows [known]. *)
Definition asked (known : list pinfo) (c : bcall) (a b : pinfo) (w : nproj) : Prop :=
  match c with
  | AddProjection u t cr pre post tr wta =>
      nth_error known pre = Some a /\ nth_error known post = Some b /\
      np_uid w = u /\ np_pre w = (if wta then 0%N else pi_uid a) /\ np_post w = pi_uid b /\ np_locked w = negb tr /\ np_queue w = [] /\
      (match t, np_kind w with GDelta _, NDelta _ | GAdditive _, NAdditive [] _ | GResource _, NResource [] _ => True | _, _ => False end) /\
      NoDup (map (fun s => (sy_from s, sy_to s)) (delta_synapses w)) /\
      (forall x y, In (N.of_nat x, N.of_nat y) (map (fun s => (sy_from s, sy_to s)) (delta_synapses w)) <-> joins cr (pi_size a) (pi_size b) x y) /\
      forall s, In s (delta_synapses w) -> d_type (sy_params s) = template_type t /\ d_weight (sy_params s) = template_weight t
  | _ => False
  end.

(** Calls that make sense: new identifiers, sizes the creators can deal with, synapses of types the neurons take. *)
Record sensible (calls : list bcall) : Prop := mkSensible {
  se_pops : NoDup (map fst (declared calls));
  se_projs : NoDup (declared_projections calls);
  se_population : forall u n k r keep, In (AddPopulation u n k r keep) calls -> u <> 0%N /\ (N.of_nat k <= two32)%N /\ settled (population_of n k);
  se_projection : forall before u t c pre post tr wta after, calls = before ++ AddProjection u t c pre post tr wta :: after ->
    exists a b, nth_error (scope before) pre = Some a /\ nth_error (scope before) post = Some b /\ sized c (pi_size a) (pi_size b) /\
      (template_type t = BLOCKING -> exists x, t = GDelta x) /\
      forall n k, In (pi_uid b, population_of n k) (declared calls) -> takes (population_of n k) (template_type t) (template_weight t) }.

(** What the networks of the example need: new identifiers, sizes that can be counted, neurons that are not
    blocked from the start and take what is sent to them. *)
Record proper (m : names) (q : parts) (classes column raster : nat) : Prop := mkProper {
  pr_pops : NoDup [nm_input m; nm_output m; nm_gate m];
  pr_some : ~ In 0%N [nm_input m; nm_output m; nm_gate m];
  pr_projs : NoDup [nm_raster_input m; nm_target_input_dopamine m; nm_target_input_excitatory m; nm_target_gate m; nm_input_output m; nm_output_gate m; nm_gate_input m];
  pr_classes : 0 < classes;
  pr_column : 0 < column;
  pr_input : (N.of_nat (classes * column) < two32)%N;
  pr_raster : (N.of_nat raster * N.of_nat (classes * column) < two64)%N;
  pr_settled : forall k, settled (population_of (pt_input q) k) /\ settled (population_of (pt_other q) k);
  pr_images : d_type (rp_delta (pt_raster_input q)) <> BLOCKING /\
    forall k, takes (population_of (pt_input q) k) (d_type (rp_delta (pt_raster_input q))) (d_weight (rp_delta (pt_raster_input q)));
  pr_takes : (forall x, In x [pt_target_input_dopamine q; pt_target_input_excitatory q; pt_gate_input q] -> forall k, takes (population_of (pt_input q) k) (d_type x) (d_weight x)) /\
    forall x, In x [pt_target_gate q; pt_input_output q; pt_output_gate q] -> forall k, takes (population_of (pt_other q) k) (d_type x) (d_weight x) }.
(** Identifier, ends, lock and number of synapses of a projection. *)
Definition shape (w : nproj) : uid * uid * uid * bool * N := (np_uid w, np_pre w, np_post w, np_locked w, N.of_nat (length (delta_synapses w))).
