(** Model of saving a network to disk and loading it back (SONATA layout),
    base-framework/impl/sonata.

    Simplifications, common to the whole file:
    - the HDF5 and CSV libraries are trusted: a data set or attribute read back
      under the type it was written with holds what was written; an HDF5 group
      lists its members in the order of their names; creating a member whose
      name is taken throws; a CSV file written and read back holds the same
      rows.  The header check of the CSV files, which holds for files this code
      wrote, is left out;
    - the neuron and synapse structures are lists of (field name, value) pairs
      instead of C++ structures; an enumeration is its integer value;
    - file system errors are left out, and when saving throws the half-written
      files are not described;
    - logging and the configuration JSON files (written but not read back) are
      left out, except the exception their construction may throw. *)
From Coq Require Import String.
From Verif Require Import Base Codec_Model.
Open Scope list_scope.

(** ** Structures *)
Inductive val := VF (x : flt) | VZ (z : Z) | VB (b : bool).
Definition struct := list (string * val).
Definition names (s : struct) : list string := map fst s.

Fixpoint get (f : string) (s : struct) : option val :=
  match s with
  | [] => None
  | (g, v) :: t => if String.eqb f g then Some v else get f t
  end.
Fixpoint put (f : string) (v : val) (s : struct) : struct :=
  match s with
  | [] => []
  | (g, w) :: t => if String.eqb f g then (g, v) :: t else (g, w) :: put f v t
  end.

Inductive neuron_kind := Blifat | ResourceBlifat | AltAI | ResourceAltAI | Lif.
Inductive synapse_kind := DeltaSyn | AdditiveSyn | ResourceSyn.

(** ** Default values of the structures *)
Open Scope string_scope. Open Scope list_scope.

(** float 0, 1 and numeric_limits<float>::max(); double constants. *)
Definition F0 : val := VF (f_of_Z 0).
Definition F1 : val := VF (f_of_Z 1).
Definition Fmax : val := VF (S754_finite false 16777215 104).
Definition D0 : val := VF (d_of_Z 0).
Definition D1 : val := VF (d_of_Z 1).
Definition Dm03 : val := VF (d_div (d_of_Z (-3)) (d_of_Z 10)).
Definition Dm1e9 : val := VF (d_of_Z (-1000000000)).

(** neuron-traits/lif.h:50-118. *)
Definition lif_default : struct :=
  [("potential_", F0); ("potential_reset_value_", F0); ("activation_threshold_", F1);
   ("leak_coefficient_", F1); ("refract_counter_", VZ 0); ("refract_period_", VZ 0)].
(** neuron-traits/blifat.h:48-343. *)
Definition blifat_default : struct :=
  [("n_time_steps_since_last_firing_", VZ (2 ^ 64 - 1)); ("activation_threshold_", D1);
   ("additional_threshold_", D0); ("dynamic_threshold_", D0); ("threshold_decay_", D0);
   ("threshold_increment_", D0); ("postsynaptic_trace_", D0); ("postsynaptic_trace_decay_", D0);
   ("postsynaptic_trace_increment_", D0); ("inhibitory_conductance_", D0);
   ("inhibitory_conductance_decay_", D0); ("potential_", D0); ("pre_impact_potential_", D0);
   ("potential_decay_", D0); ("bursting_phase_", VZ 0); ("bursting_period_", VZ 0);
   ("reflexive_weight_", D0); ("reversal_inhibitory_potential_", Dm03);
   ("absolute_refractory_period_", VZ 0); ("potential_reset_value_", D0); ("min_potential_", Dm1e9);
   ("total_blocking_period_", VZ (2 ^ 63 - 1)); ("dopamine_value_", D0);
   ("stochastic_stimulation_", D0); ("random_number_generator_state_", VZ 0)].
(** neuron-traits/altai_lif.h:50-352. *)
Definition altai_default : struct :=
  [("is_diff_", VB false); ("is_reset_", VB true); ("leak_rev_", VB true); ("saturate_", VB true);
   ("do_not_save_", VB false); ("potential_", F0); ("pre_impact_potential_", F0);
   ("activation_threshold_", VZ 1); ("negative_activation_threshold_", VZ 30000);
   ("potential_leak_", VZ 0); ("potential_reset_value_", VZ 0); ("dopamine_value_", D0);
   ("additional_threshold_", D0); ("activity_time_", VZ 0)].
(** neuron-traits/stdp_synaptic_resource_rule.h:112-192: the fields added to
    the base neuron ([not_in_period] is the fourth value of the enumeration). *)
Definition resource_default : struct :=
  [("synapse_sum_threshold_coefficient_", F0); ("dopamine_plasticity_time_", VZ 1);
   ("free_synaptic_resource_", F1); ("synaptic_resource_threshold_", Fmax);
   ("resource_drain_coefficient_", VZ 0); ("stability_", F0); ("stability_change_parameter_", F0);
   ("stability_change_at_isi_", F0); ("isi_max_", VZ 1); ("d_h_", F1); ("isi_status_", VZ 3);
   ("last_step_", VZ 0); ("last_spike_step_", VZ 0); ("first_isi_spike_", VZ 0);
   ("is_being_forced_", VB false)].
(** [neuron_parameters<Neuron>{}] (resource_blifat_neuron.cpp:155,
    resource_altai_lif_neuron.cpp:138, lif_neuron.cpp:107, ...). *)
Definition default_neuron (k : neuron_kind) : struct :=
  match k with
  | Blifat => blifat_default
  | ResourceBlifat => blifat_default ++ resource_default
  | AltAI => altai_default
  | ResourceAltAI => altai_default ++ resource_default
  | Lif => lif_default
  end.

(** synapse-traits/delta.h:46-93. *)
Definition delta_default : struct :=
  [("weight_", F0); ("delay_", VZ 1); ("output_type_", VZ 0)].
(** synapse-traits/stdp_synaptic_resource_rule.h:43-89, preceded by the
    parameters of the delta synapse. *)
Definition resource_synapse_default : struct :=
  delta_default ++
  [("synaptic_resource_", F0); ("w_min_", F0); ("w_max_", F1); ("d_u_", F0);
   ("dopamine_plasticity_period_", VZ 0); ("last_spike_step_", VZ 0);
   ("had_hebbian_update_", VB false); ("has_contributed_", VB false)].
(** The parameters of additive STDP synapses never reach a file. *)
Definition default_synapse (k : synapse_kind) : struct :=
  match k with DeltaSyn => delta_default | AdditiveSyn => delta_default | ResourceSyn => resource_synapse_default end.

(** ** What is written and what is read *)

Definition blifat_static : list string :=
  ["n_time_steps_since_last_firing_"; "activation_threshold_"; "threshold_decay_";
   "threshold_increment_"; "postsynaptic_trace_"; "postsynaptic_trace_decay_";
   "postsynaptic_trace_increment_"; "inhibitory_conductance_"; "inhibitory_conductance_decay_";
   "potential_decay_"; "bursting_period_"; "reflexive_weight_"; "reversal_inhibitory_potential_";
   "absolute_refractory_period_"; "potential_reset_value_"; "min_potential_"].
Definition altai_static : list string :=
  ["is_diff_"; "is_reset_"; "leak_rev_"; "saturate_"; "do_not_save_"; "activation_threshold_";
   "negative_activation_threshold_"; "potential_leak_"; "potential_reset_value_"].
Definition rule_static : list string :=
  ["free_synaptic_resource_"; "synaptic_resource_threshold_"; "resource_drain_coefficient_";
   "stability_"; "stability_change_parameter_"; "stability_change_at_isi_"; "isi_max_"; "d_h_";
   "last_step_"; "last_spike_step_"; "first_isi_spike_"; "is_being_forced_";
   "dopamine_plasticity_time_"; "isi_status_"].
Definition blifat_dynamic : list string :=
  ["dynamic_threshold_"; "potential_"; "pre_impact_potential_"; "bursting_phase_";
   "total_blocking_period_"; "dopamine_value_"].

(** Data sets written to group "0": save_static in lif_neuron.cpp:47-53,
    blifat_neuron.cpp:48-69, altai_lif_neuron.cpp:47-59;
    resource_blifat_neuron.cpp:77-117; resource_altai_lif_neuron.cpp:76-106. *)
Definition static_saved (k : neuron_kind) : list string :=
  match k with
  | Lif => ["activation_threshold_"; "leak_coefficient_"; "refract_period_"]
  | Blifat => blifat_static ++ ["stochastic_stimulation_"]
  | AltAI => altai_static
  | ResourceBlifat => blifat_static ++ ["stochastic_stimulation_"] ++ rule_static
  | ResourceAltAI => altai_static ++ rule_static
  end.
(** Data sets written to "0/dynamics_params": lif_neuron.cpp:56-62,
    blifat_neuron.cpp:72-82, altai_lif_neuron.cpp:62-67,
    resource_blifat_neuron.cpp:121-129, resource_altai_lif_neuron.cpp:110-112. *)
Definition dynamic_saved (k : neuron_kind) : list string :=
  match k with
  | Lif => ["potential_"; "refract_counter_"]
  | Blifat => blifat_dynamic ++ ["random_number_generator_state_"]
  | AltAI => ["potential_"]
  | ResourceBlifat => blifat_dynamic ++ ["additional_threshold_"; "random_number_generator_state_"]
  | ResourceAltAI => ["dopamine_value_"; "additional_threshold_"]
  end.
(** Data sets read from group "0": lif_neuron.cpp:76-84,
    blifat_neuron.cpp:96-116, altai_lif_neuron.cpp:81-95,
    resource_blifat_neuron.cpp:158-196, resource_altai_lif_neuron.cpp:141-171. *)
Definition static_loaded (k : neuron_kind) : list string :=
  match k with
  | Lif => ["activation_threshold_"; "leak_coefficient_"; "refract_period_"]
  | Blifat => blifat_static
  | AltAI => altai_static
  | ResourceBlifat => blifat_static ++ rule_static
  | ResourceAltAI => altai_static ++ rule_static
  end.
(** Data sets read from "0/dynamics_params": lif_neuron.cpp:87-95,
    blifat_neuron.cpp:119-130, altai_lif_neuron.cpp:98-105,
    resource_blifat_neuron.cpp:198-205, resource_altai_lif_neuron.cpp:174-176. *)
Definition dynamic_loaded (k : neuron_kind) : list string :=
  match k with
  | Lif => ["potential_"; "refract_counter_"]
  | Blifat => blifat_dynamic
  | AltAI => ["potential_"]
  | ResourceBlifat => blifat_dynamic ++ ["additional_threshold_"]
  | ResourceAltAI => ["dopamine_value_"; "additional_threshold_"]
  end.

(** (field, data set) pairs of the synapse group: delta_synapse.cpp:156-159
    and 61-67. *)
Definition delta_saved : list (string * string) :=
  [("weight_", "syn_weight"); ("delay_", "delay"); ("output_type_", "output_type_")].
Definition delta_loaded : list (string * string) :=
  [("weight_", "syn_weight"); ("delay_", "delay"); ("output_type_", "output_type_")].
(** resource_delta_synapse.cpp:119-131 and 145-153, 177-185. *)
Definition resource_syn_saved : list (string * string) :=
  [("d_u_", "rule_d_u_"); ("had_hebbian_update_", "rule_had_hebbian_update_");
   ("has_contributed_", "rule_has_contributed_"); ("synaptic_resource_", "rule_synaptic_resource_");
   ("last_spike_step_", "rule_last_spike_step_");
   ("dopamine_plasticity_period_", "rule_dopamine_plasticity_period_");
   ("w_max_", "rule_w_max_"); ("w_min_", "rule_w_min_");
   ("weight_", "syn_weight"); ("delay_", "delay"); ("output_type_", "output_type_")].
Definition resource_syn_loaded : list (string * string) :=
  [("weight_", "syn_weight"); ("delay_", "delay"); ("output_type_", "output_type_");
   ("d_u_", "rule_d_u_"); ("had_hebbian_update_", "rule_had_hebbian_update_");
   ("has_contributed_", "rule_has_contributed_"); ("synaptic_resource_", "rule_synaptic_resource_");
   ("last_spike_step_", "rule_last_spike_step_");
   ("dopamine_plasticity_period_", "rule_dopamine_plasticity_period_");
   ("w_max_", "rule_w_max_"); ("w_min_", "rule_w_min_")].
Close Scope string_scope.

(** ** Networks, files *)

Record population := mkPop { p_uid : uid; p_kind : neuron_kind; p_neurons : list struct }.
Record projection := mkProj {
  j_uid : uid; j_pre : uid; j_post : uid; j_kind : synapse_kind; j_locked : bool;
  j_synapses : list (struct * N * N)        (* parameters, source and target neuron *) }.
Record network := mkNet { n_uid : uid; n_pops : list population; n_projs : list projection }.

Definition text := list N.                  (* character codes *)
Definition datasets := list (string * list val).
(** A group below "nodes": data sets node_id and node_type_id, group "0" and its
    subgroup "dynamics_params" (node_group_index and node_group_id are never
    read). *)
Record node_group := mkNodes {
  g_ids : list N; g_types : list Z; g_static : datasets; g_dynamic : datasets }.
(** A group below "edges". *)
Record edge_group := mkEdges {
  e_source : list N; e_source_pop : text; e_target : list N; e_target_pop : text;
  e_group_id : list N; e_types : list Z; e_params : datasets; e_locked : option bool }.
(** The saved network: populations.h5, projections.h5 and the type tables
    neurons.csv and synapses.csv, [None] if the file does not exist. *)
Record disk := mkDisk {
  d_nodes : list (text * node_group); d_net_uid : option text;
  d_edges : list (text * edge_group);
  d_neuron_csv : option (list Z); d_synapse_csv : option (list Z) }.

(** type_id_defines.h:36-53: position in ALL_NEURONS (neuron-traits/all_traits.h:42-43)
    and ALL_SYNAPSES (synapse-traits/all_traits.h:40), plus 100. *)
Definition neuron_type_id (k : neuron_kind) : Z :=
  match k with Blifat => 100 | ResourceBlifat => 101 | AltAI => 102 | ResourceAltAI => 103 | Lif => 104 end%Z.
Definition synapse_type_id (k : synapse_kind) : Z :=
  match k with DeltaSyn => 100 | AdditiveSyn => 101 | ResourceSyn => 102 end%Z.

(** ** HDF5 groups *)

(** [createGroup]: throws if the name is taken. *)
Fixpoint text_eqb (a b : text) : bool :=
  match a, b with
  | [], [] => true
  | x :: a', y :: b' => (x =? y)%N && text_eqb a' b'
  | _, _ => false
  end.
Definition create_group {G} (name : text) (g : G) (l : list (text * G)) : outcome (list (text * G)) :=
  if existsb (fun p => text_eqb name (fst p)) l then Throw else Ret (l ++ [(name, g)]).
(** [getNumberObjects], [getObjectName(i)]: the members in name order. *)
Fixpoint insert_by_name {G} (p : text * G) (l : list (text * G)) : list (text * G) :=
  match l with
  | [] => [p]
  | q :: t => if lex_ltb (fst q) (fst p) then q :: insert_by_name p t else p :: q :: t
  end.
Definition objects {G} (l : list (text * G)) : list (text * G) :=
  fold_right insert_by_name [] l.
(** [createDataSet] in the order of the macro calls (the names are different). *)
Fixpoint find_dataset (f : string) (d : datasets) : option (list val) :=
  match d with
  | [] => None
  | (g, vs) :: t => if String.eqb f g then Some vs else find_dataset f t
  end.

(** ** Saving *)

(** PUT_NEURON_TO_DATASET, save_network.h:69-77: one value per neuron.  A field
    the structure lacks would not compile; the model then writes 0. *)
Definition field (f : string) (s : struct) : val :=
  match get f s with Some v => v | None => VZ 0 end.
Definition put_neurons (fs : list string) (ns : list struct) : datasets :=
  map (fun f => (f, map (field f) ns)) fs.
Definition put_synapses (fs : list (string * string)) (ss : list (struct * N * N)) : datasets :=
  map (fun p => (snd p, map (fun s => field (fst p) (fst (fst s))) ss)) fs.

(** [initialize_adding_population], saving_initialization.h:38-63, and
    [add_population_to_h5]. *)
Definition node_group_of (p : population) : node_group :=
  let n := length (p_neurons p) in
  mkNodes (map N.of_nat (seq 0 n)) (repeat (neuron_type_id (p_kind p)) n)
          (put_neurons (static_saved (p_kind p)) (p_neurons p))
          (put_neurons (dynamic_saved (p_kind p)) (p_neurons p)).
Definition add_population (l : list (text * node_group)) (p : population) : outcome (list (text * node_group)) :=
  create_group (show_uid (p_uid p)) (node_group_of p) l.

(** [add_projection_to_h5]: delta_synapse.cpp:111-161,
    resource_delta_synapse.cpp:73-132, additive_delta_synapse.cpp:53-58 (throws). *)
Definition edge_group_of (saved : list (string * string)) (j : projection) : edge_group :=
  let n := length (j_synapses j) in
  mkEdges (map (fun s => snd (fst s)) (j_synapses j)) (show_uid (j_pre j))
          (map snd (j_synapses j)) (show_uid (j_post j))
          (repeat 0%N n) (repeat (synapse_type_id (j_kind j)) n)
          (put_synapses saved (j_synapses j)) (Some (j_locked j)).
Definition add_projection (l : list (text * edge_group)) (j : projection) : outcome (list (text * edge_group)) :=
  match j_kind j with
  | DeltaSyn => create_group (show_uid (j_uid j)) (edge_group_of delta_saved j) l
  | ResourceSyn => create_group (show_uid (j_uid j)) (edge_group_of resource_syn_saved j) l
  | AdditiveSyn => Throw
  end.

(** [CsvContent] rows: here the type identifier of each row.  The check loops
    over rows 0 .. size-2, type_id_defines.h:87-94; with no row at all size-1
    wraps and the loop reads out of bounds. *)
Definition csv_check_add (t : Z) (rows : list Z) : outcome (list Z) :=
  match rows with
  | [] => UB
  | _ => if existsb (Z.eqb t) (removelast rows) then Ret rows else Ret (rows ++ [t])
  end.
(** [add_neuron_type_to_csv], type_id_defines.h:60-97: after creating the file
    the function goes on as if it had been there. *)
Definition add_neuron_type (t : Z) (f : option (list Z)) : outcome (option (list Z)) :=
  obind (csv_check_add t (match f with None => [t] | Some rows => rows end)) (fun r => Ret (Some r)).
(** [add_synapse_type_to_csv], type_id_defines.h:100-139. *)
Definition add_synapse_type (t : Z) (f : option (list Z)) : outcome (option (list Z)) :=
  match f with
  | Some rows => obind (csv_check_add t rows) (fun r => Ret (Some r))
  | None => Ret (Some [t])
  end.

Fixpoint ofold {A B} (f : A -> B -> outcome A) (l : list B) (a : A) : outcome A :=
  match l with
  | [] => Ret a
  | x :: t => obind (f a x) (ofold f t)
  end.

(** make_populations_list / make_projections_list, save_network.cpp:77-110: the
    text of an empty list has size 0, and resize(0 - 1) throws length_error. *)
Definition config_list {A} (l : list A) : outcome unit :=
  match l with [] => Throw | _ => Ret tt end.

(** [save_network], save_network.cpp:146-196.  The HDF5 files are overwritten,
    the CSV files are extended. *)
Definition save_network (d : disk) (net : network) : outcome disk :=
  obind (ofold (fun st j =>
           obind (add_projection (fst st) j) (fun es =>
           obind (add_synapse_type (synapse_type_id (j_kind j)) (snd st)) (fun c => Ret (es, c))))
         (n_projs net) ([], d_synapse_csv d)) (fun ec =>
  obind (ofold (fun st p =>
           obind (add_population (fst st) p) (fun ns =>
           obind (add_neuron_type (neuron_type_id (p_kind p)) (snd st)) (fun c => Ret (ns, c))))
         (n_pops net) ([], d_neuron_csv d)) (fun nc =>
  obind (add_neuron_type (neuron_type_id Blifat) (snd nc)) (fun c' =>
  obind (config_list (n_pops net)) (fun _ =>
  obind (config_list (n_projs net)) (fun _ =>
  Ret (mkDisk (fst nc) (Some (show_uid (n_uid net))) (fst ec) c' (snd ec))))))).

(** ** Loading *)

(** [read_parameter], save_network.h:48-64. *)
Definition read_parameter (d : datasets) (f : string) (size : nat) (default : val) : list val :=
  match find_dataset f d with Some vs => vs | None => repeat default size end.
(** LOAD_NEURONS_PARAMETER, load_network.h:49-55: as many values as both have. *)
Fixpoint assign (f : string) (vs : list val) (target : list struct) : list struct :=
  match vs, target with
  | v :: vs', s :: t => put f v s :: assign f vs' t
  | _, _ => target
  end.
(** LOAD_NEURONS_PARAMETER_DEF, resource_blifat_neuron.cpp:133-138, and
    READ_SYNAPSE_RULE_PARAMETER, resource_delta_synapse.cpp:64-69: indexes the
    values up to the size of the target. *)
Definition assign_all (f : string) (vs : list val) (target : list struct) : outcome (list struct) :=
  if length vs <? length target then UB else Ret (assign f vs target).

(** A field read under data set [ds], defaulting to the field of [def]. *)
Definition load_field (checked : bool) (d : datasets) (def : struct) (target : list struct) (p : string * string)
    : outcome (list struct) :=
  let vs := read_parameter d (snd p) (length target) (field (fst p) def) in
  if checked then Ret (assign (fst p) vs target) else assign_all (fst p) vs target.

(** [lexical_cast<uuid>]: the whole text must be an identifier. *)
Definition parse_uid (t : text) : outcome uid :=
  match read_uid t with Some (u, []) => Ret u | _ => Throw end.

(** The static parameters of the plain neurons are read with the checked macro,
    those of the resource neurons with the other. *)
Definition static_checked (k : neuron_kind) : bool :=
  match k with ResourceBlifat | ResourceAltAI => false | _ => true end.
Definition same (f : string) : string * string := (f, f).

(** [load_population], lif_neuron.cpp:98-114 and its siblings. *)
Definition load_population (k : neuron_kind) (name : text) (g : node_group) : outcome population :=
  let n := length (g_ids g) in
  let def := default_neuron k in
  obind (ofold (load_field (static_checked k) (g_static g) def) (map same (static_loaded k)) (repeat def n)) (fun t1 =>
  obind (ofold (load_field true (g_dynamic g) def) (map same (dynamic_loaded k)) t1) (fun t2 =>
  obind (parse_uid name) (fun u => Ret (mkPop u k t2)))).

(** load_network.cpp:88-120.  [read<std::vector<int>>()[0]] of an empty data
    set is out of bounds; unknown types are skipped. *)
Definition neuron_kind_of (t : Z) : option neuron_kind :=
  (if t =? 100 then Some Blifat else if t =? 101 then Some ResourceBlifat else
   if t =? 102 then Some AltAI else if t =? 103 then Some ResourceAltAI else
   if t =? 104 then Some Lif else None)%Z.
Definition load_populations (nodes : list (text * node_group)) : outcome (list population) :=
  ofold (fun acc p =>
    match g_types (snd p) with
    | [] => UB
    | t :: _ => match neuron_kind_of t with
                | Some k => obind (load_population k (fst p) (snd p)) (fun x => Ret (acc ++ [x]))
                | None => Ret acc
                end
    end) (objects nodes) [].

(** Synapse ends: delta_synapse.cpp:68-69, resource_delta_synapse.cpp:155-156;
    these data sets always exist. *)
Fixpoint zip_ends (ps : list struct) (src dst : list N) : outcome (list (struct * N * N)) :=
  match ps with
  | [] => Ret []
  | p :: ps' => match src, dst with
                | a :: src', b :: dst' => obind (zip_ends ps' src' dst') (fun r => Ret ((p, a, b) :: r))
                | _, _ => UB
                end
  end.
(** [load_projection], delta_synapse.cpp:50-107 and
    resource_delta_synapse.cpp:135-203.  The number of synapses is the number of
    weights read; every other vector is indexed up to it.  Without the
    attribute the projection stays locked (projection.h:432). *)
Definition load_projection (k : synapse_kind) (loaded : list (string * string)) (name : text) (e : edge_group)
    : outcome projection :=
  let n := length (e_group_id e) in
  let def := default_synapse k in
  let n' := length (read_parameter (e_params e) "syn_weight"%string n (field "weight_"%string def)) in
  obind (ofold (load_field false (e_params e) def) loaded (repeat def n')) (fun ps =>
  obind (zip_ends ps (e_source e) (e_target e)) (fun ss =>
  obind (parse_uid (e_source_pop e)) (fun a =>
  obind (parse_uid (e_target_pop e)) (fun b =>
  obind (parse_uid name) (fun u =>
  Ret (mkProj u a b k (match e_locked e with Some l => l | None => true end) ss)))))).

(** load_network.cpp:63-85: additive projections are not recognised. *)
Definition load_projections (edges : list (text * edge_group)) : outcome (list projection) :=
  ofold (fun acc p =>
    match e_types (snd p) with
    | [] => UB
    | t :: _ =>
        if (t =? 100)%Z then obind (load_projection DeltaSyn delta_loaded (fst p) (snd p)) (fun x => Ret (acc ++ [x]))
        else if (t =? 102)%Z then
          obind (load_projection ResourceSyn resource_syn_loaded (fst p) (snd p)) (fun x => Ret (acc ++ [x]))
        else Ret acc
    end) (objects edges) [].

(** [get_network_uid], load_network.cpp:145-154; [fresh] is the identifier
    [UID{}] would generate. *)
Definition network_uid (fresh : uid) (d : disk) : outcome uid :=
  match d_net_uid d with Some t => parse_uid t | None => Ret fresh end.

(** [load_network], load_network.cpp:157-177: populations and projections are
    appended to the network (network.cpp:104-111) without a check. *)
Definition load_network (fresh : uid) (d : disk) : outcome network :=
  obind (network_uid fresh d) (fun u =>
  obind (load_populations (d_nodes d)) (fun ps =>
  obind (load_projections (d_edges d)) (fun js => Ret (mkNet u ps js)))).
