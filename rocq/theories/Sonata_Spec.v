(** Specification of saving and loading a network. *)
From Coq Require Import String Sorted Permutation ZArith.
From Verif Require Import Base Sonata_Model.
Open Scope list_scope.

(** What a round trip through the file forgets, per neuron kind. *)
Definition forgotten (k : neuron_kind) : list string :=
  match k with
  | Lif => ["potential_reset_value_"]
  | Blifat => ["additional_threshold_"; "stochastic_stimulation_"; "random_number_generator_state_"]
  | ResourceBlifat => ["synapse_sum_threshold_coefficient_"; "stochastic_stimulation_";
                       "random_number_generator_state_"]
  | AltAI => ["pre_impact_potential_"; "dopamine_value_"; "additional_threshold_"; "activity_time_"]
  | ResourceAltAI => ["potential_"; "pre_impact_potential_"; "activity_time_";
                      "synapse_sum_threshold_coefficient_"]
  end%string.

(** Neuron [n'] is neuron [n] of kind [k] except that the fields [lost] have the
    value of a newly created neuron. *)
Definition kept_except (lost : list string) (k : neuron_kind) (n n' : struct) : Prop :=
  names n' = names n /\
  forall f, get f n' = if existsb (String.eqb f) lost then get f (default_neuron k) else get f n.

Definition same_population (p p' : population) : Prop :=
  p_uid p' = p_uid p /\ p_kind p' = p_kind p /\
  Forall2 (kept_except (forgotten (p_kind p)) (p_kind p)) (p_neurons p) (p_neurons p').

(** A structure with exactly the fields its C++ type declares. *)
Definition neuron_ok (k : neuron_kind) (n : struct) : Prop := names n = names (default_neuron k).
Definition synapse_ok (k : synapse_kind) (s : struct) : Prop := names s = names (default_synapse k).

Definition uid_ok (u : uid) : Prop := (u < 2 ^ 128)%N.
Definition pop_ok (p : population) : Prop :=
  uid_ok (p_uid p) /\ p_neurons p <> [] /\ Forall (neuron_ok (p_kind p)) (p_neurons p).
Definition proj_ok (j : projection) : Prop :=
  uid_ok (j_uid j) /\ uid_ok (j_pre j) /\ uid_ok (j_post j) /\ j_kind j <> AdditiveSyn /\
  j_synapses j <> [] /\ Forall (fun s => synapse_ok (j_kind j) (fst (fst s))) (j_synapses j).
(** A network the format can hold: at least one population and one projection,
    none of them empty, no additive STDP, distinct identifiers. *)
Record saveable (net : network) : Prop := {
  sv_uid : uid_ok (n_uid net);
  sv_pops : Forall pop_ok (n_pops net);
  sv_projs : Forall proj_ok (n_projs net);
  sv_some_pop : n_pops net <> [];
  sv_some_proj : n_projs net <> [];
  sv_pop_uids : NoDup (map p_uid (n_pops net));
  sv_proj_uids : NoDup (map j_uid (n_projs net)) }.

(** The directory may hold the result of earlier savings. *)
Definition tables_ok (d : disk) : Prop := d_neuron_csv d <> Some [] /\ d_synapse_csv d <> Some [].
Definition empty_dir : disk := mkDisk [] None [] None None.

(** The result of loading what was saved. *)
Record loaded_as (net net' : network) : Prop := {
  la_uid : n_uid net' = n_uid net;
  la_pops : exists ps, Permutation ps (n_pops net) /\ Forall2 same_population ps (n_pops net');
  la_pop_order : StronglySorted N.lt (map p_uid (n_pops net'));
  la_projs : Permutation (n_projs net') (n_projs net);
  la_proj_order : StronglySorted N.lt (map j_uid (n_projs net')) }.

(** Rows of a type table. *)
Definition rows (f : option (list Z)) : list Z := match f with Some l => l | None => [] end.
(** Tables as a sequence of savings into one directory leaves them. *)
Inductive saved_dir : disk -> list network -> Prop :=
| saved_none : saved_dir empty_dir []
| saved_more d d' nets net : saved_dir d nets -> save_network d net = Ret d' -> saved_dir d' (nets ++ [net]).

(** The networks saving accepts. *)
Definition storable (net : network) : Prop :=
  n_pops net <> [] /\ n_projs net <> [] /\ NoDup (map p_uid (n_pops net)) /\ NoDup (map j_uid (n_projs net)) /\
  Forall (fun j => j_kind j <> AdditiveSyn) (n_projs net).
Definition uids_ok (net : network) : Prop :=
  uid_ok (n_uid net) /\ Forall (fun p => uid_ok (p_uid p)) (n_pops net) /\
  Forall (fun j => uid_ok (j_uid j) /\ uid_ok (j_pre j) /\ uid_ok (j_post j)) (n_projs net).
(** Structures with exactly the fields of their C++ types. *)
Definition shaped (net : network) : Prop :=
  Forall (fun p => Forall (neuron_ok (p_kind p)) (p_neurons p)) (n_pops net) /\
  Forall (fun j => Forall (fun s => synapse_ok (j_kind j) (fst (fst s))) (j_synapses j)) (n_projs net).
(** Number of rows of type [t]; the types a network uses (BLIFAT is always
    listed). *)
Definition count (t : Z) (l : list Z) : nat := count_occ Z.eq_dec l t.
Definition neuron_types (net : network) : list Z := map (fun p => neuron_type_id (p_kind p)) (n_pops net) ++ [neuron_type_id Blifat].
Definition synapse_types (net : network) : list Z := map (fun j => synapse_type_id (j_kind j)) (n_projs net).
