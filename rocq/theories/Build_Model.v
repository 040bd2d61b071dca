(** Model of the network constructor of the MNIST example,
    /repo/examples/mnist-learn/models/network_constructor.h and annotated_network.h, of the
    networks it is used for (models/altai/construct_network.cpp,
    models/blifat/construct_network.cpp) and of the preparation of BLIFAT networks for
    inference.  Names of populations are left out; creators are [all_to_all] and [aligned]. *)
From Verif Require Import Base Messaging_Model Projection_Model Delta_Model Neuron_Model Pipeline_Model
  Stdp_Model Additive_Model Train_Model Net_Model Connect_Model Infer_Model.

(** [knp::core::Population] from a generator that returns the same neuron (network_constructor.h:138-139). *)
Inductive neuron :=
| GLif (x : lif_par * lif) | GBlifat (x : bl_par * bl) | GAltai (x : al_par * al)
| GStdpBlifat (x : sneuron bl_par bl) | GStdpAltai (x : sneuron al_par al).
Definition population_of (n : neuron) (k : nat) : npop :=
  match n with
  | GLif x => NPlain (PopLif (repeat x k)) | GBlifat x => NPlain (PopBlifat (repeat x k)) | GAltai x => NPlain (PopAltai (repeat x k))
  | GStdpBlifat x => NStdpBlifat (repeat x k) | GStdpAltai x => NStdpAltai (repeat x k)
  end.
(** Synapse parameters and creators; every synapse gets the same parameters (188-190). *)
Inductive template := GDelta (x : dparams) | GAdditive (x : aparams) | GResource (x : rparams).
Inductive creator := AllToAll | Aligned.
Definition connect {P} (c : creator) (x : P) (pre post : nat) : outcome (list (synapse P)) :=
  match c with AllToAll => all_to_all (fun _ _ => x) pre post | Aligned => aligned (fun _ _ => x) pre post end.
Definition make_kind (c : creator) (t : template) (pre post : nat) : outcome nkind :=
  match t with
  | GDelta x => obind (connect c x pre post) (fun l => Ret (NDelta (reindex (mkProj l [] false))))
  | GAdditive x => obind (connect c x pre post) (fun l => Ret (NAdditive [] (reindex (mkProj l [] false))))
  | GResource x => obind (connect c x pre post) (fun l => Ret (NResource [] (reindex (mkProj l [] false))))
  end.

(** [PopulationRole], [PopulationInfo], lines 38-86. *)
Inductive prole := OUTPUT | INPUT | NORMAL | CHANNELED.
Record pinfo := mkInfo { pi_role : prole; pi_keep : bool; pi_size : nat; pi_uid : uid }.
(** [AnnotatedNetwork] with [pops_] of the constructor in use: the network, [output_uids_],
    [inference_population_uids_], [inference_internal_projection_]. *)
Record built := mkBuilt { bt_infos : list pinfo; bt_pops : list (uid * npop); bt_projs : list nproj;
  bt_outputs : list uid; bt_keep_pops : list uid; bt_keep_projs : list uid }.
Definition nothing : built := mkBuilt [] [] [] [] [] [].
(** Calls; a population is referred to by its position in [pops_] (a reference in the code),
    new identifiers are given. *)
Inductive bcall :=
| NewConstructor
| AddPopulation (u : uid) (n : neuron) (size : nat) (role : prole) (keep : bool)
| AddChanneled (size : nat) (keep : bool)
| AddProjection (u : uid) (t : template) (c : creator) (pre post : nat) (trainable wta : bool).

(** [add_population], lines 132-145; [Network::add_population] of a variant does not look for
    the identifier (base-framework/impl/network.cpp). *)
Definition add_population (u : uid) (n : neuron) (size : nat) (role : prole) (keep : bool) (s : built) : built :=
  mkBuilt (bt_infos s ++ [mkInfo role keep size u]) (bt_pops s ++ [(u, population_of n size)]) (bt_projs s)
    (match role with OUTPUT => bt_outputs s ++ [u] | _ => bt_outputs s end)
    (if keep then bt_keep_pops s ++ [u] else bt_keep_pops s) (bt_keep_projs s).
(** [add_channeled_population], lines 159-163. *)
Definition add_channeled (size : nat) (keep : bool) (s : built) : built :=
  mkBuilt (bt_infos s ++ [mkInfo CHANNELED keep size 0]) (bt_pops s) (bt_projs s) (bt_outputs s) (bt_keep_pops s) (bt_keep_projs s).
(** [add_projection], lines 183-197. *)
Definition add_projection (u : uid) (t : template) (c : creator) (pre post : nat) (trainable wta : bool) (s : built) : outcome built :=
  match nth_error (bt_infos s) pre, nth_error (bt_infos s) post with
  | Some a, Some b =>
      obind (make_kind c t (pi_size a) (pi_size b)) (fun k =>
      Ret (mkBuilt (bt_infos s) (bt_pops s)
        (bt_projs s ++ [mkNP u (if wta then 0%N else pi_uid a) (pi_uid b) (negb trainable) k []])
        (bt_outputs s) (bt_keep_pops s) (if pi_keep a && pi_keep b then bt_keep_projs s ++ [u] else bt_keep_projs s)))
  | _, _ => UB
  end.
Definition build_call (c : bcall) (s : built) : outcome built :=
  match c with
  | NewConstructor => Ret (mkBuilt [] (bt_pops s) (bt_projs s) (bt_outputs s) (bt_keep_pops s) (bt_keep_projs s))
  | AddPopulation u n size role keep => Ret (add_population u n size role keep s)
  | AddChanneled size keep => Ret (add_channeled size keep s)
  | AddProjection u t c pre post tr wta => add_projection u t c pre post tr wta s
  end.
Fixpoint build (calls : list bcall) (s : built) : outcome built :=
  match calls with [] => Ret s | c :: t => obind (build_call c s) (build t) end.

(** The networks of the example, models/altai/construct_network.cpp:68-217 and
    models/blifat/construct_network.cpp:63-223 with the order of the calls there: positions 0 input,
    1 output, 2 gate, 3 raster, 4 target. [classes], [column] and [raster] are classes_amount,
    neurons_per_column and input_size; neuron and synapse parameters are given. *)
Record names := mkNames { nm_input : uid; nm_output : uid; nm_gate : uid; nm_raster_input : uid; nm_target_input_dopamine : uid;
  nm_target_input_excitatory : uid; nm_target_gate : uid; nm_input_output : uid; nm_output_gate : uid; nm_gate_input : uid }.
Record parts := mkParts { pt_input : neuron; pt_other : neuron; pt_raster_input : rparams; pt_target_input_dopamine : dparams;
  pt_target_input_excitatory : dparams; pt_target_gate : dparams; pt_input_output : dparams; pt_output_gate : dparams; pt_gate_input : dparams }.
Definition populations_calls (m : names) (q : parts) (classes column raster : nat) : list bcall :=
  [AddPopulation (nm_input m) (pt_input q) (classes * column) INPUT true;
   AddPopulation (nm_output m) (pt_other q) classes OUTPUT true;
   AddPopulation (nm_gate m) (pt_other q) classes NORMAL false;
   AddChanneled raster true; AddChanneled classes false].
Definition altai_calls (m : names) (q : parts) (classes column raster : nat) : list bcall :=
  NewConstructor :: populations_calls m q classes column raster ++
  [AddProjection (nm_raster_input m) (GResource (pt_raster_input q)) AllToAll 3 0 true false;
   AddProjection (nm_target_input_dopamine m) (GDelta (pt_target_input_dopamine q)) Aligned 4 0 false false;
   AddProjection (nm_target_input_excitatory m) (GDelta (pt_target_input_excitatory q)) AllToAll 4 0 false false;
   AddProjection (nm_target_gate m) (GDelta (pt_target_gate q)) Aligned 4 2 false false;
   AddProjection (nm_input_output m) (GDelta (pt_input_output q)) Aligned 0 1 false true;
   AddProjection (nm_output_gate m) (GDelta (pt_output_gate q)) Aligned 1 2 false false;
   AddProjection (nm_gate_input m) (GDelta (pt_gate_input q)) Aligned 2 0 false false].
Definition blifat_calls (m : names) (q : parts) (classes column raster : nat) : list bcall :=
  NewConstructor :: populations_calls m q classes column raster ++
  [AddProjection (nm_raster_input m) (GResource (pt_raster_input q)) AllToAll 3 0 true false;
   AddProjection (nm_target_input_dopamine m) (GDelta (pt_target_input_dopamine q)) Aligned 4 0 false false;
   AddProjection (nm_input_output m) (GDelta (pt_input_output q)) Aligned 0 1 false true;
   AddProjection (nm_output_gate m) (GDelta (pt_output_gate q)) Aligned 1 2 false false;
   AddProjection (nm_target_gate m) (GDelta (pt_target_gate q)) Aligned 4 2 false false;
   AddProjection (nm_gate_input m) (GDelta (pt_gate_input q)) Aligned 2 0 false false;
   AddProjection (nm_target_input_excitatory m) (GDelta (pt_target_input_excitatory q)) Aligned 4 0 false false].
(** [wta_data_] and [wta_borders_] (altai 205-213, blifat 196-216) of one network. *)
Definition wta_groups (m : names) : list (list uid * list uid) := [([nm_input m], [nm_input_output m])].
Definition wta_borders (classes column : nat) : list nat := map (fun i => column * (i + 1)) (seq 0 classes).

(** [prepare_network_for_inference] for BLIFAT, models/blifat/prepare_network_for_inference.cpp:32-60. *)
Definition prepare_blifat (keep_pops keep_projs : list uid) (projs : list nproj) (pops : list (uid * npop)) : list nproj * list (uid * npop) :=
  (marked_only np_uid keep_projs projs, marked_only fst keep_pops pops).

(** [find_projections] and [is_input] of the MNIST client, /repo/examples/mnist-client/inference.cpp:61-73, 128-134:
    when there is none, do_inference throws. *)
Definition kind_size (k : nkind) : nat :=
  match k with NDelta p => length (p_syn p) | NAdditive _ p => length (p_syn p) | NResource _ p => length (p_syn p) end.
Definition image_projections (projs : list nproj) : list uid :=
  map np_uid (filter (fun w => N.eqb (N.of_nat (kind_size (np_kind w))) 117600) projs).
