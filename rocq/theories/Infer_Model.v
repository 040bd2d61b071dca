(** Model of [prepare_network_for_inference] for AltAI networks,
    /repo/examples/mnist-learn/models/altai/prepare_network_for_inference.cpp. *)
From Verif Require Import Base Messaging_Model Projection_Model Delta_Model Neuron_Model Pipeline_Model
  Stdp_Model Additive_Model Train_Model Net_Model Connect_Model Quant_Model.

(** [clone_projection] with the parameters of the source (lines 43-46,
    creators.h:389-404, synapse_generators.h:472-486): a new projection has no
    shared parameters and is locked (projection.h:432). *)
Definition g_copy {P} (src : list (synapse P)) (i : nat) : outcome (option (synapse P)) :=
  match nth_error src i with
  | Some s => Ret (Some (mkSyn (sy_params s) (sy_from s) (sy_to s)))
  | None => UB
  end.
Definition copy_proj {P} (p : proj P) : outcome (proj P) :=
  obind (run_gen (g_copy (p_syn p)) 0 (length (p_syn p)) []) (fun l => Ret (reindex (mkProj l [] false))).
Definition copy_kind (k : nkind) : outcome nkind :=
  match k with
  | NDelta p => obind (copy_proj p) (fun q => Ret (NDelta q))
  | NAdditive _ p => obind (copy_proj p) (fun q => Ret (NAdditive [] q))
  | NResource _ p => obind (copy_proj p) (fun q => Ret (NResource [] q))
  end.
(** [Network::get_projection], [remove_projection], [add_projection]
    (base-framework/impl/network.cpp:210-242, 286-312). *)
Definition find_proj (u : uid) (l : list nproj) : option nproj := find (fun w => N.eqb (np_uid w) u) l.
Fixpoint erase_proj (u : uid) (l : list nproj) : option (list nproj) :=
  match l with
  | [] => None
  | w :: t => if N.eqb (np_uid w) u then Some t else match erase_proj u t with Some t' => Some (w :: t') | None => None end
  end.
Definition add_proj (w : nproj) (l : list nproj) : option (list nproj) :=
  match find_proj (np_uid w) l with Some _ => None | None => Some (l ++ [w]) end.
(** The body of the loops, lines 38-50; [u] is the identifier of the copy. *)
Definition replace_one (u sender receiver : uid) (l : list nproj) : outcome (list nproj) :=
  match find_proj receiver l with
  | None => Throw
  | Some w =>
      obind (copy_kind (np_kind w)) (fun k =>
      match erase_proj receiver l with
      | None => Throw
      | Some l' => match add_proj (mkNP u sender (np_post w) true k []) l' with Some l'' => Ret l'' | None => Throw end
      end)
  end.
(** [replace_wta_with_projections], lines 30-55; [fresh i] is the identifier of the
    copy made by the iteration with number [i]. *)
Fixpoint replace_pairs (fresh : nat -> uid) (i : nat) (pairs : list (uid * uid)) (l : list nproj) : outcome (list nproj) :=
  match pairs with
  | [] => Ret l
  | (s, r) :: t => obind (replace_one (fresh i) s r l) (replace_pairs fresh (S i) t)
  end.
Definition wta_pairs (groups : list (list uid * list uid)) : list (uid * uid) :=
  flat_map (fun g => flat_map (fun s => map (fun r => (s, r)) (snd g)) (fst g)) groups.
(** [prepare_network_for_inference], lines 107-142: the projections and populations
    of the backend, the marked identifiers, the groups; the groups are cleared. *)
Definition marked_only {A} (id : A -> uid) (marks : list uid) (l : list A) : list A := filter (fun a => mem (id a) marks) l.
Definition prepare (fresh : nat -> uid) (groups : list (list uid * list uid)) (mark_pops mark_projs : list uid)
    (projs : list nproj) (pops : list (uid * npop)) : outcome (list nproj * list (uid * npop) * list (list uid * list uid)) :=
  obind (replace_pairs fresh 0 (wta_pairs groups) (marked_only np_uid mark_projs projs)) (fun l =>
  obind (quantize_network l (marked_only fst mark_pops pops)) (fun r => Ret (r, []))).
