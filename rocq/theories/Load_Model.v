(** Loading a network into a backend, reading it back, and the life of a backend
    over several loads and starts. *)
From Verif Require Import Base Messaging_Model Neuron_Model Pipeline_Model Delta_Model Train_Model Net_Model.

(** ** The containers of a backend *)
Inductive bkind := SingleThreaded | MultiThreaded | Cuda.
(** [SupportedNeurons]: cpu-single-threaded/backend.h:57-61, cpu-multi-threaded/
    backend.h:80-82, cuda backend.h (BLIFATNeuron). *)
Definition supports_pop (b : bkind) (a : npop) : bool :=
  match b, a with
  | SingleThreaded, _ => true
  | MultiThreaded, (NPlain (PopBlifat _) | NPlain (PopLif _) | NStdpBlifat _) => true
  | Cuda, NPlain (PopBlifat _) => true
  | _, _ => false
  end.
(** [SupportedSynapses]: cpu-single-threaded/backend.h:66-68, cpu-multi-threaded/
    backend.h:87-88, cuda backend.h (DeltaSynapse). *)
Definition supports_proj (b : bkind) (w : nproj) : bool :=
  match b, np_kind w with
  | SingleThreaded, _ => true
  | MultiThreaded, (NDelta _ | NResource _ _) => true
  | Cuda, NDelta _ => true
  | _, _ => false
  end.
(** [load_from_container], meta-library/include/knp/meta/variant_helpers.h:49-72,
    after [clear]: the elements put in so far and whether it went to the end (not:
    [std::runtime_error]). *)
Fixpoint load_from {A B} (ok : A -> bool) (wrap : A -> B) (from : list A) (to : list B) : list B * bool :=
  match from with
  | [] => (to, true)
  | a :: t => if ok a then load_from ok wrap t (to ++ [wrap a]) else (to, false)
  end.
(** [ProjectionWrapper{arg}]: a new wrapper has no messages. *)
Definition wrapped (w : nproj) : nproj := mkNP (np_uid w) (np_pre w) (np_post w) (np_locked w) (np_kind w) [].

(** [populations_] and [projections_], and the vectors in the memory of the CUDA
    device (cuda-backend/impl/backend_impl.cuh, [device_populations_] and
    [device_projections_]). *)
Record held := mkHeld {
  h_pops : list (uid * npop); h_projs : list nproj;
  h_dev_pops : list (uid * npop); h_dev_projs : list nproj }.
Definition held_none : held := mkHeld [] [] [] [].

Inductive lcall :=
| LoadAllPops (l : list (uid * npop))   (* load_all_populations *)
| LoadAllProjs (l : list nproj)         (* load_all_projections *)
| LoadPops (l : list (uid * npop))      (* load_populations; only supported kinds compile *)
| LoadProjs (l : list nproj)            (* load_projections *)
| RemovePops (us : list uid)            (* remove_populations *)
| RemoveProjs (us : list uid)           (* remove_projections *)
| GetCopy.                              (* synchronization::get_network_copy *)
Inductive lanswer := Done | Threw | Copied (pops : list (uid * npop)) (projs : list nproj).

(** [load_all_*]: cpu-single-threaded-backend/impl/backend.cpp:173-186,
    cpu-multi-threaded-backend/impl/backend.cpp:355-368, cuda-backend/impl/
    backend.cu:178-191.  [load_*]: backend.cpp:144-170 and 326-352; on CUDA
    backend.cu:157-175 with backend_impl.cu:322-363, which fills the vectors of the
    device.  [remove_*] do nothing (backend.h:287, 294 of the single-threaded,
    318, 325 of the multi-threaded backend, and the same on CUDA).
    [get_network_copy], base-framework/impl/synchronization.cpp:26-41, over
    [get_network_data] (get_network.cpp:80-93 and 82-95); on CUDA this returns empty
    pointers (backend.h:343), which are dereferenced. *)
Definition lexec (b : bkind) (h : held) (c : lcall) : outcome (held * lanswer) :=
  match c with
  | LoadAllPops l =>
      let r := load_from (fun e => supports_pop b (snd e)) (fun e => e) l [] in
      Ret (mkHeld (fst r) (h_projs h) (h_dev_pops h) (h_dev_projs h), if snd r then Done else Threw)
  | LoadAllProjs l =>
      let r := load_from (supports_proj b) wrapped l [] in
      Ret (mkHeld (h_pops h) (fst r) (h_dev_pops h) (h_dev_projs h), if snd r then Done else Threw)
  | LoadPops l =>
      if forallb (fun e => supports_pop b (snd e)) l then
        match b with
        | Cuda => Ret (mkHeld (h_pops h) (h_projs h) l (h_dev_projs h), Done)
        | _ => Ret (mkHeld l (h_projs h) (h_dev_pops h) (h_dev_projs h), Done)
        end
      else UB
  | LoadProjs l =>
      if forallb (supports_proj b) l then
        match b with
        | Cuda => Ret (mkHeld (h_pops h) (h_projs h) (h_dev_pops h) (map wrapped l), Done)
        | _ => Ret (mkHeld (h_pops h) (map wrapped l) (h_dev_pops h) (h_dev_projs h), Done)
        end
      else UB
  | RemovePops _ | RemoveProjs _ => Ret (h, Done)
  | GetCopy =>
      match b with
      | Cuda => UB
      | _ => Ret (h, Copied (h_pops h) (map wrapped (h_projs h)))
      end
  end.
Fixpoint lruns (b : bkind) (h : held) (cs : list lcall) : outcome (held * list lanswer) :=
  match cs with
  | [] => Ret (h, [])
  | c :: t => obind (lexec b h c) (fun r => obind (lruns b (fst r) t) (fun q => Ret (fst q, snd r :: snd q)))
  end.

(** ** Loads and starts *)
(** The single-threaded backend and [initialized_] (core/backend.h:453). *)
Record life := mkLife { lf_net : nbackend; lf_init : bool }.
Inductive stage :=
| SSubscribe (s : subscr)                              (* Backend::subscribe *)
| SLoad (pops : list (uid * npop)) (projs : list nproj) (* load_all_populations, load_all_projections *)
| SReload                                              (* get_network_copy, then load what it gave *)
| SStart (turns : list turn).                          (* start, until the predicate refuses *)
(** core-library/impl/backend.cpp:31-34. *)
Definition life_new : life := mkLife (mkNB (create_endpoint bus_init) [] [] 0) false.
Section Life.
Variables pow2f expf : flt -> flt.
Definition subscribed_to (k : nbackend) (ops : list op) : outcome nbackend :=
  obind (run (nb_bus k) ops) (fun r => Ret (mkNB (fst r) (nb_pops k) (nb_projs k) (nb_step k))).
(** [pre_start], core-library/impl/backend.cpp:57-73: [_init] only the first time. *)
Definition life_stage (l : life) (s : stage) : outcome (life * list nrecord) :=
  let k := lf_net l in
  match s with
  | SSubscribe x => obind (subscribed_to k (extra_ops [x])) (fun k' => Ret (mkLife k' (lf_init l), []))
  | SLoad pops projs => Ret (mkLife (mkNB (nb_bus k) pops (map wrapped projs) (nb_step k)) (lf_init l), [])
  | SReload => Ret (mkLife (mkNB (nb_bus k) (nb_pops k) (map wrapped (nb_projs k)) (nb_step k)) (lf_init l), [])
  | SStart turns =>
      obind (if lf_init l then Ret k else subscribed_to k (ninit_ops (nb_projs k))) (fun k1 =>
      obind (nbackend_run pow2f expf turns k1) (fun r => Ret (mkLife (fst r) true, snd r)))
  end.
Fixpoint life_run (l : life) (ss : list stage) : outcome (life * list nrecord) :=
  match ss with
  | [] => Ret (l, [])
  | s :: t => obind (life_stage l s) (fun r => obind (life_run (fst r) t) (fun q => Ret (fst q, snd r ++ snd q)))
  end.
End Life.
