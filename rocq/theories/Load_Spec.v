(** What the properties of loading talk about. *)
From Verif Require Import Base Messaging_Model Neuron_Model Pipeline_Model Pipeline_Spec Delta_Model Net_Model Net_Spec Load_Model.

(** [p] is the longest beginning of [l] of which every element satisfies [ok]. *)
Definition longest_ok {A} (ok : A -> bool) (l p : list A) : Prop :=
  exists rest, l = p ++ rest /\ forallb ok p = true /\ match rest with [] => True | a :: _ => ok a = false end.
(** What was given to the last loading call, nothing if there was none. *)
Fixpoint last_pops (cs : list lcall) : list (uid * npop) :=
  match cs with
  | [] => []
  | LoadAllPops l :: t | LoadPops l :: t => if existsb (fun c => match c with LoadAllPops _ | LoadPops _ => true | _ => false end) t then last_pops t else l
  | _ :: t => last_pops t
  end.
Fixpoint last_projs (cs : list lcall) : list nproj :=
  match cs with
  | [] => []
  | LoadAllProjs l :: t | LoadProjs l :: t => if existsb (fun c => match c with LoadAllProjs _ | LoadProjs _ => true | _ => false end) t then last_projs t else l
  | _ :: t => last_projs t
  end.
(** A projection as the user has it: without the messages a backend keeps with it. *)
Definition unqueued (w : nproj) : Prop := np_queue w = [].

(** Stages before the first start: the subscriptions made, and the network loaded
    last. *)
Definition no_start (s : stage) : Prop := match s with SStart _ => False | _ => True end.
Definition subscriptions (ss : list stage) : list subscr :=
  flat_map (fun s => match s with SSubscribe x => [x] | _ => [] end) ss.
Fixpoint last_load (ss : list stage) : list (uid * npop) * list nproj :=
  match ss with
  | [] => ([], [])
  | SLoad p q :: t => if existsb (fun s => match s with SLoad _ _ => true | _ => false end) t then last_load t else (p, q)
  | _ :: t => last_load t
  end.
(** Stages after which nobody was subscribed to anything new by the user, with calls
    on other endpoints than the backend's between the steps. *)
Definition settled (s : stage) : Prop :=
  match s with
  | SSubscribe _ => False
  | SStart turns => Forall (fun u => forallb outside (tu_ops u) = true) turns
  | _ => True
  end.

(** A message without its time stamp. *)
Definition unstamp (m : message) : message :=
  match m with
  | SpikeMsg s _ idx => SpikeMsg s 0 idx
  | ImpactMsg s _ pre post f l => ImpactMsg s 0 pre post f l
  end.
(** Populations and projections that do not learn. *)
Definition plain_pop (e : uid * npop) : Prop := stdp_pop (snd e) = false.
Definition plain_proj (w : nproj) : Prop := match np_kind w with NDelta _ => True | _ => False end.

(** The neuron and synapse types each backend is documented to support. *)
Inductive known_pop : bkind -> npop -> Prop :=
| kp_single a : known_pop SingleThreaded a
| kp_blifat l : known_pop MultiThreaded (NPlain (PopBlifat l))
| kp_lif l : known_pop MultiThreaded (NPlain (PopLif l))
| kp_stdp l : known_pop MultiThreaded (NStdpBlifat l)
| kp_cuda l : known_pop Cuda (NPlain (PopBlifat l)).
Inductive known_kind : bkind -> nkind -> Prop :=
| kk_single k : known_kind SingleThreaded k
| kk_delta p : known_kind MultiThreaded (NDelta p)
| kk_resource s p : known_kind MultiThreaded (NResource s p)
| kk_cuda p : known_kind Cuda (NDelta p).
