(** What the properties of data files talk about. *)
From Coq Require Import String.
From Verif Require Import Base Messaging_Model Storage_Model.
From Coq Require Export Sorting.Sorted.
Open Scope list_scope.

(** Spike messages, as the functions take and return them. *)
Definition time_of (m : message) : N := match m with SpikeMsg _ t _ => t | ImpactMsg _ t _ _ _ _ => t end.
Definition idx_of (m : message) : list N := match m with SpikeMsg _ _ idx => idx | _ => [] end.
Definition is_spikes (m : message) : Prop := exists u t idx, m = SpikeMsg u t idx.

(** The result of sorting messages by time: some order of them in which times do
    not decrease (messages of the same time may be exchanged). *)
Definition sorting (ms sorted : list message) : Prop :=
  Permutation sorted ms /\ StronglySorted (fun a b => (time_of a <= time_of b)%N) sorted.
(** A way to read a hash map: all its entries in some order. *)
Definition reading (order : buffer -> buffer) : Prop := forall b, Permutation (order b) b.

(** All spikes at time [t]. *)
Definition spikes_at (ms : list message) (t : N) : list N :=
  flat_map (fun m => if N.eqb (time_of m) t then idx_of m else []) ms.
(** The messages [r] hold the same spikes as [ms], one message of sender [u] for
    each time at which there are spikes, in the order of time. *)
Definition same_spikes (u : uid) (ms r : list message) : Prop :=
  StronglySorted (fun a b => (time_of a < time_of b)%N) r /\
  (forall m, In m r -> exists t idx, m = SpikeMsg u t idx /\ idx <> [] /\ Permutation idx (spikes_at ms t)) /\
  (forall t, spikes_at ms t <> [] -> exists idx, In (SpikeMsg u t idx) r).

(** Indexes are 32-bit numbers, times 64-bit ones. *)
Definition message_ok (m : message) : Prop :=
  is_spikes m /\ (time_of m < two64)%N /\ Forall (fun i => (i < two32)%N) (idx_of m).

(** ** Data files of other origin *)

(** [v] is the first member called [name] of the object [j]. *)
Definition has (name : string) (j v : json) : Prop := exists l, j = JObj l /\ member name l = Some v.
Definition int32 (v : json) (z : Z) : Prop := v = JInt z /\ (- 2 ^ 31 <= z < 2 ^ 31)%Z.
(** A number that is a time: as a float, it is a step from 0 to 2^64 - 1. *)
Definition timestamp (v : json) : Prop :=
  exists d t, (v = JDouble d \/ exists z, v = JInt z /\ d = d_of_Z z) /\ to_step (f_of_d d) (f_of_Z 1) = Ret t.
(** An entry of "attributes" as the format describes it. *)
Definition attribute_typed (g : json) : Prop :=
  (exists l, g = JObj l) /\ forall n, has "name" g n -> exists s, n = JStr s /\
    (s = "magic"%string -> forall v, has "value" g v -> exists z, int32 v z) /\
    (s = "version"%string -> forall vs, has "value" g (JArr vs) -> Forall (fun v => exists z, int32 v z) vs).
(** Every part of the document that is there has the type the format says (parts may
    be missing). *)
Definition json_typed (doc : json) : Prop :=
  (exists l, doc = JObj l) /\
  (forall a, has "attributes" doc a -> exists gs, a = JArr gs /\ Forall attribute_typed gs) /\
  forall s, has "spikes" doc s ->
    (forall n vs, has "node_ids" s n -> has "value" n (JArr vs) -> Forall (fun v => exists z, int32 v z) vs) /\
    (forall n vs, has "timestamps" s n -> has "value" n (JArr vs) -> Forall timestamp vs).
(** The first attribute named "magic" holds the magic number of the format. *)
Definition json_magic (doc : json) : Prop :=
  exists before g after, has "attributes" doc (JArr (before ++ g :: after)) /\
    Forall (fun b => ~ has "name" b (JStr "magic")) before /\ has "name" g (JStr "magic") /\
    has "value" g (JInt 2682).
(** The same, but the number may be missing. *)
Definition json_magic_or_none (doc : json) : Prop :=
  exists before g after, has "attributes" doc (JArr (before ++ g :: after)) /\
    Forall (fun b => ~ has "name" b (JStr "magic")) before /\ has "name" g (JStr "magic") /\
    forall v, has "value" g v -> v = JInt 2682.
(** The data are there: as many nodes as times. *)
Definition json_data (doc : json) (nodes times : list json) : Prop :=
  exists s n t, has "spikes" doc s /\ has "node_ids" s n /\ has "value" n (JArr nodes) /\
    has "timestamps" s t /\ has "value" t (JArr times) /\ length nodes = length times.

(** HDF5 files: the group with the data and what must be in it. *)
Definition h5_data (f : h5_file) (nodes : list Z) (times : list flt) : Prop :=
  exists g i, h_spikes f = Some (g, i) /\
    let d := match i with Some d => d | None => g end in
    (hg_node_ids d = Some nodes \/ hg_node_ids d = None /\ hg_gids d = Some nodes) /\
    hg_timestamps d = Some times /\ length nodes = length times.
(** Times that can be steps, a version of at most two numbers. *)
Definition h5_typed (f : h5_file) (tps : flt) : Prop :=
  (forall v, h_version f = Some v -> length v <= 2) /\
  forall nodes times, h5_data f nodes times -> Forall (fun x => exists t, to_step x tps = Ret t) times.
