(** Model of [knp::core::Projection]: the synapse list, its cached index and
    the operations on them. *)
From Verif Require Import Base.

Section Projection.
(** Synapse parameters (weight, delay, output type, ...) do not matter here. *)
Context {P : Type}.

(** /repo/knp/core-library/include/knp/core/projection.h: [Synapse] is a tuple
    (parameters, source neuron, target neuron). *)
Record synapse := mkSyn { sy_params : P; sy_from : N; sy_to : N }.

(** projection.h:439-448: one entry of the index. *)
Record conn := mkConn { c_from : N; c_to : N; c_index : nat }.

(** projection.h:417-467: [parameters_], [index_] (a container without a
    specified iteration order; kept here in insertion order) and
    [is_index_updated_]. *)
Record proj := mkProj { p_syn : list synapse; p_index : list conn; p_updated : bool }.

(** projection.cpp:107-124: the constructors without a generator. *)
Definition proj_empty : proj := mkProj [] [] false.

(** projection.cpp:269-277: entry [i] of the index is made from synapse [i]. *)
Fixpoint index_from (i : nat) (l : list synapse) : list conn :=
  match l with
  | [] => []
  | s :: t => mkConn (sy_from s) (sy_to s) i :: index_from (S i) t
  end.

(** [Projection::reindex], projection.cpp:261-279. *)
Definition reindex (p : proj) : proj :=
  if p_updated p then p else mkProj (p_syn p) (index_from 0 (p_syn p)) true.

(** The loops of the constructors (136-142, 156-163) and of [add_synapses]
    (197-203).  The generator is given by the values it yields at calls
    0, 1, 2, ... *)
Fixpoint generate (g : nat -> option synapse) (i n : nat) (l : list synapse) : list synapse :=
  match n with
  | 0 => l
  | S n' => generate g (S i) n' (match g i with Some s => l ++ [s] | None => l end)
  end.

(** The constructors with a generator, projection.cpp:127-165. *)
Definition proj_generated (g : nat -> option synapse) (n : nat) : proj :=
  reindex (mkProj (generate g 0 n []) [] false).

(** [Projection::add_synapses], projection.cpp:191-205. *)
Definition add_synapses (g : nat -> option synapse) (n : nat) (p : proj) : proj * nat :=
  let l := generate g 0 n (p_syn p) in
  (mkProj l (p_index p) false, length l - length (p_syn p)).

(** [Projection::find_synapses], projection.cpp:168-188, with [find_by_type]
    and [find_indexes_by_type] (35-49). *)
Inductive search := ByPre | ByPost.
Definition conn_key (c : search) (e : conn) : N := match c with ByPre => c_from e | ByPost => c_to e end.
Definition find_synapses (c : search) (n : N) (p : proj) : proj * list nat :=
  let p' := reindex p in
  (p', map c_index (filter (fun e => N.eqb (conn_key c e) n) (p_index p'))).

(** [Projection::clear], projection.cpp:208-213: the flag stays. *)
Definition clear (p : proj) : proj := mkProj [] [] (p_updated p).

(** [Projection::remove_synapse], projection.cpp:216-221. *)
Definition remove_synapse (i : nat) (p : proj) : outcome proj :=
  match erase_at i (p_syn p) with
  | Some l => Ret (mkProj l (p_index p) false)
  | None => UB
  end.

(** [Projection::remove_synapse_if], projection.cpp:224-231 ([std::remove_if]
    keeps the order of the rest). *)
Definition remove_synapse_if (f : synapse -> bool) (p : proj) : proj * nat :=
  let l := filter (fun s => negb (f s)) (p_syn p) in
  (mkProj l (p_index p) false, length (p_syn p) - length l).

(** [std::sort] on positions: insertion sort. *)
Fixpoint insert_sorted (x : nat) (l : list nat) : list nat :=
  match l with
  | [] => [x]
  | y :: t => if Nat.leb x y then x :: l else y :: insert_sorted x t
  end.
Definition sort (l : list nat) : list nat := fold_right insert_sorted [] l.

(** [remove_by_index], projection.cpp:72-81: the k-th position is diminished by
    k (the position arithmetic is unsigned; an out-of-range erase is undefined
    behaviour). *)
Fixpoint remove_by_index {A} (data : list A) (to_remove : list nat) (cor : nat) : outcome (list A) :=
  match to_remove with
  | [] => Ret data
  | r :: t => if Nat.ltb r cor then UB else
              match erase_at (r - cor) data with
              | Some data' => remove_by_index data' t (S cor)
              | None => UB
              end
  end.

(** [index_.erase(synapse)], projection.cpp:245: the container's default index
    is its first one, keyed by the presynaptic neuron (projection.h:453-454),
    although the argument is a synapse position. *)
Definition erase_key (pos : nat) (l : list conn) : list conn :=
  filter (fun e => negb (N.eqb (c_from e) (N.of_nat pos))) l.

(** [Projection::remove_postsynaptic_neuron_synapses], projection.cpp:234-249. *)
Definition remove_postsynaptic (n : N) (p : proj) : outcome (proj * nat) :=
  let was := p_updated p in
  let (p1, found) := find_synapses ByPost n (mkProj (p_syn p) (p_index p) false) in
  let found := sort found in
  obind (remove_by_index (p_syn p1) found 0) (fun l =>
  let idx := if was then fold_left (fun ix s => erase_key s ix) found (p_index p1) else p_index p1 in
  Ret (mkProj l idx was, length (p_syn p) - length l)).

(** [Projection::remove_presynaptic_neuron_synapses], projection.cpp:252-258. *)
Definition remove_presynaptic (n : N) (p : proj) : proj * nat :=
  remove_synapse_if (fun s => N.eqb (sy_from s) n) p.

(** Assignment through [operator[]] or an iterator, projection.h:243, 268. *)
Fixpoint set_nth (i : nat) (s : synapse) (l : list synapse) : option (list synapse) :=
  match l, i with
  | [], _ => None
  | _ :: t, 0 => Some (s :: t)
  | x :: t, S i' => match set_nth i' s t with Some t' => Some (x :: t') | None => None end
  end.
Definition assign (i : nat) (s : synapse) (p : proj) : outcome proj :=
  match set_nth i s (p_syn p) with
  | Some l => Ret (mkProj l (p_index p) (p_updated p))
  | None => UB
  end.

(** ** Histories *)
Inductive pop :=
| PAdd (g : nat -> option synapse) (n : nat)
| PClear
| PRemove (i : nat)
| PRemoveIf (f : synapse -> bool)
| PRemovePre (n : N)
| PRemovePost (n : N)
| PFind (c : search) (n : N)
| PAssign (i : nat) (s : synapse).
Inductive pout := PUnit | PCount (n : nat) | PFound (l : list nat).

Definition pexec (p : proj) (o : pop) : outcome (proj * pout) :=
  match o with
  | PAdd g n => let (p', c) := add_synapses g n p in Ret (p', PCount c)
  | PClear => Ret (clear p, PUnit)
  | PRemove i => obind (remove_synapse i p) (fun p' => Ret (p', PUnit))
  | PRemoveIf f => let (p', c) := remove_synapse_if f p in Ret (p', PCount c)
  | PRemovePre n => let (p', c) := remove_presynaptic n p in Ret (p', PCount c)
  | PRemovePost n => obind (remove_postsynaptic n p) (fun q => Ret (fst q, PCount (snd q)))
  | PFind c n => let (p', l) := find_synapses c n p in Ret (p', PFound l)
  | PAssign i s => obind (assign i s p) (fun p' => Ret (p', PUnit))
  end.
Fixpoint prun (p : proj) (ops : list pop) : outcome (proj * list (pop * pout)) :=
  match ops with
  | [] => Ret (p, [])
  | o :: t => obind (pexec p o) (fun q => obind (prun (fst q) t) (fun r =>
                Ret (fst r, (o, snd q) :: snd r)))
  end.
End Projection.
Arguments synapse : clear implicits.
Arguments proj : clear implicits.
Arguments pop : clear implicits.
