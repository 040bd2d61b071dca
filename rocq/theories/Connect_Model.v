(** Model of the synapse generators and projection creators of the framework and
    of the connectivity validator.  Paths are relative to
    /repo/knp/base-framework/; headers in include/knp/framework/projection/. *)
From Verif Require Import Base Projection_Model.

Section Connect.
Context {P : Type}.
Implicit Types (sg : nat -> nat -> P).

(** The constructor loop of a projection with a generator ([Projection_Model.
    generate]) for generators that may be undefined. *)
Fixpoint run_gen (g : nat -> outcome (option (synapse P))) (i n : nat) (l : list (synapse P))
  : outcome (list (synapse P)) :=
  match n with
  | 0 => Ret l
  | S n' => obind (g i) (fun o => run_gen g (S i) n' (match o with Some s => l ++ [s] | None => l end))
  end.
Definition edge sg (a b : nat) : synapse P := mkSyn (sg a b) (N.of_nat a) (N.of_nat b).
(** A product of sizes as [size_t]. *)
Definition mul64 (a b : nat) : nat := N.to_nat (w64 (N.of_nat a * N.of_nat b)).

(** [all_to_all], synapse_generators.h:58-72, creators.h:61-72.  Division by zero is
    undefined. *)
Definition g_all_to_all sg (pre post : nat) (i : nat) : outcome (option (synapse P)) :=
  match pre with
  | 0 => UB
  | _ => Ret (Some (edge sg (i mod pre) (i / pre)))
  end.
Definition all_to_all sg pre post := run_gen (g_all_to_all sg pre post) 0 (mul64 pre post) [].

(** [aligned], synapse_generators.h:93-120, creators.h:95-106. *)
Definition g_aligned sg (pre post : nat) (i : nat) : outcome (option (synapse P)) :=
  if Nat.leb post pre then
    match post with
    | 0 => UB
    | _ => let pack := pre / post in Ret (Some (edge sg i (i / pack)))
    end
  else
    match pre with
    | 0 => UB
    | _ => let pack := post / pre in Ret (Some (edge sg (i / pack) i))
    end.
Definition aligned sg pre post := run_gen (g_aligned sg pre post) 0 (Nat.max pre post) [].

(** [exclusive], synapse_generators.h:139-154, creators.h:129-138; the creator's
    product is zero for sizes 0 and 1. *)
Definition g_exclusive sg (n : nat) (i : nat) : outcome (option (synapse P)) :=
  match n - 1 with
  | 0 => UB
  | d => let from := i / d in
         let to := i mod d in
         Ret (Some (edge sg from (if Nat.leb from to then S to else to)))
  end.
Definition exclusive sg n := run_gen (g_exclusive sg n) 0 (mul64 n (n - 1)) [].

(** [one_to_one], synapse_generators.h:172-179, creators.h:158-167; the parameter
    generator takes one index. *)
Definition g_one_to_one (sg1 : nat -> P) (i : nat) : outcome (option (synapse P)) :=
  Ret (Some (edge (fun a _ => sg1 a) i i)).
Definition one_to_one (sg1 : nat -> P) n := run_gen (g_one_to_one sg1) 0 n [].

(** [from_container], synapse_generators.h:196-202, creators.h:186-194.  [FromMap],
    213-248, creators.h:211-220, is the same for the entries of the map in iteration
    order, as the projection calls it once per entry. *)
Definition g_from_container (l : list (synapse P)) (i : nat) : outcome (option (synapse P)) :=
  match nth_error l i with Some s => Ret (Some s) | None => UB end.
Definition from_container l := run_gen (g_from_container l) 0 (length l) [].

(** [clone_projection], synapse_generators.h:472-486, creators.h:389-404: from the
    synapses of another projection. *)
Definition g_clone {Q} (sg1 : nat -> P) (src : list (synapse Q)) (i : nat) : outcome (option (synapse P)) :=
  match nth_error src i with
  | Some s => Ret (Some (mkSyn (sg1 i) (sy_from s) (sy_to s)))
  | None => UB
  end.
Definition clone {Q} (sg1 : nat -> P) (src : list (synapse Q)) := run_gen (g_clone sg1 src) 0 (length src) [].

(** [index_based], synapse_generators.h:324-339, creators.h:278-288. *)
Definition g_index_based (og : nat -> nat -> option P) (pre post : nat) (i : nat) : outcome (option (synapse P)) :=
  match pre with
  | 0 => UB
  | _ => let a := i mod pre in let b := i / pre in
         Ret (match og a b with Some x => Some (mkSyn x (N.of_nat a) (N.of_nat b)) | None => None end)
  end.
Definition index_based og pre post := run_gen (g_index_based og pre post) 0 (mul64 pre post) [].

(** [FixedProbability], synapse_generators.h:259-309, creators.h:244-256: [draw i] is
    the number drawn in call [i] ([uniform_real_distribution<double>(0, 1)]).  The
    constructor's test is 282-283. *)
Definition f_one : flt := d_of_Z 1.
Definition f_zero : flt := d_of_Z 0.
Definition g_fixed_probability sg (draw : nat -> flt) (p : flt) (pre post : nat) (i : nat) : outcome (option (synapse P)) :=
  match pre with
  | 0 => UB
  | _ => Ret (if f_lt (draw i) p then Some (edge sg (i mod pre) (i / pre)) else None)
  end.
Definition fixed_probability sg draw p pre post :=
  if f_gt p f_one || f_lt p f_zero then Throw
  else run_gen (g_fixed_probability sg draw p pre post) 0 (mul64 pre post) [].

(** [FixedNumberPost] and [FixedNumberPre], synapse_generators.h:352-453, creators.h:
    313-326, 351-364: [draw i] is the index drawn in call [i]. *)
Definition g_fixed_post sg (draw : nat -> nat) (pre : nat) (i : nat) : outcome (option (synapse P)) :=
  match pre with
  | 0 => UB
  | _ => Ret (Some (edge sg (i mod pre) (draw i)))
  end.
Definition fixed_number_post sg draw (pre post count : nat) := run_gen (g_fixed_post sg draw pre) 0 (mul64 pre count) [].
Definition g_fixed_pre sg (draw : nat -> nat) (post : nat) (i : nat) : outcome (option (synapse P)) :=
  match post with
  | 0 => UB
  | _ => Ret (Some (edge sg (draw i) (i mod post)))
  end.
Definition fixed_number_pre sg draw (pre post count : nat) := run_gen (g_fixed_pre sg draw post) 0 (mul64 post count) [].
End Connect.

(** ** Connectivity validator *)
(** [std::map<UID, pair<bool, bool>>] in key order (C13: the order of identifiers;
    here that of the numbers). *)
Definition info := list (uid * (bool * bool)).
Fixpoint info_set (u : uid) (f : bool * bool -> bool * bool) (m : info) : info :=
  match m with
  | [] => [(u, f (false, false))]
  | (v, b) :: t => if (u <? v)%N then (u, f (false, false)) :: m
                   else if N.eqb u v then (v, f b) :: t else (v, b) :: info_set u f t
  end.
(** A projection: identifier and ends; the nil identifier (0) is "no population"
    ([UID::operator bool], uid.h:164). *)
Record link := mkLink { l_uid : uid; l_pre : uid; l_post : uid }.
Inductive issue := PopulationNotConnected (u : uid) | ProjectionNotConnected (u : uid).
Definition not_nil (u : uid) : bool := negb (N.eqb u 0).
(** The two loops and the last one, impl/network_validation/validators/
    connectivity.cpp:79-150; [projections_info] is never read. *)
Definition validate_link (st : info * list issue) (l : link) : info * list issue :=
  let '(m, r) := st in
  let m := if not_nil (l_pre l) then info_set (l_pre l) (fun b => (fst b, true)) m else m in
  let m := if not_nil (l_post l) then info_set (l_post l) (fun b => (true, snd b)) m else m in
  (m, if negb (not_nil (l_pre l)) && negb (not_nil (l_post l)) then r ++ [ProjectionNotConnected (l_uid l)] else r).
Definition connectivity (populations : list uid) (projections : list link) : list issue :=
  let m0 := fold_left (fun m u => info_set u (fun _ => (false, false)) m) populations [] in
  let '(m, r) := fold_left validate_link projections (m0, []) in
  r ++ flat_map (fun e => if negb (fst (snd e)) && negb (snd (snd e)) then [PopulationNotConnected (fst e)] else []) m.
