(** Model of the network visualizer: the graph of a network, its parts and their drawing,
    /repo/knp/base-framework/impl/visualizer/visualize_network.cpp.  Simplifications: fewer
    than 2^31 populations ([int] indexes are exact); pixel positions, colours and fonts are
    left out: a drawing is the list of the shapes drawn between numbered points. *)
From Verif Require Import Base.
From Coq Require String.

(** What the graph takes from a population and from a projection; [get_name] (lines 91-113)
    is already applied. *)
Record vpop := mkVP { vp_uid : uid; vp_size : N; vp_name : String.string }.
Record vproj := mkVJ { vj_uid : uid; vj_pre : uid; vj_post : uid; vj_size : N; vj_name : String.string }.
(** [NetworkGraph], visualize_network.h:44-140; [None] is the index -1. *)
Record gedge := mkGE { ge_uid : uid; ge_size : N; ge_from : option nat; ge_to : option nat; ge_name : String.string }.
Record graph := mkGraph { g_nodes : list vpop; g_edges : list gedge }.

(** The loop over the nodes, lines 139-144: the last match counts. *)
Fixpoint node_index (u : uid) (nodes : list vpop) (i : nat) (acc : option nat) : option nat :=
  match nodes with
  | [] => acc
  | x :: t => node_index u t (S i) (if N.eqb u (vp_uid x) then Some i else acc)
  end.
(** The constructor of [NetworkGraph], lines 121-147. *)
Definition network_graph (pops : list vpop) (projs : list vproj) : graph :=
  mkGraph pops (map (fun p => mkGE (vj_uid p) (vj_size p) (node_index (vj_pre p) pops 0 None) (node_index (vj_post p) pops 0 None) (vj_name p)) projs).

(** [adj_list[index].push_back(value)]; out of range it is undefined. *)
Fixpoint push_at {A} (i : nat) (x : A) (l : list (list A)) : outcome (list (list A)) :=
  match l, i with
  | [], _ => UB
  | a :: t, O => Ret ((a ++ [x]) :: t)
  | a :: t, S i => obind (push_at i x t) (fun t' => Ret (a :: t'))
  end.
(** [build_adjacency_list], lines 156-167: an unknown source is the input node, the last one;
    an unknown target is the number 2^64 - 1, here [None]. *)
Fixpoint add_edges (n : nat) (edges : list gedge) (adj : list (list (option nat))) : outcome (list (list (option nat))) :=
  match edges with
  | [] => Ret adj
  | e :: t => obind (push_at (match ge_from e with Some i => i | None => n end) (ge_to e) adj) (add_edges n t)
  end.
Definition build_adjacency_list (g : graph) : outcome (list (list (option nat))) :=
  add_edges (length (g_nodes g)) (g_edges g) (repeat [] (S (length (g_nodes g)))).
(** [make_reverse_list], lines 330-339: [rev_list[val]] with the number 2^64 - 1 is out of range. *)
Fixpoint reverse_row (count : nat) (row : list (option nat)) (rev : list (list nat)) : outcome (list (list nat)) :=
  match row with
  | [] => Ret rev
  | None :: _ => UB
  | Some v :: t => obind (push_at v count rev) (reverse_row count t)
  end.
Fixpoint reverse_rows (count : nat) (adj : list (list (option nat))) (rev : list (list nat)) : outcome (list (list nat)) :=
  match adj with
  | [] => Ret rev
  | row :: t => obind (reverse_row count row rev) (reverse_rows (S count) t)
  end.
Definition make_reverse_list (adj : list (list (option nat))) : outcome (list (list nat)) :=
  reverse_rows 0 adj (repeat [] (length adj)).

(** An [std::unordered_set<int>] is a list without repetitions; which element comes first is
    decided by [pick], any function of the elements already handled and of the set. *)
Definition mem_nat (x : nat) (l : list nat) : bool := existsb (Nat.eqb x) l.
Definition set_insert (x : nat) (s : list nat) : list nat := if mem_nat x s then s else s ++ [x].
Definition set_erase (x : nat) (s : list nat) : list nat := filter (fun y => negb (Nat.eqb x y)) s.
(** The loop over the neighbours, lines 377-385. *)
Definition visit (cur : nat) (processed ignored : list nat) (out : list nat) (nonproc : list nat) : list nat :=
  fold_left (fun s n => if Nat.eqb n cur then s else if mem_nat n processed then s else if mem_nat n ignored then s else set_insert n s) out nonproc.
(** The loop of [find_connected_set], lines 369-389; [None] when the iterations allowed are used up. *)
Fixpoint spread (fuel : nat) (pick : list nat -> list nat -> nat) (adj rev : list (list nat)) (ignored nonproc processed : list nat) : outcome (option (list nat)) :=
  match fuel with
  | O => Ret None
  | S fuel =>
      match nonproc with
      | [] => Ret (Some processed)
      | _ =>
          let cur := pick processed nonproc in
          match nth_error adj cur, nth_error rev cur with
          | Some out, Some inc =>
              spread fuel pick adj rev ignored (set_erase cur (visit cur processed ignored inc (visit cur processed ignored out nonproc))) (processed ++ [cur])
          | _, _ => UB
          end
      end
  end.
(** [std::sort]. *)
Fixpoint sort_in (x : nat) (l : list nat) : list nat :=
  match l with [] => [x] | y :: t => if Nat.leb x y then x :: l else y :: sort_in x t end.
Definition sorted (l : list nat) : list nat := fold_right sort_in [] l.
(** [find_connected_set], lines 351-401: the part found and the nodes that remain. *)
Definition find_connected_set (fuel : nat) (pick : list nat -> list nat -> nat) (adj rev : list (list nat)) (remaining ignored : list nat)
    : outcome (option (list nat * list nat)) :=
  let cleaned := fold_left (fun s n => set_erase n s) ignored remaining in
  match cleaned with
  | [] => Ret (Some ([], []))
  | _ =>
      obind (spread fuel pick adj rev ignored [pick [] cleaned] []) (fun r =>
      Ret (match r with
           | None => None
           | Some processed => Some (sorted processed, fold_left (fun s n => set_erase n s) processed remaining)
           end))
  end.
(** The loop of [divide_graph_by_connectivity], lines 414-417. *)
Fixpoint divide_loop (fuel : nat) (steps : nat) (pick : list nat -> list nat -> nat) (adj rev : list (list nat)) (remaining ignored : list nat)
    (found : list (list nat)) : outcome (option (list (list nat))) :=
  match fuel with
  | O => Ret None
  | S fuel =>
      match remaining with
      | [] => Ret (Some found)
      | _ => obind (find_connected_set steps pick adj rev remaining ignored) (fun r =>
             match r with
             | None => Ret None
             | Some (part, rest) => divide_loop fuel steps pick adj rev rest ignored (found ++ [part])
             end)
      end
  end.
(** The values of an adjacency list as [size_t]; a list with the number 2^64 - 1 does not get
    past [make_reverse_list]. *)
Definition known (l : list (option nat)) : list nat := flat_map (fun v => match v with Some i => [i] | None => [] end) l.
(** [divide_graph_by_connectivity], lines 404-420. *)
Definition divide_graph (fuel : nat) (pick : list nat -> list nat -> nat) (g : graph) : outcome (option (list (list nat))) :=
  obind (build_adjacency_list g) (fun adj =>
  obind (make_reverse_list adj) (fun rev =>
  divide_loop fuel fuel pick (map known adj) rev (set_erase (length adj - 1) (seq 0 (length adj))) [length adj - 1] [])).

(** A line of [print_connected_subset], lines 430-447: the population, its size, where it receives
    from ([None] is the input) and where it sends to. *)
Record line := mkLine { l_node : nat; l_size : N; l_from : list (option nat); l_to : list nat }.
Definition print_line (g : graph) (adj : list (list nat)) (rev : list (list nat)) (node : nat) : outcome line :=
  match nth_error (g_nodes g) node, nth_error rev node, nth_error adj node with
  | Some p, Some inc, Some out => Ret (mkLine node (vp_size p) (map (fun i => if Nat.eqb i (length adj - 1) then None else Some i) inc) out)
  | _, _, _ => UB
  end.
Fixpoint print_lines (g : graph) (adj rev : list (list nat)) (nodes : list nat) : outcome (list line) :=
  match nodes with
  | [] => Ret []
  | n :: t => obind (print_line g adj rev n) (fun x => obind (print_lines g adj rev t) (fun r => Ret (x :: r)))
  end.
Fixpoint print_parts (g : graph) (adj rev : list (list nat)) (parts : list (list nat)) : outcome (list (list line)) :=
  match parts with
  | [] => Ret []
  | p :: t => obind (print_lines g adj rev p) (fun x => obind (print_parts g adj rev t) (fun r => Ret (x :: r)))
  end.
(** [print_network_description], lines 453-464. *)
Definition print_network (fuel : nat) (pick : list nat -> list nat -> nat) (g : graph) : outcome (option (list (list line))) :=
  obind (build_adjacency_list g) (fun adj =>
  obind (make_reverse_list adj) (fun rev =>
  obind (divide_graph fuel pick g) (fun d =>
  match d with
  | None => Ret None
  | Some parts => obind (print_parts g (map known adj) rev parts) (fun r => Ret (Some r))
  end))).

(** Shapes: an arrow between two points, a loop at a point, an arrow from above to a point, a point with a name. *)
Inductive shape := Arrow (i j : nat) | Ring (i : nat) | Entry (i : nat) | Dot (i : nat) (name : String.string).
(** [std::find]; the position or nothing. *)
Fixpoint position (x : nat) (l : list nat) : option nat :=
  match l with
  | [] => None
  | y :: t => if Nat.eqb y x then Some 0 else match position x t with Some i => Some (S i) | None => None end
  end.
(** [draw_edges], lines 205-235: [i] is the position in [nodes]. *)
Definition draw_targets (nodes : list nat) (i : nat) (out : list (option nat)) : list shape :=
  flat_map (fun v => match v with
    | None => []
    | Some v => match position v nodes with None => [] | Some j => if Nat.eqb j i then [Ring i] else [Arrow i j] end
    end) out.
Fixpoint draw_edges (adj : list (list (option nat))) (nodes rest : list nat) (i : nat) : outcome (list shape) :=
  match rest with
  | [] => Ret []
  | n :: t => match nth_error adj n with
              | None => UB
              | Some out => obind (draw_edges adj nodes t (S i)) (fun r => Ret (draw_targets nodes i out ++ r))
              end
  end.
(** Lines 252-260: the inputs; [inputs] is the last row of the adjacency list. *)
Definition draw_inputs (nodes : list nat) (inputs : list (option nat)) : list shape :=
  flat_map (fun v => match v with None => [] | Some v => match position v nodes with None => [] | Some j => [Entry j] end end) inputs.
(** Lines 264-280: the name drawn at the point with number [i] is the name of [graph.nodes_[i]]. *)
Fixpoint draw_nodes (g : graph) (nodes : list nat) (i : nat) : outcome (list shape) :=
  match nodes with
  | [] => Ret []
  | _ :: t => match nth_error (g_nodes g) i with
              | None => UB
              | Some p => obind (draw_nodes g t (S i)) (fun r => Ret (Dot i (vp_name p) :: r))
              end
  end.
(** [draw_annotated_subgraph], lines 243-283, with the inputs of [position_network_test] (lines 481-486). *)
Definition draw_subgraph (g : graph) (adj : list (list (option nat))) (nodes : list nat) : outcome (list shape) :=
  obind (draw_edges adj nodes nodes 0) (fun e =>
  obind (draw_nodes g nodes 0) (fun d => Ret (draw_inputs nodes (last adj []) ++ e ++ d))).
