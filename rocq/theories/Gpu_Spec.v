(** What a user expects of the device library, without the kernels. *)
From Verif Require Import Base Gpu_Model.

(** The driver may run the threads of a launch in any order. *)
Definition any_order_of (cfg : N * N) (order : list (N * N)) : Prop := Permutation order (grid cfg).
Definition any_orders (ord : orders) : Prop :=
  forall k n, any_order_of (blocks_config (N.of_nat n) 256) (ord k n).

(** Which elements a launch works on: the indexes of the threads that do not
    return at once. *)
Definition touched (order : list (N * N)) (threads : N) (n : N) : list N :=
  filter (fun i => (i <? n)%N) (map (thread_index threads) order).

(** A vector that holds the list [l]. *)
Definition contains {A} (v : vec A) (l : list A) : Prop := to_std v = Ret l /\ v_size v = length l.

(** A sequence container. *)
Section Seq.
Context {A : Type} (dflt : A).
Definition list_op (l : list A) (o : @vop A) : list A :=
  match o with
  | VPush a => l ++ [a]
  | VResize n => firstn n l ++ repeat dflt (n - length l)
  | VSet i a => if i <? length l then firstn i l ++ a :: skipn (S i) l else l
  | VErase b e => if (b <? length l) && (b <? e) then firstn b l ++ skipn e l else l
  | VClear => []
  | VReserve _ => l
  end.
Definition list_run (l : list A) (prog : list (option orders * @vop A)) : list A :=
  fold_left (fun l o => list_op l (snd o)) prog l.

(** The lists a program goes through, the last one included. *)
Fixpoint lists_of (l : list A) (prog : list (option orders * @vop A)) : list (list A) :=
  l :: match prog with [] => [] | o :: rest => lists_of (list_op l (snd o)) rest end.
End Seq.

(** Every size, and every capacity asked for, is one that a launch reaches. *)
Definition limit : N := (2 ^ 32)%N.
Definition small {A} (dflt : A) (l : list A) (prog : list (option orders * @vop A)) : Prop :=
  Forall (fun l => (N.of_nat (length l) <= limit)%N) (lists_of dflt l prog).
Definition fair {A} (prog : list (option orders * @vop A)) : Prop :=
  Forall (fun o => match fst o with Some ord => any_orders ord | None => True end) prog.

(** A vector of [A] that holds [l]: made from a [std::vector] and changed by
    calls of the host and of the device, with any orders of threads. *)
Definition made {A} (E : elem A) (sz : nat) (v : vec A) (l : list A) : Prop :=
  exists l0 v0 prog, h_from_std l0 = Ret v0 /\ fair prog /\ small (e_default E) l0 prog /\
    v_run E sz v0 prog = Ret v /\ list_run (e_default E) l0 prog = l.

(** A call that removes elements in front of others that stay. *)
Definition middle_erase {A} (l : list A) (o : @vop A) : Prop :=
  match o with VErase b e => b < e /\ e < length l | _ => False end.
(** Programs with calls of the host only, none of which does that. *)
Fixpoint only_tail {A} (dflt : A) (l : list A) (prog : list (option orders * @vop A)) : Prop :=
  match prog with
  | [] => True
  | o :: rest => fst o <> None /\ ~ middle_erase l (snd o) /\ only_tail dflt (list_op dflt l (snd o)) rest
  end.
Definition made_by_host {A} (E : elem A) (v : vec A) (l : list A) : Prop :=
  exists l0 v0 prog, h_from_std l0 = Ret v0 /\ fair prog /\ small (e_default E) l0 prog /\
    only_tail (e_default E) l0 prog /\ v_run E 1 v0 prog = Ret v /\ list_run (e_default E) l0 prog = l.
