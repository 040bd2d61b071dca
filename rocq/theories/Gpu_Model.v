(** CUDA backend, device library: how kernels are launched and the vector that
    lives in device memory.  Directory: /repo/knp/backends/gpu/cuda-backend/
    impl/cuda_lib. *)
From Verif Require Import Base.

(** ** Launching a kernel *)

(** get_blocks_config.cuh:37-42: the number of blocks and the number of threads
    of a block.  The sum is a [size_t]. *)
Definition blocks_config (total per_block : N) : N * N :=
  ((w64 (total + per_block - 1) / per_block)%N, N.min total per_block).

Definition numbers (n : N) : list N := map N.of_nat (seq 0 (N.to_nat n)).

(** The threads of a launch [<<<blocks, threads>>>], as pairs (blockIdx.x,
    threadIdx.x).  A launch with no blocks or no threads is refused by the
    driver and runs nothing. *)
Definition grid (cfg : N * N) : list (N * N) :=
  flat_map (fun b => map (pair b) (numbers (snd cfg))) (numbers (fst cfg)).

(** vector_kernels.cuh:47 and every other kernel:
    [blockIdx.x * blockDim.x + threadIdx.x], an expression of type
    [unsigned int], widened to 64 bits after it is computed. *)
Definition thread_index (threads : N) (t : N * N) : N :=
  w32 (w32 (fst t * threads) + snd t).

(** The threads of a launch run in some order; each of them computes its index,
    and returns at once if it is not below the number of elements.
    Simplification: a thread is executed without interruption (every kernel of
    the library has at most one effect on memory that other threads see). *)
Fixpoint run_threads {S} (order : list (N * N)) (threads : N) (n : nat)
    (body : nat -> S -> outcome S) (s : S) : outcome S :=
  match order with
  | [] => Ret s
  | t :: rest =>
      let i := thread_index threads t in
      if (i <? N.of_nat n)%N
      then obind (body (N.to_nat i) s) (run_threads rest threads n body)
      else run_threads rest threads n body s
  end.

(** An order of the threads for the launches of one call: the number of the
    launch in the call and the number of elements give the order. *)
Definition orders := nat -> nat -> list (N * N).

Definition launch {S} (ord : orders) (number n : nat) (body : nat -> S -> outcome S) (s : S)
  : outcome S :=
  run_threads (ord number n) (snd (blocks_config (N.of_nat n) 256)) n body s.

(** ** Memory *)
(** A cell of device memory holds an object or does not. *)
Inductive cell (A : Type) := Raw | Obj (a : A).
Arguments Raw {A}.
Arguments Obj {A} _.

(** What the library needs of a type: whether it is trivially copyable, its
    default value, the value left by a move and its comparison. *)
Record elem (A : Type) := mkElem {
  e_triv : bool; e_default : A; e_gone : A -> A; e_eqb : A -> A -> bool }.
Arguments mkElem {A}. Arguments e_triv {A}. Arguments e_default {A}.
Arguments e_gone {A}. Arguments e_eqb {A}.

Fixpoint put_cell {A} (m : list (cell A)) (i : nat) (c : cell A) : option (list (cell A)) :=
  match m, i with
  | [], _ => None
  | _ :: t, 0 => Some (c :: t)
  | x :: t, S i' => option_map (cons x) (put_cell t i' c)
  end.
(** A write outside of a block of memory is undefined. *)
Definition write {A} (m : list (cell A)) (i : nat) (c : cell A) : outcome (list (cell A)) :=
  match put_cell m i c with Some m' => Ret m' | None => UB end.
(** So is a read of a cell without an object. *)
Definition read {A} (m : list (cell A)) (i : nat) : outcome A :=
  match nth_error m i with Some (Obj a) => Ret a | _ => UB end.

(** Placement new: vector_kernels.cuh:51 and :62, cu_alloc.cuh:63-67. *)
Definition construct {A} (m : list (cell A)) (i : nat) (a : A) := write m i (Obj a).
(** The destructor, cu_alloc.cuh:69-72; a second destruction of an object of a
    class with a destructor is undefined. *)
Definition destroy {A} (E : elem A) (m : list (cell A)) (i : nat) : outcome (list (cell A)) :=
  match nth_error m i with
  | Some Raw => if e_triv E then Ret m else UB
  | Some (Obj _) => write m i Raw
  | None => UB
  end.
(** [*p = a]; for a class the assignment works on an existing object. *)
Definition assign {A} (E : elem A) (m : list (cell A)) (i : nat) (a : A) : outcome (list (cell A)) :=
  match nth_error m i with
  | Some Raw => if e_triv E then write m i (Obj a) else UB
  | Some (Obj _) => write m i (Obj a)
  | None => UB
  end.

(** ** CUDAVector *)
(** vector.cuh:556-561. *)
Record vec (A : Type) := mkVec { v_mem : option (list (cell A)); v_cap : nat; v_size : nat }.
Arguments mkVec {A}. Arguments v_mem {A}. Arguments v_cap {A}. Arguments v_size {A}.

(** Access through [data_]. *)
Definition deref {A} (v : vec A) : list (cell A) := match v_mem v with Some m => m | None => [] end.
(** cu_alloc.cuh:48-56: [n] cells, a null pointer if there are none. *)
Definition allocate {A} (n : nat) : option (list (cell A)) :=
  match n with 0 => None | _ => Some (repeat Raw n) end.

Section Host.
Context {A : Type} (E : elem A).
Implicit Types (v : vec A) (ord : orders).

(** The kernels of vector_kernels.cuh: construct (43-52), copy construct
    (55-63), move construct (86-93) and destruct (96-104), working from
    [data + off]. *)
Definition construct_kernel ord k (m : list (cell A)) (off n : nat) :=
  launch ord k n (fun i m => construct m (off + i) (e_default E)) m.
Definition copy_construct_kernel ord k (to : list (cell A)) (off n : nat) (from : list (cell A)) (foff : nat) :=
  launch ord k n (fun i m => obind (read from (foff + i)) (construct m (off + i))) to.
Definition move_construct_kernel ord k (to : list (cell A)) (off n : nat) (from : list (cell A)) (foff : nat)
  : outcome (list (cell A) * list (cell A)) :=
  launch ord k n (fun i ms => obind (read (snd ms) (foff + i)) (fun a =>
                              obind (write (snd ms) (foff + i) (Obj (e_gone E a))) (fun f =>
                              obind (construct (fst ms) (off + i) a) (fun t => Ret (t, f)))))
         (to, from).
Definition destruct_kernel ord k (m : list (cell A)) (off n : nat) :=
  launch ord k n (fun i m => destroy E m (off + i)) m.

(** vector.cuh:125-136 with size 0: no memory. *)
Definition v_empty : vec A := mkVec None 0 0.

(** Host side of 380-410. *)
Definition h_reserve ord k v (n : nat) : outcome (vec A) :=
  if n <=? v_cap v then Ret v
  else let new := allocate n in
       obind (copy_construct_kernel ord k (deref (mkVec new 0 0)) 0 (v_size v) (deref v) 0) (fun m =>
       obind (destruct_kernel ord (S k) (deref v) 0 (v_size v)) (fun _ =>
       Ret (mkVec (Some m) n (v_size v)))).

(** Write the cells back. *)
Definition with_mem v (m : list (cell A)) (size : nat) : vec A :=
  mkVec (match v_mem v with Some _ => Some m | None => None end) (v_cap v) size.

(** Host side of 412-432; launches [k], [k+1] belong to the reservation. *)
Definition h_resize ord k v (n : nat) : outcome (vec A) :=
  if n =? v_size v then Ret v
  else if v_size v <? n then
    obind (h_reserve ord k v n) (fun v =>
    obind (construct_kernel ord (k + 2) (deref v) (v_size v) (n - v_size v)) (fun m =>
    Ret (with_mem v m n)))
  else
    obind (destruct_kernel ord (k + 2) (deref v) n (v_size v - n)) (fun m =>
    Ret (with_mem v m n)).

(** Host side of 320-330 and extraction.cuh:53-60: the bytes of the element are
    overwritten, and for a class the copy gets its own memory. *)
Definition h_set v (i : nat) (a : A) : outcome (vec A * bool) :=
  if v_size v <=? i then Ret (v, false)
  else obind (write (deref v) i (Obj a)) (fun m => Ret (with_mem v m (v_size v), true)).

(** Host side of 362-372. *)
Definition h_push ord v (a : A) : outcome (vec A) :=
  obind (if v_size v =? v_cap v then h_reserve ord 0 v ((v_size v + 1) * 2) else Ret v) (fun v =>
  obind (h_resize ord 2 v (v_size v + 1)) (fun v =>
  obind (h_set v (v_size v - 1) a) (fun r => Ret (fst r)))).

(** Host side of 307-318. *)
Definition h_clear ord k v : outcome (vec A) :=
  if v_size v =? 0 then Ret v
  else obind (destruct_kernel ord k (deref v) 0 (v_size v)) (fun m => Ret (with_mem v m 0)).

(** Host side of 442-476 for the iterators [begin() + b] and [begin() + e]. *)
Definition h_erase ord v (b e : nat) : outcome (vec A) :=
  if v_size v <=? b then Ret v
  else if e <=? b then Ret v
  else
    let removed := Nat.min e (v_size v) - b in
    if v_size v <=? e then h_resize ord 0 v (v_size v - removed)
    else
      let tail := v_size v - e in
      let gone := v_size v - b in
      obind (move_construct_kernel ord 3 (deref (mkVec (allocate tail) 0 0)) 0 tail (deref v) e) (fun r =>
      obind (destruct_kernel ord 4 (snd r) b gone) (fun m =>
      obind (move_construct_kernel ord 5 m b tail (fst r) 0) (fun r =>
      obind (h_resize ord 0 (with_mem v (fst r) (v_size v)) (v_size v - gone + tail)) (fun v' =>
      obind (destruct_kernel ord 6 (snd r) 0 tail) (fun _ => Ret v'))))).

(** [cudaMemcpy] of a whole array into the first cells. *)
Fixpoint memcpy (m : list (cell A)) (l : list A) : outcome (list (cell A)) :=
  match l, m with
  | [], _ => Ret m
  | a :: l', _ :: m' => obind (memcpy m' l') (fun r => Ret (Obj a :: r))
  | _ :: _, [] => UB
  end.

(** 262-278: assignment of a [std::vector].  For a class the kernel is launched
    with the size of the emptied vector, that is for no elements. *)
Definition h_assign_std ord v (l : list A) : outcome (vec A) :=
  obind (h_clear ord 0 v) (fun v =>
  obind (h_reserve ord 1 v (length l)) (fun v =>
  if e_triv E
  then obind (memcpy (deref v) l) (fun m => Ret (with_mem v m (length l)))
  else obind (copy_construct_kernel ord 3 (deref v) 0 (v_size v) (map Obj l) 0) (fun m =>
       Ret (with_mem v m (length l))))).

(** 85-101: construction from a [std::vector] (66-83 and 139-158 likewise). *)
Definition h_from_std (l : list A) : outcome (vec A) :=
  match l with
  | [] => Ret v_empty
  | _ => obind (memcpy (repeat Raw (length l)) l) (fun m => Ret (mkVec (Some m) (length l) (length l)))
  end.

(** 103-121. *)
Fixpoint read_all (m : list (cell A)) (from n : nat) : outcome (list A) :=
  match n with
  | 0 => Ret []
  | S n' => obind (read m from) (fun a => obind (read_all m (S from) n') (fun l => Ret (a :: l)))
  end.
Definition to_std v : outcome (list A) := read_all (deref v) 0 (v_size v).

(** Host side of 179-200: the copy constructor. *)
Definition h_copy ord (other : vec A) : outcome (vec A) :=
  let new := allocate (v_cap other) in
  obind (copy_construct_kernel ord 0 (deref (mkVec new 0 0)) 0 (v_size other) (deref other) 0) (fun m =>
  Ret (mkVec (match new with Some _ => Some m | None => None end) (v_cap other) (v_size other))).

(** Host side of 224-244: copy assignment of another vector. *)
Definition h_copy_assign ord v (other : vec A) : outcome (vec A) :=
  let new := allocate (v_size other) in
  obind (copy_construct_kernel ord 0 (deref (mkVec new 0 0)) 0 (v_size other) (deref other) 0) (fun m =>
  obind (h_clear ord 1 v) (fun _ =>
  Ret (mkVec (match new with Some _ => Some m | None => None end) (v_size other) (v_size other)))).

(** 203-221 and 247-260: moves; the new value of the source is second. *)
Definition h_move_assign ord v (other : vec A) : outcome (vec A * vec A) :=
  obind (h_clear ord 0 v) (fun _ => Ret (other, v_empty)).

(** Host side of 280-304 and equal_kernel (vector_kernels.cuh:107-119): the
    kernel is launched with one block of one thread. *)
Definition h_equal v (other : vec A) : outcome bool :=
  if negb (v_size v =? v_size other) then Ret false
  else run_threads (grid (1, 1)%N) 1 (v_size v)
         (fun i eq => obind (read (deref v) i) (fun a => obind (read (deref other) i) (fun b =>
                      Ret (if e_eqb E a b then eq else false)))) true.

(** 493-513 on a copy of the bytes of [v] (gpu_extract 570-580, gpu_insert in
    extraction.cuh:53-60): an empty vector gets a null pointer and keeps the
    capacity it was copied with. *)
Definition actualized ord v : outcome (vec A) :=
  if v_size v =? 0 then Ret (mkVec None (v_cap v) 0)
  else obind (copy_construct_kernel ord 0 (deref (mkVec (allocate (v_cap v)) 0 0)) 0 (v_size v) (deref v) 0)
             (fun m => Ret (mkVec (Some m) (v_cap v) (v_size v))).

(** ** Device side: the loops run in one thread *)
Fixpoint loop {T} (n i : nat) (body : nat -> T -> outcome T) (s : T) : outcome T :=
  match n with
  | 0 => Ret s
  | S n' => obind (body i s) (loop n' (S i) body)
  end.

(** [Allocator::allocate(new_capacity * sizeof(T))]: more cells than asked for;
    [sz] is the size of the type (cu_alloc.cuh:53). *)
Context (sz : nat).

(** 516-534: the elements are assigned, not constructed, in the new memory. *)
Definition d_reserve v (n : nat) : outcome (vec A) :=
  if n <=? v_cap v then Ret v
  else obind (loop (v_size v) 0 (fun i ms =>
                obind (read (snd ms) i) (fun a =>
                obind (assign E (fst ms) i a) (fun t =>
                obind (destroy E (snd ms) i) (fun f => Ret (t, f)))))
                (repeat Raw (n * sz), deref v)) (fun r =>
       Ret (mkVec (Some (fst r)) n (v_size v))).

(** 536-554. *)
Definition d_resize v (n : nat) : outcome (vec A) :=
  if n =? v_size v then Ret v
  else if n <? v_size v
  then obind (loop (v_size v - n) n (fun i m => destroy E m i) (deref v)) (fun m => Ret (with_mem v m n))
  else obind (d_reserve v n) (fun v =>
       obind (loop (n - v_size v) (v_size v) (fun i m => construct m i (e_default E)) (deref v)) (fun m =>
       Ret (with_mem v m n))).

(** Device side of 362-372. *)
Definition d_push v (a : A) : outcome (vec A) :=
  obind (if v_size v =? v_cap v then d_reserve v ((v_size v + 1) * 2) else Ret v) (fun v =>
  obind (construct (deref v) (v_size v) a) (fun m => Ret (with_mem v m (v_size v + 1)))).

(** 374-378: the element stays in memory. *)
Definition d_pop v : outcome (vec A * A) :=
  if v_size v =? 0 then Ret (v, e_default E)
  else obind (read (deref v) (v_size v - 1)) (fun a => Ret (mkVec (v_mem v) (v_cap v) (v_size v - 1), a)).

(** Device side of 320-330. *)
Definition d_set v (i : nat) (a : A) : outcome (vec A * bool) :=
  if v_size v <=? i then Ret (v, false)
  else obind (assign E (deref v) i a) (fun m => Ret (with_mem v m (v_size v), true)).

(** Device side of 307-318. *)
Definition d_clear v : outcome (vec A) :=
  if v_size v =? 0 then Ret v
  else obind (loop (v_size v) 0 (fun i m => destroy E m i) (deref v)) (fun m => Ret (with_mem v m 0)).

(** Device side of 442-476. *)
Definition d_erase v (b e : nat) : outcome (vec A) :=
  if v_size v <=? b then Ret v
  else if e <=? b then Ret v
  else
    let removed := Nat.min e (v_size v) - b in
    if v_size v <=? e then d_resize v (v_size v - removed)
    else
      let tail := v_size v - e in
      let gone := v_size v - b in
      obind (loop tail 0 (fun i m =>
               obind (read m (b + i + removed)) (fun a =>
               obind (write m (b + i + removed) (Obj (e_gone E a))) (fun m =>
               assign E m (b + i) a))) (deref v)) (fun m =>
      d_resize (with_mem v m (v_size v)) (v_size v - gone + tail)).

(** Device side of 179-200: the elements are assigned, not constructed. *)
Definition d_copy (other : vec A) : outcome (vec A) :=
  let new := allocate (v_cap other) in
  obind (loop (v_size other) 0 (fun i m => obind (read (deref other) i) (assign E m i))
              (deref (mkVec new 0 0))) (fun m =>
  Ret (mkVec (match new with Some _ => Some m | None => None end) (v_cap other) (v_size other))).

(** Device side of 224-244. *)
Definition d_copy_assign v (other : vec A) : outcome (vec A) :=
  let new := allocate (v_size other) in
  obind (loop (v_size other) 0 (fun i m =>
           obind (construct m i (e_default E)) (fun m =>
           obind (read (deref other) i) (assign E m i))) (deref (mkVec new 0 0))) (fun m =>
  obind (d_clear v) (fun _ =>
  Ret (mkVec (match new with Some _ => Some m | None => None end) (v_size other) (v_size other)))).

(** Device side of 280-304; [!=] of the elements is the negation of [==]. *)
Fixpoint d_equal_from (m m' : list (cell A)) (i n : nat) : outcome bool :=
  match n with
  | 0 => Ret true
  | S n' => obind (read m i) (fun a => obind (read m' i) (fun b =>
            if negb (e_eqb E a b) then Ret false else d_equal_from m m' (S i) n'))
  end.
Definition d_equal v (other : vec A) : outcome bool :=
  if negb (v_size v =? v_size other) then Ret false
  else d_equal_from (deref v) (deref other) 0 (v_size v).

(** ** Programs *)
(** The calls that change one vector, from either side. *)
Inductive vop :=
| VPush (a : A) | VResize (n : nat) | VSet (i : nat) (a : A) | VErase (b e : nat)
| VClear | VReserve (n : nat).

Definition h_op ord v (o : vop) : outcome (vec A) :=
  match o with
  | VPush a => h_push ord v a
  | VResize n => h_resize ord 0 v n
  | VSet i a => obind (h_set v i a) (fun r => Ret (fst r))
  | VErase b e => h_erase ord v b e
  | VClear => h_clear ord 0 v
  | VReserve n => h_reserve ord 0 v n
  end.
Definition d_op v (o : vop) : outcome (vec A) :=
  match o with
  | VPush a => d_push v a
  | VResize n => d_resize v n
  | VSet i a => obind (d_set v i a) (fun r => Ret (fst r))
  | VErase b e => d_erase v b e
  | VClear => d_clear v
  | VReserve n => d_reserve v n
  end.

(** A program: [Some ord] is a call made by the host with these orders of the
    threads, [None] a call made by a thread of the device. *)
Fixpoint v_run v (prog : list (option orders * vop)) : outcome (vec A) :=
  match prog with
  | [] => Ret v
  | (Some ord, o) :: rest => obind (h_op ord v o) (fun v => v_run v rest)
  | (None, o) :: rest => obind (d_op v o) (fun v => v_run v rest)
  end.
End Host.
