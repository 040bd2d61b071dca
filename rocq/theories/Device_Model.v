(** Devices of the CPU and CUDA backends and their selection. *)
From Verif Require Import Base Core_Model.
From Coq Require String.

(** The platform: [cpu-devices/impl/x86_cpu.cpp], [unknown_cpu.cpp] or
    [cuda-backend/impl/gpu_cuda_device.cu]. *)
Inductive platform := X86 | UnknownCpu | Cuda.

(** What the machine answers.  [mc_ok]: the counter library (x86) or the driver
    (CUDA) can be used; [mc_count]: number of sockets or GPUs; [mc_online]: is a
    socket online (x86); [mc_name]: name of the socket or GPU; [mc_id]: the
    identifier made from the name by [name_generator] or read from the GPU. *)
Record machine := mkMachine { mc_ok : bool; mc_count : nat; mc_online : N -> bool; mc_name : N -> String.string; mc_id : N -> uid }.

(** core/device.h:57-109 with the members of the derived classes (devices/cpu.h:119-123,
    devices/gpu_cuda.h:186-187).  [None]: the number was never written. *)
Record device := mkDev { dv_uid : uid; dv_num : option N; dv_name : String.string }.

Section Devices.
(** The default constructor of [UID] (uid.h:92-97) takes the next identifier of a
    generator; [k] is the number of identifiers taken so far. *)
Variable gen : nat -> uid.
Variable pf : platform.
Variable mc : machine.

(** x86_cpu.cpp:50-59, unknown_cpu.cpp:49-53, gpu_cuda_device.cu:34-46: the base
    class takes an identifier, which is then replaced. *)
Definition dev_new (k : nat) (n : N) : device * nat := (mkDev (mc_id mc n) (Some n) (mc_name mc n), S k).
(** x86_cpu.cpp:62, unknown_cpu.cpp:56, gpu_cuda_device.cu:49-53: the base class
    is default constructed; x86 does not move the number. *)
Definition dev_move (k : nat) (d : device) : device * nat :=
  (mkDev (gen k) (match pf with X86 => None | _ => dv_num d end) (dv_name d), S k).
(** Move assignment, x86_cpu.cpp:68-73, unknown_cpu.cpp:62-68,
    gpu_cuda_device.cu:61-67: the identifier is not assigned. *)
Definition dev_assign (d other : device) : device :=
  mkDev (dv_uid d) (match pf with X86 => dv_num d | _ => dv_num other end) (dv_name other).

Fixpoint dev_list (k : nat) (ns : list N) : list device * nat :=
  match ns with
  | [] => ([], k)
  | n :: t => let (d, k) := dev_new k n in
              let (d, k) := dev_move k d in
              let (l, k) := dev_list k t in (d :: l, k)
  end.
(** The numbers of the devices that are listed: x86_cpu.cpp:124-127,
    unknown_cpu.cpp:99, gpu_cuda_device.cu:210. *)
Definition dev_numbers : list N :=
  match pf with
  | X86 => filter (mc_online mc) (map N.of_nat (seq 0 (mc_count mc)))
  | UnknownCpu => [0%N]
  | Cuda => map N.of_nat (seq 0 (mc_count mc))
  end.
(** x86_cpu.cpp:100-130, unknown_cpu.cpp:95-102, gpu_cuda_device.cu:194-213. *)
Definition list_devices (k : nat) : outcome (list device * nat) :=
  match pf with
  | UnknownCpu => Ret (dev_list k dev_numbers)
  | _ => if mc_ok mc then Ret (dev_list k dev_numbers) else Throw
  end.
Fixpoint dev_moves (k : nat) (l : list device) : list device * nat :=
  match l with
  | [] => ([], k)
  | d :: t => let (d, k) := dev_move k d in
              let (l, k) := dev_moves k t in (d :: l, k)
  end.
(** cpu-single-threaded-backend/impl/backend.cpp:189-204,
    cpu-multi-threaded-backend/impl/backend.cpp:371-386, cuda backend.cu:194-207. *)
Definition get_devices (k : nat) : outcome (list device * nat) :=
  obind (list_devices k) (fun r => Ret (dev_moves (snd r) (fst r))).

(** The user's view: identifiers taken, current devices of the backend, lists got
    from [get_devices] (a device that was given away is [None]), device set by
    [cudaSetDevice]. *)
Record dstate := mkDS { ds_next : nat; ds_current : list device; ds_seen : list (list (option device)); ds_cuda : option N }.
Definition dstate_init (k : nat) : dstate := mkDS k [] [] None.

Inductive dop :=
| DGet                         (* get_devices() *)
| DSelectIds (req : list uid)  (* select_devices(); a set *)
| DSelectOne (i j : nat).      (* select_device() with device j of list i *)

(** core-library/impl/backend.cpp:167-185: the first device with a requested
    identifier is added. *)
Definition add_requested (avail : list device) (req : list uid) (cur : list device) : outcome (list device) :=
  match find (fun d => mem (dv_uid d) req) avail with
  | Some d => Ret (cur ++ [d])
  | None => if Nat.eqb (length req) (length cur) then Ret cur else Throw
  end.
(** [cudaSetDevice(device->get_socket_number())], reading an unset number is
    undefined. *)
Definition set_cuda (d : option device) : outcome (option N) :=
  match d with
  | Some d => match dv_num d with Some n => Ret (Some n) | None => UB end
  | None => UB
  end.
Definition take (s : dstate) (i j : nat) : option device :=
  match nth_error (ds_seen s) i with
  | Some l => match nth_error l j with Some (Some d) => Some d | _ => None end
  | None => None
  end.
(** What the caller gets: an exception, nothing, or devices. *)
Inductive dout := DRefused | DDone | DDevices (l : list device).
Fixpoint update {A} (l : list A) (i : nat) (f : A -> A) : list A :=
  match l, i with
  | [], _ => []
  | a :: t, 0 => f a :: t
  | a :: t, S i' => a :: update t i' f
  end.
Definition given (s : dstate) (i j : nat) : list (list (option device)) :=
  update (ds_seen s) i (fun l => update l j (fun _ => None)).

(** A call; an exception leaves what was done before it.  For CUDA:
    backend.cu:210-222 and 225-231 ([get_devices()[0]] is the first device of the
    machine). *)
Definition dexec (s : dstate) (o : dop) : outcome (dstate * dout) :=
  match o with
  | DGet =>
      match get_devices (ds_next s) with
      | Ret (l, k) => Ret (mkDS k (ds_current s) (ds_seen s ++ [map Some l]) (ds_cuda s), DDevices l)
      | _ => Ret (s, DRefused)
      end
  | DSelectIds req =>
      match get_devices (ds_next s) with
      | Ret (l, k) =>
          match add_requested l req (ds_current s) with
          | Ret cur =>
              match pf with
              | Cuda =>
                  if Nat.ltb 1 (length cur) then Ret (mkDS k cur (ds_seen s) (ds_cuda s), DRefused)
                  else obind (set_cuda (nth_error cur 0)) (fun c => Ret (mkDS k cur (ds_seen s) c, DDone))
              | _ => Ret (mkDS k cur (ds_seen s) (ds_cuda s), DDone)
              end
          | _ => Ret (mkDS k (ds_current s) (ds_seen s) (ds_cuda s), DRefused)
          end
      | _ => Ret (s, DRefused)
      end
  | DSelectOne i j =>
      match take s i j with
      | None => UB
      | Some d =>
          match pf with
          | Cuda =>
              match get_devices (ds_next s) with
              | Ret (l, k) => obind (set_cuda (nth_error l 0)) (fun c => Ret (mkDS k [d] (given s i j) c, DDone))
              | _ => Ret (mkDS (ds_next s) [d] (given s i j) (ds_cuda s), DRefused)
              end
          | _ => Ret (mkDS (ds_next s) [d] (given s i j) (ds_cuda s), DDone)
          end
      end
  end.
(** The results of the calls. *)
Fixpoint druns (s : dstate) (ops : list dop) : outcome (dstate * list dout) :=
  match ops with
  | [] => Ret (s, [])
  | o :: t => obind (dexec s o) (fun r => obind (druns (fst r) t) (fun q => Ret (fst q, snd r :: snd q)))
  end.
End Devices.

(** ** Power of a CPU *)
(** [duration_cast<seconds>] of a duration in nanoseconds, x86_cpu_power.cpp:88. *)
Definition whole_seconds (ns : Z) : Z := Z.quot ns 1000000000.
(** x86_cpu_power.cpp:74-95: energy in joules (a double of the counter library)
    since the last call, divided by the time; the result is cut to binary32. *)
Definition get_power (available : bool) (joules : flt) (ns : Z) : outcome flt :=
  if available then Ret (f_of_d (d_div joules (d_of_Z (whole_seconds ns)))) else Throw.
