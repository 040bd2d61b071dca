(** Model of the MNIST client, /repo/examples/mnist-client/: images of a file turned into
    frames (process_data.cpp), the generator of the input channel and the observer of the
    results (inference.cpp).  [int] parameters are natural numbers below 2^31. *)
From Verif Require Import Base.

(** [image_to_spikes], process_data.cpp:64-78: frames after the last level are empty vectors. *)
Definition delta (levels : nat) : flt := d_div (d_of_Z 256) (d_of_Z (Z.of_nat levels)).
Definition lit (levels frame : nat) (b : N) : bool :=
  SFleb (d_mul (delta levels) (d_of_Z (Z.of_nat (frame + 1)))) (d_of_Z (Z.of_N b)).
Definition image_to_spikes (buf : list N) (levels frames : nat) : list (list bool) :=
  map (fun k => if Nat.ltb k (Nat.min frames levels) then map (lit levels k) buf else []) (seq 0 frames).
(** [read_images_from_file], process_data.cpp:86-100: a buffer of zeros is filled with the bytes
    that are left and kept whether or not they suffice; only a read that meets the end of the
    file ends the loop. [None]: the rounds allowed are used up. *)
Fixpoint read_loop (fuel size : nat) (bytes : list N) : option (list (list N)) :=
  match fuel with
  | O => None
  | S fuel =>
      if Nat.ltb (length bytes) size then Some [bytes ++ repeat 0%N (size - length bytes)]
      else match read_loop fuel size (skipn size bytes) with Some r => Some (firstn size bytes :: r) | None => None end
  end.
Definition read_images (fuel size : nat) (file : option (list N)) : option (list (list N)) :=
  match file with None => Some [] | Some bytes => read_loop fuel size bytes end.
(** [read_spikes_from_grayscale_file], process_data.cpp:114-131. *)
Definition read_spikes (fuel size frames levels skip : nat) (file : option (list N)) : option (list (list bool)) :=
  match read_images fuel size file with
  | Some images => Some (flat_map (fun im => image_to_spikes im levels frames) (skipn skip images))
  | None => None
  end.
(** [make_input_image_generator], inference.cpp:38-58; [SpikeData] holds 32-bit indexes. *)
Fixpoint indexes (i : N) (frame : list bool) : list N :=
  match frame with
  | [] => []
  | b :: t => if b then w32 i :: indexes (i + 1) t else indexes (i + 1) t
  end.
Definition generate (frames : list (list bool)) (skip step : N) : outcome (list N) :=
  if (N.of_nat (length frames) <=? step)%N then Ret []
  else match nth_error frames (N.to_nat (add64 step skip)) with
       | Some f => Ret (indexes 0 f)
       | None => UB
       end.
(** [make_observer_function], inference.cpp:76-92: a message is its time and its indexes. *)
Definition observe (messages : list (N * list N)) (result : list (N * list N)) : list (N * list N) :=
  match messages with
  | [] => result
  | (_, []) :: _ => result
  | m :: _ => result ++ [m]
  end.
Definition observe_all (steps : list (list (N * list N))) : list (N * list N) := fold_left (fun r ms => observe ms r) steps [].
