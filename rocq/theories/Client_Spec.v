(** What the MNIST client should send and record. *)
From Verif Require Import Base.

(** Byte [p] of image [i] of a file; zero beyond the end. *)
Definition pixel (bytes : list N) (size i p : nat) : N := nth (i * size + p) bytes 0%N.
(** A pixel is lit in a frame when its share of 256, in [levels] parts, has reached the number of the frame. *)
Definition bright (levels frame : nat) (b : N) : bool := Nat.ltb frame levels && N.leb (256 * N.of_nat (frame + 1)) (b * N.of_nat levels).
(** The pixels lit in a frame of image [i], in ascending order. *)
Definition shown (bytes : list N) (size levels i frame : nat) : list N :=
  map N.of_nat (filter (fun p => bright levels frame (pixel bytes size i p)) (seq 0 size)).
(** All messages with spikes, step after step. *)
Definition spiking (steps : list (list (N * list N))) : list (N * list N) := filter (fun m => match snd m with [] => false | _ => true end) (concat steps).
