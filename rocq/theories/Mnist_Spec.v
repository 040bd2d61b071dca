(** What the training program of the MNIST example should do. *)
From Verif Require Import Base Messaging_Model Framework_Model Exec_Model Classify_Model Classify_Spec Mnist_Model.

(** A dataset to train on: prepared for frames of 15 steps, with training frames. *)
Definition trainable (d : dataset) : Prop := prepared d /\ ds_spf d = 15%N /\ (0 < ds_train d)%N /\ (ds_train d < two32)%N.
(** What a channel with data sends for step [t]: nothing when there is no data. *)
Definition spoken (c : uid) (t : nat) (l : list N) : list message :=
  match l with [] => [] | _ => [SpikeMsg c (N.of_nat t) l] end.
(** Every bucket of the multimap holds entries of one channel. *)
Definition separate (b : buckets) : Prop := forall k x y, In k b -> In x k -> In y k -> fst x = fst y.
Definition observer (c : xcall) : Prop := match c with AddObserver _ _ _ => True | AddHandler _ _ _ _ => False end.
