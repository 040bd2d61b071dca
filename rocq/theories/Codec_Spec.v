(** What the identifier and message-format properties talk about. *)
From Verif Require Import Base Messaging_Model Codec_Model.

(** Values that fit the C++ field types. *)
Definition impact_fits (i : impact) : Prop :=
  (i_conn i < 2 ^ 64 /\ i_pre i < 2 ^ 32 /\ i_post i < 2 ^ 32)%N.
Definition fits (m : message) : Prop :=
  match m with
  | SpikeMsg s t idx =>
      (s < 2 ^ 128 /\ t < 2 ^ 64)%N /\ (N.of_nat (length idx) < 2 ^ 64)%N /\
      Forall (fun n => (n < 2 ^ 32)%N) idx
  | ImpactMsg s t pre post _ ims =>
      (s < 2 ^ 128 /\ t < 2 ^ 64 /\ pre < 2 ^ 128 /\ post < 2 ^ 128)%N /\
      (N.of_nat (length ims) < 2 ^ 64)%N /\ Forall impact_fits ims
  end.
(** The text that follows a message in the stream does not continue its last
    number. *)
Definition stops (l : list N) : Prop :=
  match l with [] => True | c :: _ => is_digit c = false end.
(** All impact values survive the text form of floats. *)
Definition values_survive (strtof : list N -> option flt) (ims : list impact) : Prop :=
  Forall (fun i => strtof (show_float (i_value i)) = Some (i_value i)) ims.
(** Character codes of a string literal, for the examples. *)
From Coq Require Import String Ascii.
Definition codes (s : string) : list N := List.map N_of_ascii (list_ascii_of_string s).
