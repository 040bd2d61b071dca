(** What the properties of datasets and of the evaluation talk about. *)
From Verif Require Import Base Classify_Model.
From Coq Require Export Sorted.

(** The spikes [l] show step [k] of the frame: in growing order, the pixels whose
    bit is set. *)
Definition shows (size : N) (data : frame) (k : N) (l : list N) : Prop :=
  StronglySorted N.lt l /\
  forall p, In p l <-> (p < size)%N /\ nth_error data (N.to_nat (k * size + p)) = Some true.
(** A dataset as the preparation leaves it: every frame has a bit for every pixel and
    step, the parts lie within the data, and sizes fit. *)
Definition prepared (d : dataset) : Prop :=
  (forall nf, In nf (ds_data d) -> N.of_nat (length (snd nf)) = (ds_spf d * ds_image d)%N) /\
  (ds_train d + ds_inf d <= ds_size d)%N /\ (0 < ds_spf d)%N /\ (ds_size d < two64)%N /\
  (ds_spf d * ds_image d < two64)%N /\ (ds_image d <= two32)%N.

(** An accumulator fed with values: adds the scaled value; at one or more it fires and
    one is taken off. *)
Fixpoint accumulator (factor s : flt) (xs : list N) : list bool :=
  match xs with
  | [] => []
  | x :: t => let s1 := f_add s (f_mul factor (f_of_Z (Z.of_N x))) in
              let fires := f_le (f_of_Z 1) s1 in
              fires :: accumulator factor (if fires then f_sub s1 (f_of_Z 1) else s1) t
  end.
(** Several images, one after the other, through one converter. *)
Fixpoint convert_all (limit : N) (d : dataset) (active : N) (factor : flt) (states : list flt) (imgs : list (list N))
  : outcome (list frame) :=
  match imgs with
  | [] => Ret []
  | x :: t => obind (convert limit d active factor states x) (fun r =>
              obind (convert_all limit d active factor (fst r) t) (fun fs => Ret (snd r :: fs)))
  end.
(** The bits of pixel [l] in steps [from, from + n). *)
Definition pixel_bits (size l from n : nat) (f : frame) : list bool := map (fun k => nth (k * size + l) f false) (seq from n).

(** The images, converted in order by a converter with a state. *)
Inductive converted {S} (conv : S -> list N -> outcome (S * frame)) : S -> list (list N) -> list frame -> Prop :=
| converted_nil s : converted conv s [] []
| converted_cons s s' x f xs fs : conv s x = Ret (s', f) -> converted conv s' xs fs -> converted conv s (x :: xs) (f :: fs).
(** A line: no line feed, a number. *)
Definition line (str : list N) (z : Z) : Prop := ~ In 10%N str /\ stoi str = Ret z.
(** Lines, each ended by a line feed. *)
Definition lines (strs : list (list N)) : list N := flat_map (fun s => s ++ [10%N]) strs.

(** Evaluation: the spikes of frame [f] are those sent in its steps. *)
Definition spikes_of_frame (spf f : N) (ms : list spike_message) : list N :=
  flat_map (fun m => if N.eqb (fst m / spf) f then snd m else []) ms.
Definition votes_for (classes spf f c : N) (ms : list spike_message) : nat :=
  length (filter (fun s => N.eqb (s mod classes) c) (spikes_of_frame spf f ms)).
(** The prediction for a frame: none without votes, else the first class with most
    votes. *)
Definition prediction (classes spf f : N) (ms : list spike_message) (p : option N) : Prop :=
  match p with
  | None => spikes_of_frame spf f ms = []
  | Some c => (c < classes)%N /\ 0 < votes_for classes spf f c ms /\
              forall c', (c' < classes)%N ->
                votes_for classes spf f c' ms <= votes_for classes spf f c ms /\
                ((c' < c)%N -> votes_for classes spf f c' ms < votes_for classes spf f c ms)
  end.
(** How many frames below [n] satisfy [q]. *)
Definition count (n : nat) (q : nat -> bool) : N := N.of_nat (length (filter q (seq 0 n))).
Definition opt_eqb (a b : option N) : bool :=
  match a, b with Some x, Some y => N.eqb x y | None, None => true | _, _ => false end.
