(** What the logger properties talk about. *)
From Verif Require Import Base Messaging_Model Monitor_Model.
From Coq Require Import String Permutation.
Open Scope list_scope.

(** Spikes that messages bring from the senders named [name]. *)
Definition spikes_of_message (ns : names) (name : string) (msg : message) : N :=
  match msg with
  | SpikeMsg sender _ idx => match name_of ns sender with
                             | Some n => if string_dec n name then N.of_nat (List.length idx) else 0
                             | None => 0
                             end
  | _ => 0
  end%N.
Definition total {A} (f : A -> N) (l : list A) : N := fold_right (fun x s => (f x + s)%N) 0%N l.
Definition spikes_of_calls (ns : names) (name : string) (calls : list (list message)) : N :=
  total (total (spikes_of_message ns name)) calls.

(** The calls at the steps [t - period .. t), if the first call is at step [first]. *)
Definition window (period first t : N) (calls : list (list message)) : list (list message) :=
  map snd (filter (fun p : N * list message => N.leb t (fst p + period) && N.ltb (fst p) t)
             (combine (map (fun k => (first + N.of_nat k)%N) (seq 0 (List.length calls))) calls)).

(** A log of values read back: what stands below every "Neuron" line. *)
Definition block := (N * list (flt * N))%type.
(** The values up to the next "Neuron" line. *)
Fixpoint leading (l : list token) : list (flt * N) :=
  match l with TValue w s :: t => (w, s) :: leading t | _ => [] end.
Fixpoint read_blocks (l : list token) : list block :=
  match l with
  | TNeuron n :: t => (n, leading t) :: read_blocks t
  | _ :: t => read_blocks t
  | [] => []
  end.
