(** What the training properties talk about. *)
From Coq Require Import QArith.
From Verif Require Import Base Stdp_Model.
Local Open Scope Q_scope.

(** Resource held by a list of synapses; with the free resource of their neuron. *)
Definition resources (l : list tsyn) : Q := fold_right (fun s q => ts_res s + q) 0 l.
Definition total (n : tneu) (l : list tsyn) : Q := tn_free n + resources l.

(** Steps at which a neuron spikes, unforced, one after the other: strictly
    increasing step numbers below 2^63. *)
Fixpoint increasing (l : list N) : Prop :=
  match l with
  | [] => True
  | x :: t => (x < 2 ^ 63)%N /\ (match t with [] => True | y :: _ => (x < y)%N end) /\ increasing t
  end.
Definition spikes_at_steps (n : tneu) (l : list N) : tneu := fold_left (fun n s => update_isi s n) l n.
(** The documented rule: a spike continues the period if it comes less than
    isi_max_ steps after the last one. *)
Definition continues (isi_max last step : N) : Prop := (step - last < isi_max)%N.

(** The step at which the last spike through synapse [s] arrived. *)
Definition arrival (s : tsyn) : N := (ts_last s + ts_delay s - 1)%N.
(** The documented factor of a reward: max(2 - |t - ISImax| / ISImax, -1). *)
Definition documented_factor (t isi_max : N) : Q :=
  let x := 2 - inject_Z (Z.abs (Z.of_N t - Z.of_N isi_max)) / inject_Z (Z.of_N isi_max) in
  if Qle_bool x (-1) then -1 else x.

(** Two training states hold the same resources: same neurons (as far as free
    resource and drain go), same synapses (as far as target and resource go). *)
Definition same_resources (s s' : list tneu * list tsyn) : Prop :=
  map tn_free (fst s') = map tn_free (fst s) /\ map tn_drain (fst s') = map tn_drain (fst s) /\
  map ts_to (snd s') = map ts_to (snd s) /\ map ts_res (snd s') = map ts_res (snd s).
(** A history of a population: it is trained with some spikes at some step, or the
    rest of the simulation changes anything but resources (weights, dopamine, spike
    times, statuses...). *)
Inductive history (damp : Q -> Q) : list tneu * list tsyn -> list tneu * list tsyn -> Prop :=
| h_nil s : history damp s s
| h_train s s' step spikes : history damp s s' -> NoDup spikes -> history damp s (train damp step spikes s')
| h_other s s' s'' : history damp s s' -> same_resources s' s'' -> history damp s s''.
(** The synapses that lead to neuron [j]. *)
Definition own (j : nat) (l : list tsyn) : list tsyn := filter (fun s => Nat.eqb (ts_to s) j) l.
