(** Model of the spike message handlers (winner takes all, union) and of the
    executor's use of them.  Paths are relative to /repo/knp/base-framework/. *)
From Verif Require Import Base Messaging_Model.

(** Positions [i] and [j] of a vector exchanged ([std::swap] on elements); out of
    range positions do not occur in the callers. *)
Fixpoint set_nth {A} (i : nat) (x : A) (l : list A) : list A :=
  match l, i with
  | [], _ => []
  | _ :: t, 0 => x :: t
  | y :: t, S i' => y :: set_nth i' x t
  end.
Definition swap {A} (i j : nat) (l : list A) : list A :=
  match nth_error l i, nth_error l j with
  | Some x, Some y => set_nth j x (set_nth i y l)
  | _, _ => l
  end.

(** The numbers a [std::uniform_int_distribution<size_t>] yields, one after the
    other: any infinite sequence.  What is left of it is part of the results. *)
Definition random := nat -> N.
Definition after_draws (n : nat) (r : random) : random := fun i => r (n + i).

(** [select_random_n], impl/message_handlers.cpp:34-47; the loop from [i] on, [n]
    rounds left. *)
Fixpoint select_loop (r : random) (i n : nat) (input : list N) : list N :=
  match n with
  | 0 => []
  | S n' =>
      let index := N.to_nat (r i mod N.of_nat (length input - i))%N in
      match nth_error input index with
      | Some x => x :: select_loop r (S i) n' (swap index (length input - 1 - i) input)
      | None => []
      end
  end.
Definition select_random_n (r : random) (input : list N) (n : nat) : list N * random :=
  if Nat.leb (length input) n then (input, r)
  else (select_loop r 0 n input, after_draws n r).

(** The neuron indexes of a message. *)
Definition spikes_of (m : message) : list N := match m with SpikeMsg _ _ idx => idx | _ => [] end.

(** [KWtaRandomHandler::operator()], message_handlers.cpp:50-66. *)
Definition kwta_random (r : random) (winners : nat) (messages : list message) : list N * random :=
  match messages with
  | [] => ([], r)
  | m :: _ => if Nat.ltb (length (spikes_of m)) winners then (spikes_of m, r)
              else select_random_n r (spikes_of m) winners
  end.

(** [std::sort] of the borders in the constructors, message_handlers.h:109, 154:
    the ascending order of numbers is unique. *)
Fixpoint insert_sorted (x : N) (l : list N) : list N :=
  match l with [] => [x] | y :: t => if (x <=? y)%N then x :: l else y :: insert_sorted x t end.
Definition sort_borders (l : list N) : list N := fold_right insert_sorted [] l.
(** [std::upper_bound(borders, spike) - begin] on the sorted borders,
    message_handlers.cpp:93-94, 137-138. *)
Fixpoint upper_bound (x : N) (borders : list N) : nat :=
  match borders with [] => 0 | b :: t => if (x <? b)%N then 0 else S (upper_bound x t) end.
Fixpoint push_to {A} (i : nat) (x : A) (groups : list (list A)) : list (list A) :=
  match groups, i with
  | [], _ => []
  | g :: t, 0 => (g ++ [x]) :: t
  | g :: t, S i' => g :: push_to i' x t
  end.
(** The groups, message_handlers.cpp:88-96, 134-140. *)
Definition spikes_per_group (borders spikes : list N) : list (list N) :=
  fold_left (fun gs s => push_to (upper_bound s borders) s gs) spikes (repeat [] (S (length borders))).

(** [KWtaPerGroup], message_handlers.cpp:126-150, constructor message_handlers.h:151-
    155.  [limit] elements can be had by [reserve] (143): it throws beyond. *)
Fixpoint select_groups (r : random) (winners : nat) (groups : list (list N)) : list N * random :=
  match groups with
  | [] => ([], r)
  | g :: t => let (a, r1) := select_random_n r g winners in
              let (b, r2) := select_groups r1 winners t in (a ++ b, r2)
  end.
Definition kwta_per_group (limit : N) (r : random) (borders : list N) (winners : nat) (messages : list message)
  : outcome (list N * random) :=
  let borders := sort_borders borders in
  match messages with
  | [] => Ret ([], r)
  | m :: _ =>
      match spikes_of m with
      | [] => Ret ([], r)
      | spikes => if (limit <? w64 (N.of_nat (length borders) * N.of_nat winners))%N then Throw
                  else Ret (select_groups r winners (spikes_per_group borders spikes))
      end
  end.

(** [GroupWtaRandomHandler], message_handlers.cpp:69-123, constructor
    message_handlers.h:105-110.  [std::sort] by descending size is not stable and
    [std::shuffle] is random: both are parameters.  [winners = 0] reads before the
    first group (104).  The ties with the last winner are the groups of its
    size (105-107). *)
Fixpoint concat_firstn {A} (n : nat) (l : list (list A)) : list A :=
  match n, l with S n', g :: t => g ++ concat_firstn n' t | _, _ => [] end.
Definition group_wta (srt shf : list (list N) -> list (list N)) (borders : list N) (winners : nat)
    (messages : list message) : outcome (list N) :=
  let borders := sort_borders borders in
  match messages with
  | [] => Ret []
  | m :: _ =>
      if Nat.ltb (length borders) winners then Ret (spikes_of m)
      else match spikes_of m with
           | [] => Ret []
           | spikes =>
               let groups := srt (spikes_per_group borders spikes) in
               match winners with
               | 0 => UB
               | S k =>
                   match nth_error groups k with
                   | None => UB
                   | Some last =>
                       let bigger := filter (fun g => Nat.ltb (length last) (length g)) groups in
                       let ties := filter (fun g => Nat.eqb (length g) (length last)) groups in
                       let smaller := filter (fun g => Nat.ltb (length g) (length last)) groups in
                       Ret (concat_firstn winners (bigger ++ shf ties ++ smaller))
                   end
               end
           end
  end.

(** [SpikeUnionHandler::operator()], message_handlers.cpp:153-165; [order] is the
    iteration order of the unordered set. *)
Definition spike_union (order : list N -> list N) (messages : list message) : list N :=
  order (nodup N.eq_dec (flat_map spikes_of messages)).

(** [ModelExecutor::SpikeMessageHandler::update], impl/model_executor.cpp:62-72: what
    is sent for the messages received. *)
Definition handler_update (handler : list message -> list N) (u : uid) (step : N) (incoming : list message)
  : list message :=
  match handler incoming with [] => [] | out => [SpikeMsg u step out] end.
