(** Model of populations as neuron lists, tag maps, the step loop of a backend
    and device selection. *)
From Verif Require Import Base.

(** ** Population: the neuron list *)

(** [Population::add_neurons],
    /repo/knp/core-library/include/knp/core/population.h:187-202 (also the
    constructors, population.cpp:30-48). *)
Fixpoint add_neurons {A} (g : nat -> option A) (i count : nat) (neurons : list A) : list A :=
  match count with
  | 0 => neurons
  | S c => add_neurons g (S i) c (match g i with Some x => neurons ++ [x] | None => neurons end)
  end.

(** [Population::remove_neuron], population.h:223-228: advancing beyond the end
    is undefined behaviour. *)
Definition remove_neuron {A} (i : nat) (neurons : list A) : outcome (list A) :=
  match erase_at i neurons with Some l => Ret l | None => UB end.

(** [Population::remove_neurons], population.h:209-216: every index is
    diminished by the number of neurons removed before; the subtraction is
    unsigned, an index below that number wraps to a huge one, which is out of
    range. *)
Fixpoint remove_neurons_from {A} (idx : list nat) (shift : nat) (neurons : list A) : outcome (list A) :=
  match idx with
  | [] => Ret neurons
  | i :: t => if Nat.ltb i shift then UB
              else obind (remove_neuron (i - shift) neurons) (remove_neurons_from t (S shift))
  end.
Definition remove_neurons {A} (idx : list nat) (neurons : list A) : outcome (list A) :=
  remove_neurons_from idx 0 neurons.

(** ** Tags *)

(** [std::any]: empty, or a type (numbered) and a value. *)
Definition any := option (nat * N).
(** [TagMap::tags_], tag.h:134; names are numbers here. *)
Definition tags := list (N * any).
Fixpoint tag_find (n : N) (t : tags) : option any :=
  match t with
  | [] => None
  | (k, v) :: r => if N.eqb k n then Some v else tag_find n r
  end.
Fixpoint tag_put (n : N) (v : any) (t : tags) : tags :=
  match t with
  | [] => [(n, v)]
  | (k, w) :: r => if N.eqb k n then (k, v) :: r else (k, w) :: tag_put n v r
  end.
(** [tags_[name]], tag.h:50, 75: inserts an empty value for a missing name. *)
Definition tag_ref (n : N) (t : tags) : tags :=
  match tag_find n t with Some _ => t | None => tag_put n None t end.
(** [std::any_cast<T &>]: throws unless the value has that type. *)
Definition any_cast (ty : nat) (v : any) : option N :=
  match v with Some (ty', x) => if Nat.eqb ty' ty then Some x else None | None => None end.
(** Typed read through a non-const map, tag.h:72-76: the map after the call,
    and the value or an exception ([None]). *)
Definition get_tag (ty : nat) (n : N) (t : tags) : tags * option N :=
  let t' := tag_ref n t in
  (t', match tag_find n t' with Some v => any_cast ty v | None => None end).
(** Typed read through a const map, tag.h:89-93: [at] throws for a missing
    name. *)
Definition get_tag_const (ty : nat) (n : N) (t : tags) : option N :=
  match tag_find n t with Some v => any_cast ty v | None => None end.
(** Assignment through [operator[]], tag.h:102. *)
Definition set_tag (n : N) (ty : nat) (x : N) (t : tags) : tags := tag_put n (Some (ty, x)) t.
(** [TagMap::exists], tag.h:130. *)
Definition tag_exists (n : N) (t : tags) : bool :=
  match tag_find n t with Some _ => true | None => false end.

(** ** The step loop *)

(** What one call of user code (a predicate, or everything called by a network
    step) does: its result, whether stop() was requested during it (by the code
    or by another thread), whether it throws. *)
Record act := mkAct { a_result : bool; a_stop : bool; a_throw : bool }.

(** Observable calls, with the step number given to predicates. *)
Inductive event :=
| EInit
| EPre (step : N) (a : act)
| EStep (step : N) (a : act)
| EPost (step : N) (a : act).

(** [Backend] flags, /repo/knp/core-library/include/knp/core/backend.h:451-456. *)
Record bstate := mkB { b_init : bool; b_started : bool; b_step : N }.
Inductive ending := Returned | Threw | Running (* fuel exhausted: the loop goes on *).

(** What the environment does in loop iteration [i]. *)
Record env := mkEnv { pre_act : nat -> act; step_act : nat -> act; post_act : nat -> act;
                      init_throws : bool; stop_at_once : bool }.

(** [started_] after code during which stop() may have been requested
    ([Backend::stop], backend.cpp:144-153). *)
Definition after (a : act) (started : bool) : bool := if a_stop a then false else started.

(** [Backend::pre_start], backend.cpp:57-73. *)
Definition pre_start (e : env) (b : bstate) : list event * option bstate :=
  if b_started b then ([], Some b)
  else if b_init b then ([], Some (mkB true true (b_step b)))
  else if init_throws e then ([EInit], None)
  else ([EInit], Some (mkB true true (b_step b))).

(** The loop of [Backend::start(pre_step, post_step)], backend.cpp:120-139;
    [has_pre], [has_post]: the function objects are not empty.  [_step] of the
    CPU backends increments the step number exactly once, at its end
    ([gad_step], backend.h:444); an exception leaves it as it was. *)
Fixpoint loop (has_pre has_post : bool) (e : env) (i fuel : nat) (b : bstate)
  : list event * bstate * ending :=
  match fuel with
  | 0 => ([], b, Running)
  | S f =>
      if negb (b_started b) then ([], b, Returned)
      else
        let s := b_step b in
        let pa := pre_act e i in
        let pre_ev := if has_pre then [EPre s pa] else [] in
        let st1 := if has_pre then after pa (b_started b) else b_started b in
        if has_pre && a_throw pa then (pre_ev, mkB (b_init b) false s, Threw)
        else if has_pre && negb (a_result pa) then (pre_ev, mkB (b_init b) st1 s, Returned)
        else
          let sa := step_act e i in
          if a_throw sa then (pre_ev ++ [EStep s sa], mkB (b_init b) false s, Threw)
          else
            let s' := add64 s 1 in
            let st2 := after sa st1 in
            let oa := post_act e i in
            let post_ev := if has_post then [EPost s' oa] else [] in
            let evs := pre_ev ++ [EStep s sa] ++ post_ev in
            let st3 := if has_post then after oa st2 else st2 in
            if has_post && a_throw oa then (evs, mkB (b_init b) false s', Threw)
            else if has_post && negb (a_result oa) then (evs, mkB (b_init b) st3 s', Returned)
            else
              let '(t, b', en) := loop has_pre has_post e (S i) f (mkB (b_init b) st3 s') in
              (evs ++ t, b', en)
  end.

(** [Backend::start(pre_step, post_step)], backend.cpp:116-141; with
    [has_pre = has_post = false] it is [start()] (76-93), with
    [has_post = false] [start(run_predicate)] (96-113). *)
Definition start (has_pre has_post : bool) (e : env) (fuel : nat) (b : bstate)
  : list event * bstate * ending :=
  match pre_start e b with
  | (evs, None) => (evs, b, Threw)
  | (evs, Some b1) =>
      let b1 := if stop_at_once e then mkB (b_init b1) false (b_step b1) else b1 in
      let '(t, b', en) := loop has_pre has_post e 0 fuel b1 in
      (evs ++ t, b', en)
  end.

(** Consecutive calls of start on one backend object: the calls made by each,
    and the object afterwards. *)
Record run_of := mkRun { r_pre : bool; r_post : bool; r_env : env; r_fuel : nat }.
Fixpoint starts (rs : list run_of) (b : bstate) : list (list event) * bstate :=
  match rs with
  | [] => ([], b)
  | r :: t => let '(tr, b1, _) := start (r_pre r) (r_post r) (r_env r) (r_fuel r) b in
              let '(trs, b2) := starts t b1 in (tr :: trs, b2)
  end.

(** ** Devices *)

(** [Backend::select_devices], backend.cpp:167-185: [avail] the identifiers of
    [get_devices()] in order, [cur] the devices selected so far. *)
Fixpoint select_loop (avail req : list uid) : option uid :=
  match avail with
  | [] => None
  | d :: t => if mem d req then Some d else select_loop t req
  end.
Definition select_devices (avail req cur : list uid) : outcome (list uid) :=
  match select_loop avail req with
  | Some d => Ret (cur ++ [d])
  | None => if Nat.eqb (length req) (length cur) then Ret cur else Throw
  end.
