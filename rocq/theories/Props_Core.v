(** Property theorems C19-C23: populations, tags, the step loop, devices. *)
From Verif Require Import Base Core_Model Core_Spec Core_Proofs.

(** *** C19 *)
(** False for index lists that are not ascending: asked to remove the neurons
    at positions 3 and 1 of [10;11;12;13], the call removes 13 and 10; asked to
    remove 2 and 0 it erases outside of the container. *)
Theorem c19_remove_refuted :
  remove_neurons [3; 1] [10; 11; 12; 13] = Ret [11; 12] /\ without [3; 1] [10; 11; 12; 13] = [10; 12] /\
  remove_neurons [2; 0] [10; 11; 12; 13] = UB.
Proof. repeat split. Qed.
Print Assumptions c19_remove_refuted.

(** Missing: index lists that are not in ascending order (see above). *)
Theorem c19_remove_partial {A} (idx : list nat) (neurons : list A) :
  ascending 0 idx (length neurons) -> remove_neurons idx neurons = Ret (without idx neurons).
Proof. exact (remove_neurons_ascending idx neurons). Qed.
Print Assumptions c19_remove_partial.
Example c19_hypotheses : ascending 0 [0; 2; 3] 5 /\ without [0; 2; 3] [10; 11; 12; 13; 14] = [11; 14].
Proof. cbn. repeat split; lia. Qed.

(** Adding neurons appends the generated ones, in order, skipping the refused
    ones, and keeps the neurons that were there. *)
Theorem c19_add {A} (g : nat -> option A) n (neurons : list A) :
  add_neurons g 0 n neurons =
  neurons ++ flat_map (fun k => match g k with Some x => [x] | None => [] end) (seq 0 n).
Proof. exact (add_neurons_eq g n 0 neurons). Qed.
Print Assumptions c19_add.

(** *** C20 *)
(** False in full: a failed read through a non-const map creates the tag. *)
Theorem c20_failed_read_refuted : exists n ty t,
  snd (get_tag ty n t) = None /\ tag_exists n t = false /\ tag_exists n (fst (get_tag ty n t)) = true.
Proof. exists 1%N, 0, []. repeat split. Qed.
Print Assumptions c20_failed_read_refuted.

(** A read of an existing name never changes the tags, whatever the type; a read
    through a const map never changes anything (it returns only a value).
    Missing: reads of missing names through a non-const map (see above). *)
Theorem c20_failed_read_partial ty n t : tag_exists n t = true -> fst (get_tag ty n t) = t.
Proof. exact (get_tag_existing ty n t). Qed.
Print Assumptions c20_failed_read_partial.

(** After writing [x] of type [ty] under [n] and any further writes under other
    names, both kinds of read return [x] and leave the tags alone. *)
Theorem c20_last_write n ty x t ws :
  Forall (fun w => fst w <> n) ws ->
  let t' := fold_left (fun t w => set_tag (fst w) (fst (snd w)) (snd (snd w)) t) ws (set_tag n ty x t) in
  get_tag ty n t' = (t', Some x) /\ get_tag_const ty n t' = Some x.
Proof. exact (get_tag_after_writes n ty x t ws). Qed.
Print Assumptions c20_last_write.
Example c20_hypotheses :
  Forall (fun w => fst w <> 1%N) [(2%N, (0, 7%N)); (3%N, (1, 8%N))] /\
  get_tag 1 1%N (set_tag 2 0 7%N (set_tag 1 0 5%N [])) = (set_tag 2 0 7%N (set_tag 1 0 5%N []), None) /\
  tag_exists 1%N (set_tag 1 0 5%N []) = true.
Proof. split; [repeat constructor; discriminate|split; reflexivity]. Qed.

(** *** C21 *)
(** Every call of start, for every behaviour of the predicates, of the network
    step and of stop() callers: initialisation is called iff the backend is
    neither started nor initialised, before anything else; what follows is a
    trace of the loop as described by [loop_trace] (Core_Spec). *)
Theorem c21_discipline hp ho e fuel b tr b' en :
  start hp ho e fuel b = (tr, b', en) -> init_throws e = false -> stop_at_once e = false ->
  exists loop_tr,
    tr = (if b_started b || b_init b then [] else [EInit]) ++ loop_tr /\
    loop_trace hp ho (b_step b) loop_tr (b_step b') en.
Proof.
  intros H Hi Hs. destruct (start_spec _ _ _ _ _ _ _ _ H) as (it & lt & -> & -> & _ & K).
  exists lt. split; [reflexivity|]. now apply K; [right|].
Qed.
Print Assumptions c21_discipline.

(** Consequences of [loop_trace]: the step number grows by one per completed
    network step, a network step is made exactly for every pre-step predicate
    that returned true, initialisation is never called in the loop. *)
Theorem c21_counts hp ho s tr s' en :
  loop_trace hp ho s tr s' en ->
  s' = match steps_done tr with 0 => s | _ => w64 (s + N.of_nat (steps_done tr)) end /\
  inits tr = 0 /\ (hp = true -> pres_true tr = steps_tried tr).
Proof. exact (trace_counts hp ho s tr s' en). Qed.
Print Assumptions c21_counts.

(** Any number of consecutive starts on a new backend: initialisation runs
    exactly once, first of all, and the step number counts all network steps. *)
Theorem c21_starts rs trs b' :
  Forall (fun r => init_throws (r_env r) = false) rs -> rs <> [] ->
  starts rs (mkB false false 0) = (trs, b') ->
  (exists tr, concat trs = EInit :: tr /\ inits tr = 0) /\
  b_step b' = w64 (N.of_nat (steps_done (concat trs))).
Proof.
  intros Hf Hne H.
  destruct (starts_spec rs (mkB false false 0) trs b' ltac:(discriminate) ltac:(reflexivity) Hf H) as ((E & _) & _ & K).
  split; [now apply K|]. exact E.
Qed.
Print Assumptions c21_starts.

(** A predicate that allows two steps; then a second start stopped from within
    the first network step. *)
Definition ok : act := mkAct true false false.
Example c21_case :
  let e1 := mkEnv (fun i => mkAct (Nat.ltb i 2) false false) (fun _ => ok) (fun _ => ok) false false in
  let e2 := mkEnv (fun _ => ok) (fun _ => mkAct true true false) (fun _ => ok) false false in
  starts [mkRun true true e1 9; mkRun false true e2 9] (mkB false false 0) =
  ([[EInit; EPre 0 ok; EStep 0 ok; EPost 1 ok; EPre 1 ok; EStep 1 ok; EPost 2 ok; EPre 2 (mkAct false false false)];
    [EStep 2 (mkAct true true false); EPost 3 ok]], mkB true false 3).
Proof. reflexivity. Qed.

(** *** C22 *)
(** False: when a predicate returns false, start returns and running() stays
    true. *)
Theorem c22_running_refuted : exists hp ho e fuel b tr b',
  start hp ho e fuel b = (tr, b', Returned) /\ b_started b' = true.
Proof.
  exists true, false, (mkEnv (fun _ => mkAct false false false) (fun _ => ok) (fun _ => ok) false false), 3, (mkB false false 0).
  eexists _, _. split; [reflexivity|reflexivity].
Qed.
Print Assumptions c22_running_refuted.

(** What running() is after start: false after an exception, and otherwise
    false iff stop() was requested.  Missing: the case of a predicate that
    returned false (see above). *)
Theorem c22_running_partial hp ho e fuel b tr b' en :
  start hp ho e fuel b = (tr, b', en) ->
  b_started b || b_init b = true \/ init_throws e = false ->
  (en = Threw -> b_started b' = false) /\
  (en <> Threw -> b_started b' = negb (stop_at_once e) && negb (stop_requested tr)).
Proof.
  intros H HI. destruct (start_spec _ _ _ _ _ _ _ _ H) as (it & lt & -> & Hit & _ & K).
  destruct (K HI) as (_ & _ & _ & K1 & K2). split; [exact K1|]. intros Hne. rewrite (K2 Hne).
  unfold stop_requested. rewrite existsb_app. subst it. destruct (b_started b || b_init b); reflexivity.
Qed.
Print Assumptions c22_running_partial.

(** *** C23 *)
(** False: of two requested devices only one is selected. *)
Theorem c23_select_refuted :
  select_devices [1; 2; 3]%N [2; 3]%N [] = Ret [2%N] /\
  select_devices [1; 2; 3]%N [3; 9]%N [] = Ret [3%N].
Proof. split; reflexivity. Qed.
Print Assumptions c23_select_refuted.

(** Requests of one device are served exactly: the device becomes current if it
    is available and the call throws otherwise.  Missing: larger requests. *)
Theorem c23_select_partial avail u :
  select_devices avail [u] [] = if mem u avail then Ret [u] else Throw.
Proof. exact (select_one avail u). Qed.
Print Assumptions c23_select_partial.
(** For larger requests: one more device, the first available requested one. *)
Theorem c23_select_first_partial avail req cur d before rest :
  avail = before ++ d :: rest -> mem d req = true -> Forall (fun x => mem x req = false) before ->
  select_devices avail req cur = Ret (cur ++ [d]).
Proof.
  intros -> Hd Hb. apply (select_first _ req cur d before); [|exact Hd|exact Hb].
  rewrite skipn_app, skipn_all2 by lia. replace (length before + 1 - length before) with 1 by lia. reflexivity.
Qed.
Print Assumptions c23_select_first_partial.
Example c23_hypotheses : select_devices [1; 2; 3]%N [2]%N [] = Ret [2%N] /\ select_devices [1; 2; 3]%N [9]%N [] = Throw.
Proof. split; reflexivity. Qed.
