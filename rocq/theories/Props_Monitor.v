(** C80, C81: the loggers. *)
From Verif Require Import Base ListLemmas Handlers_Proofs Framework_Proofs Messaging_Model Monitor_Model Monitor_Spec Monitor_Proofs Monitor_Proofs2.
From Coq Require Import String Ascii Permutation Sorted.
Open Scope list_scope.

(** ** C80 *)
(** The observer is called at the steps [first], [first + 1], ...; a line is written at
    exactly those that are multiples of the period, and it has, for every name, the
    number (as a 64-bit word) of spikes that its senders sent in the [period] steps
    before - each step counts in exactly one line.  The columns are the distinct names
    in the order of strings, and that is what the header says when the senders have
    different names. *)
Theorem c80_lines_partial ns period first calls : (0 < period)%N -> NoDup (map snd ns) -> exists m,
  aggregated ns period first calls =
    Ret (m, map (fun t => (t, map (fun n => w64 (spikes_of_calls ns n (window period first t calls))) (header ns)))
              (filter (fun t => N.eqb (t mod period) 0) (map (fun k => (first + N.of_nat k)%N) (seq 0 (List.length calls))))) /\
  (forall x, In x (header ns) <-> In x (map snd ns)).
Proof.
  intros Hp N. destruct (aggregated_eq ns period first calls Hp) as (m & E). exists m. rewrite (header_keys ns N). split; [exact E|]. intros x. rewrite <- (header_keys ns N). apply header_in.
Qed.
(** Senders with the same name are counted together in one column, but the header has a
    column for each of them: the columns do not match. *)
Theorem c80_same_name_refuted : exists ns calls m l, aggregated ns 1 0 calls = Ret (m, l) /\
  header ns = ["a"; "a"; "b"]%string /\ l = [(0, [0; 0]); (1, [5; 3])]%N.
Proof.
  exists [(1, "a"); (2, "b"); (3, "a")]%N%string, [[SpikeMsg 1 0 [1; 2]; SpikeMsg 2 0 [1; 2; 3]; SpikeMsg 3 0 [7; 8; 9]]; []]%N. eexists. eexists. split; [vm_compute; reflexivity|]. split; reflexivity.
Qed.
(** Period 0 is undefined behaviour. *)
Theorem c80_period_zero_refuted ns first c calls : aggregated ns 0 first (c :: calls) = UB.
Proof. reflexivity. Qed.
(** The status logger writes at every step that has messages: its period is not used. *)
Theorem c80_status_period_refuted period period' calls : status_log period calls = status_log period' calls /\
  (Forall (fun msgs => msgs <> []) calls -> status_log period calls = map (fun msgs : list message => List.length msgs) calls).
Proof.
  split; [reflexivity|]. intros F. unfold status_log. induction F as [|c l Hc F IH]; [reflexivity|]. cbn [flat_map map]. rewrite IH. destruct c; [congruence|reflexivity].
Qed.

(** ** C81 *)
(** At steps that are multiples of the period, for a resource-STDP projection whose
    neurons have numbers below the largest 64-bit one, whatever order std::sort gives to
    equal elements: the log has one "Neuron" line for every neuron with a synapse, in
    ascending order; below it are the values of exactly the synapses of this neuron, by
    ascending source; no value is outside of a block. *)
Theorem c81_blocks_partial good period u step projs v syn out : good = true -> period <> 0%N -> (step mod period = 0)%N ->
  find (fun p => N.eqb (lp_uid p) u) projs = Some (LResource v syn) -> Forall (fun s => (r_to s < size_max)%N) syn ->
  weights_call good period u step projs out ->
  exists toks, out = Ret (TStep step :: toks) /\ leading toks = [] /\
    StronglySorted N.lt (map fst (read_blocks toks)) /\
    (forall n, In n (map fst (read_blocks toks)) <-> exists s, In s syn /\ r_to s = n) /\
    (forall n vs, In (n, vs) (read_blocks toks) -> exists l, Permutation (filter (fun s => N.eqb (r_to s) n) syn) l /\
       StronglySorted (fun a b => (r_from a <= r_from b)%N) l /\ vs = map (fun s => (r_resource s, r_last_step s)) l).
Proof.
  intros G P M Fd R W. inversion W as [X|X Y|X Y Z|X Y Z A|w X Y Z A|w syn' l X Y Z A [Pm St]]; subst; try congruence.
  rewrite Fd in A. injection A as <- <-. exists (write_values size_max l). split; [reflexivity|].
  assert (NM : Forall (fun x => w_receiver x <> size_max) l).
  { eapply Permutation_Forall; [exact Pm|]. unfold weights_of. apply Forall_map. eapply Forall_impl; [|exact R]. cbn. intros; lia. }
  split; [apply leading_none; exact NM|]. destruct (blocks_eq size_max l St (or_intror NM)) as (B1 & B2 & B3). split; [exact B1|].
  assert (Ml : exists l0, l = weights_of l0 /\ Permutation syn l0).
  { apply Permutation_sym in Pm. unfold weights_of in Pm. apply Permutation_map_inv in Pm as (l0 & E & P0). exists l0. split; [exact E|now apply Permutation_sym || exact P0]. }
  destruct Ml as (l0 & -> & P0). split.
  - intros n. rewrite B3. unfold weights_of. split.
    + intros (_ & x & Hx & <-). apply in_map_iff in Hx as (s & <- & Hs). exists s. split; [eapply Permutation_in; [apply Permutation_sym; exact P0|exact Hs]|reflexivity].
    + intros (s & Hs & <-). split; [rewrite Forall_forall in R; specialize (R s Hs); lia|]. exists (mkWrs (r_to s) (r_from s) (r_resource s) (r_last_step s)). split; [|reflexivity].
      apply in_map_iff. exists s. split; [reflexivity|]. eapply Permutation_in; eassumption.
  - intros n vs H. exists (filter (fun s => N.eqb (r_to s) n) l0). split; [now apply Handlers_Proofs.Permutation_filter'|]. split.
    + clear - St. unfold weights_of in St. induction l0 as [|s l0 IH]; [constructor|]. cbn [map] in St. inversion St as [|? ? S1 S2]; subst. cbn [filter]. destruct (N.eqb_spec (r_to s) n) as [E|_]; [|auto].
      constructor; [auto|]. apply Forall_forall. intros x Hx. apply filter_In in Hx as [Hx E']. apply N.eqb_eq in E'. rewrite Forall_forall in S2.
      specialize (S2 (mkWrs (r_to x) (r_from x) (r_resource x) (r_last_step x))). unfold wrs_lt in S2. cbn [w_receiver w_sender] in S2. rewrite E, E', N.eqb_refl in S2. cbn [negb] in S2.
      apply N.ltb_ge. apply S2. apply in_map_iff. exists x. now rewrite E'.
    + rewrite (B2 n vs H). unfold weights_of. clear. induction l0 as [|s l0 IH]; [reflexivity|]. cbn [map filter w_receiver]. destruct (N.eqb (r_to s) n); [|exact IH]. cbn [map w_weight w_step]. now rewrite IH.
Qed.
(** The log is called one of weights, but the values are the synaptic resources: two
    projections that differ in all their weights give the same log. *)
Theorem c81_weights_refuted good period u step v syn syn' out :
  map (fun s => (r_from s, r_to s, r_resource s, r_last_step s)) syn = map (fun s => (r_from s, r_to s, r_resource s, r_last_step s)) syn' ->
  weights_call good period u step [LResource v syn] out -> weights_call good period u step [LResource v syn'] out.
Proof.
  intros E W.
  assert (X : weights_of syn = weights_of syn').
  { assert (Y : forall l, weights_of l = map (fun q => match q with (f, t, r, s) => mkWrs t f r s end) (map (fun s => (r_from s, r_to s, r_resource s, r_last_step s)) l)) by (intros; unfold weights_of; rewrite map_map; reflexivity).
    now rewrite (Y syn), (Y syn'), E. }
  inversion W as [A|A B|A B C|A B C D|w A B C D|w syn0 l A B C D S]; subst.
  - now apply wc_off.
  - now apply wc_zero.
  - now apply wc_skip.
  - apply wc_absent; auto. cbn [find lp_uid] in *. destruct (N.eqb v u); [discriminate|reflexivity].
  - cbn [find lp_uid] in D. destruct (N.eqb v u); discriminate.
  - cbn [find lp_uid] in D. destruct (N.eqb v u) eqn:F; [|discriminate]. injection D as <- <-. eapply wc_write; auto; [cbn [find lp_uid]; rewrite F; reflexivity|]. now rewrite <- X.
Qed.
(** A projection of another kind makes the logger throw. *)
Theorem c81_other_kind_refuted period u step : period <> 0%N -> (step mod period = 0)%N -> forall out,
  weights_call true period u step [LOther u] out -> out = Throw.
Proof.
  intros P M out W. inversion W as [A|A B|A B C|A B C D|w A B C D|w syn0 l A B C D S]; subst; try congruence; cbn [find lp_uid] in D; rewrite N.eqb_refl in D; discriminate.
Qed.

(** ** Non-vacuity *)
Example c80_met : let ns := [(1, "in"); (2, "out")]%N%string in NoDup (map snd ns) /\
  aggregated ns 2 1 [[SpikeMsg 1 1 [4; 5]]; []; [SpikeMsg 2 3 [0]; SpikeMsg 1 3 [9]]; [SpikeMsg 2 4 [1; 1]]]%N =
    Ret ([("in", 0); ("out", 2)]%N%string, [(2, [2; 0]); (4, [1; 1])]%N).
Proof. split; [repeat constructor; cbn; intuition discriminate|reflexivity]. Qed.
Example c81_met : exists out, weights_call true 5 3 10 [LOther 1; LResource 3 [mkRsyn (f_of_Z 1) 1 (f_of_Z 1) 7 2; mkRsyn (f_of_Z 1) 2 (f_of_Z 1) 6 2; mkRsyn (f_of_Z 1) 3 (f_of_Z 1) 6 1]]%N (Ret out) /\
  read_blocks out = [(1, [((f_of_Z 1), 3)]); (2, [((f_of_Z 1), 2); ((f_of_Z 1), 1)])]%N.
Proof.
  eexists. split.
  - eapply (wc_write _ _ _ _ _ _ _ [mkWrs 1 6 (f_of_Z 1) 3; mkWrs 2 6 (f_of_Z 1) 2; mkWrs 2 7 (f_of_Z 1) 1]%N); [reflexivity|discriminate|reflexivity|reflexivity|]. split.
    + unfold weights_of. cbn [map r_to r_from r_resource r_last_step]. etransitivity; [apply perm_swap|]. etransitivity; [apply perm_skip, perm_swap|]. apply perm_swap.
    + repeat constructor.
  - reflexivity.
Qed.

Print Assumptions c80_lines_partial. Print Assumptions c80_same_name_refuted. Print Assumptions c80_period_zero_refuted. Print Assumptions c80_status_period_refuted.
Print Assumptions c81_blocks_partial. Print Assumptions c81_weights_refuted. Print Assumptions c81_other_kind_refuted.
