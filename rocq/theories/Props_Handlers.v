(** Property theorems C51: message handlers. *)
From Verif Require Import Base ListLemmas Messaging_Model Handlers_Model Handlers_Spec Handlers_Proofs.

(** *** C51 *)
(** The k-winners handler gives a choice of [k] of the spikes of the (first)
    message, whatever the random numbers are. *)
Theorem c51_k_winners r winners m t :
  choice winners (spikes_of m) (fst (kwta_random r winners (m :: t))) /\ fst (kwta_random r winners []) = [].
Proof.
  split; [|reflexivity]. unfold kwta_random. destruct (Nat.ltb_spec (length (spikes_of m)) winners) as [E|E].
  - split; cbn [fst]; [lia|]. exists []. now rewrite app_nil_r.
  - apply select_random_choice.
Qed.
Print Assumptions c51_k_winners.
(** And every such choice, in every order, is given for some random numbers. *)
Theorem c51_every_choice m t sel : length sel < length (spikes_of m) -> (exists rest, Permutation (sel ++ rest) (spikes_of m)) ->
  exists r, fst (kwta_random r (length sel) (m :: t)) = sel.
Proof.
  intros Hl (rest & Hp). destruct (select_loop_complete sel 0 (spikes_of m) [] rest eq_refl Hp) as (r & Hr). exists r.
  unfold kwta_random. replace (Nat.ltb (length (spikes_of m)) (length sel)) with false by (symmetry; apply Nat.ltb_ge; lia).
  unfold select_random_n. replace (Nat.leb (length (spikes_of m)) (length sel)) with false by (symmetry; apply Nat.leb_gt; lia).
  cbn [fst]. rewrite app_nil_r in Hr. exact Hr.
Qed.
Print Assumptions c51_every_choice.
Example c51_case : fst (kwta_random (fun i => N.of_nat (7 * i + 5)) 3 [SpikeMsg 1 0 [10; 11; 12; 13; 11]; SpikeMsg 1 0 [50]]%N) = [10; 11; 11]%N.
Proof. reflexivity. Qed.

(** The per-group handler: a choice of [winners] spikes of every group, groups in
    order.  The groups (by the number of borders at or below the spike) partition
    the spikes. *)
Theorem c51_per_group_partial limit r borders winners m t :
  (N.of_nat (length borders) * N.of_nat winners <= limit)%N -> (limit < two64)%N ->
  exists r' sels, kwta_per_group limit r borders winners (m :: t) = Ret (concat sels, r') /\
    (spikes_of m <> [] -> Forall2 (choice winners) (groups borders (spikes_of m)) sels) /\
    (spikes_of m = [] -> concat sels = []).
Proof.
  intros Hl H64. unfold kwta_per_group.
  assert (L : length (sort_borders borders) = length borders) by apply Permutation_length, sort_borders_perm.
  destruct (spikes_of m) as [|s ss] eqn:Em.
  - exists r, []. split; [reflexivity|]. split; [congruence|reflexivity].
  - rewrite <- Em. rewrite L. unfold w64. rewrite N.mod_small by lia.
    replace (limit <? N.of_nat (length borders) * N.of_nat winners)%N with false by lia.
    rewrite groups_eq. destruct (select_groups_spec winners (groups borders (spikes_of m)) r) as (sels & H1 & H2).
    destruct (select_groups r winners (groups borders (spikes_of m))) as [x r'] eqn:Ex. cbn [fst] in H1. subst x.
    exists r', sels. split; [reflexivity|]. split; [auto|]. rewrite Em. discriminate.
Qed.
Print Assumptions c51_per_group_partial.
Theorem c51_groups borders spikes :
  length (groups borders spikes) = S (length borders) /\ Permutation (concat (groups borders spikes)) spikes /\
  forall j g s, nth_error (groups borders spikes) j = Some g ->
    (In s g <-> In s spikes /\ length (filter (fun b => (b <=? s)%N) borders) = j).
Proof.
  split; [unfold groups; now rewrite map_length, seq_length|]. split; [apply groups_partition|].
  intros j g s Hj. unfold groups in Hj. rewrite nth_error_map, nth_error_seq in Hj.
  destruct (Nat.ltb j (S (length borders))); cbn [option_map] in Hj; [|discriminate]. injection Hj as <-.
  unfold group. rewrite filter_In, Nat.eqb_eq. reflexivity.
Qed.
Print Assumptions c51_groups.
Example c51_group_case :
  groups [4; 2]%N [5; 0; 3; 1; 2; 9; 1]%N = [[0; 1; 1]; [3; 2]; [5; 9]]%N /\
  (N.of_nat (length [4; 2]%N) * N.of_nat 2 <= 1000)%N /\
  exists r', kwta_per_group 1000 (fun i => N.of_nat (i + 1)) [4; 2]%N 2 [SpikeMsg 1 0 [5; 0; 3; 1; 2; 9; 1]]%N = Ret ([1; 0; 3; 2; 5; 9]%N, r').
Proof. split; [reflexivity|split; [cbn; lia|]]. eexists. reflexivity. Qed.
(** False without the bound: "as many winners as there are" is a length error. *)
Theorem c51_reserve_refuted limit r : (limit < two64 - 1)%N ->
  forall winners, N.of_nat winners = (two64 - 1)%N -> kwta_per_group limit r [2%N] winners [SpikeMsg 1 0 [0]]%N = Throw.
Proof.
  intros Hl w Hw. unfold kwta_per_group. cbn [spikes_of sort_borders fold_right insert_sorted length]. rewrite Hw.
  replace (w64 (N.of_nat 1 * (two64 - 1)))%N with (two64 - 1)%N by reflexivity. replace (limit <? two64 - 1)%N with true by lia. reflexivity.
Qed.
Print Assumptions c51_reserve_refuted.

(** The group handler, for at least one winner and every way of sorting and
    shuffling: the spikes of [winners] groups that have at least as many spikes as
    every other group; all spikes if there are not so many groups. *)
Theorem c51_group_winners_partial srt shf borders winners m t :
  sorts srt -> shuffles shf -> 0 < winners ->
  exists result, group_wta srt shf borders winners (m :: t) = Ret result /\
    (length borders < winners -> result = spikes_of m) /\
    (winners <= length borders -> exists chosen rest,
       Permutation (chosen ++ rest) (groups borders (spikes_of m)) /\ length chosen = winners /\
       result = concat chosen /\ forall g h, In g chosen -> In h rest -> length h <= length g).
Proof.
  intros Hs Hf Hw. destruct (group_wta_returns srt shf borders winners (m :: t) Hs Hw) as (result & E).
  exists result. split; [exact E|]. split; intros Hb.
  - unfold group_wta in E. rewrite (Permutation_length (sort_borders_perm borders)) in E.
    replace (Nat.ltb (length borders) winners) with true in E by (symmetry; now apply Nat.ltb_lt).
    apply (f_equal (fun o => match o with Ret x => x | _ => [] end)) in E. symmetry. exact E.
  - destruct (spikes_of m) as [|s ss] eqn:Em.
    + unfold group_wta in E. rewrite (Permutation_length (sort_borders_perm borders)), Em in E.
      replace (Nat.ltb (length borders) winners) with false in E by (symmetry; apply Nat.ltb_ge; lia).
      assert (result = []) as -> by (apply (f_equal (fun o => match o with Ret x => x | _ => [] end)) in E; now rewrite <- E).
      set (G := groups borders []). exists (firstn winners G), (skipn winners G).
      assert (HG : forall g, In g G -> g = []).
      { intros g Hg. unfold G, groups in Hg. apply in_map_iff in Hg as (j & <- & _). reflexivity. }
      assert (HF : forall g, In g (firstn winners G) -> g = []).
      { intros g Hg. apply HG. rewrite <- (firstn_skipn winners G). apply in_or_app. now left. }
      rewrite firstn_skipn. split; [reflexivity|]. split; [|split].
      * rewrite firstn_length. unfold G, groups. rewrite map_length, seq_length. lia.
      * symmetry. induction (firstn winners G) as [|g l IH]; [reflexivity|]. cbn [concat]. rewrite (HF g (or_introl eq_refl)). apply IH.
        intros; apply HF; now right.
      * intros g h _ Hh. rewrite (HG h); [cbn; lia|]. rewrite <- (firstn_skipn winners G). apply in_or_app. now right.
    + rewrite <- Em. apply (group_wta_spec srt shf borders winners m t result Hs Hf E Hb). rewrite Em. discriminate.
Qed.
Print Assumptions c51_group_winners_partial.
(** A sorting function as the theorem asks for exists; a case with a tie. *)
Fixpoint ex_ins (g : list N) (l : list (list N)) : list (list N) :=
  match l with [] => [g] | h :: t => if Nat.leb (length h) (length g) then g :: l else h :: ex_ins g t end.
Lemma ex_ins_perm g l : Permutation (ex_ins g l) (g :: l).
Proof. induction l as [|h l IH]; cbn [ex_ins]; [reflexivity|]. destruct (Nat.leb _ _); [reflexivity|]. rewrite IH. apply perm_swap. Qed.
Example c51_sorts : sorts (fold_right ex_ins []) /\ shuffles (@rev (list N)).
Proof.
  split; [|intros l; symmetry; apply Permutation_rev].
  intros l. induction l as [|g l [IH1 IH2]]; [split; [reflexivity|constructor]|]. cbn [fold_right]. split.
  - rewrite ex_ins_perm. now apply perm_skip.
  - clear IH1. induction IH2 as [|h t HS IH HF]; cbn [ex_ins]; [repeat constructor|]. destruct (Nat.leb_spec (length h) (length g)) as [E|E].
    + constructor; [now constructor|]. constructor; [exact E|]. eapply Forall_impl; [|exact HF]. intros a Ha. unfold bigger_first in *. lia.
    + constructor; [exact IH|]. apply Forall_forall. intros z Hz. apply (Permutation_in _ (ex_ins_perm g t)) in Hz as [<-|Hz]; [unfold bigger_first; lia|].
      rewrite Forall_forall in HF. auto.
Qed.
Example c51_group_winner_case :
  group_wta (fold_right ex_ins []) (@rev _) [4; 2]%N 2 [SpikeMsg 1 0 [5; 0; 3; 1; 2; 9; 1]]%N = Ret [0; 1; 1; 5; 9]%N /\
  group_wta (fold_right ex_ins []) (fun l => l) [4; 2]%N 2 [SpikeMsg 1 0 [5; 0; 3; 1; 2; 9; 1]]%N = Ret [0; 1; 1; 3; 2]%N.
Proof. split; reflexivity. Qed.
(** False for zero winners: an element before the first group is used. *)
Theorem c51_zero_winners_refuted srt shf borders m t : spikes_of m <> [] -> group_wta srt shf borders 0 (m :: t) = UB.
Proof. intros H. unfold group_wta. cbn [Nat.ltb Nat.leb]. destruct (spikes_of m); [contradiction|reflexivity]. Qed.
Print Assumptions c51_zero_winners_refuted.

(** The union handler gives every incoming index once. *)
Theorem c51_union order messages : shuffles order ->
  NoDup (spike_union order messages) /\
  forall x, In x (spike_union order messages) <-> exists m, In m messages /\ In x (spikes_of m).
Proof.
  intros Ho. unfold spike_union. split.
  - apply (Permutation_NoDup (Permutation_sym (Ho _))). apply NoDup_nodup.
  - intros x. rewrite <- in_flat_map. split; intros H.
    + apply (Permutation_in _ (Ho _)) in H. now apply nodup_In in H.
    + apply (Permutation_in _ (Permutation_sym (Ho _))). now apply nodup_In.
Qed.
Print Assumptions c51_union.
(** Whatever the handler: a message is sent exactly if the handler gives spikes,
    under the handler's identifier and the step. *)
Theorem c51_update handler u step incoming :
  handler_update handler u step incoming =
  if Nat.eqb (length (handler incoming)) 0 then [] else [SpikeMsg u step (handler incoming)].
Proof. unfold handler_update. destruct (handler incoming); reflexivity. Qed.
Print Assumptions c51_update.
