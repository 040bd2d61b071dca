(** Property theorems C73, C74: saving spikes to data files and loading them. *)
From Coq Require Import String.
From Verif Require Import Base ListLemmas Messaging_Model Storage_Model Storage_Spec Storage_Proofs FloatReal Metrics_Proofs Storage_Proofs2 Storage_Proofs3.
From Coq Require Import Reals.
Open Scope list_scope.

Lemma sorted_in ms sorted : sorting ms sorted -> forall m, In m sorted -> In m ms.
Proof. intros [H _] m. now apply Permutation_in. Qed.
Lemma spike_bounds (P Q : N -> Prop) ms sorted : sorting ms sorted ->
  Forall (fun m => (idx_of m <> [] -> P (time_of m)) /\ Forall Q (idx_of m)) ms ->
  forall e, In e (flat_spikes sorted) -> Q (fst e) /\ P (snd e).
Proof.
  intros Hs H [i t] He. apply flat_spikes_in in He as (m & Hm & <- & Hi). apply (sorted_in _ _ Hs) in Hm.
  rewrite Forall_forall in H. destruct (H m Hm) as [H1 H2]. rewrite Forall_forall in H2. split; [exact (H2 i Hi)|].
  apply H1. intros E. rewrite E in Hi. destruct Hi.
Qed.

(** *** C73 *)
(** Spikes saved to a JSON file and loaded come back the same: one message for each
    time at which there are spikes, in the order of time, with exactly the neurons
    that sent spikes at it (with their multiplicity).  Any order of messages, any
    sorting algorithm, any order of the hash map.  Missing for the property as
    written: times over 2^24, indexes of 2^31 and more (both refuted below); the
    sender and empty messages are not stored. *)
Theorem c73_json_round_trip_partial order ms sorted u strict :
  reading order -> sorting ms sorted ->
  Forall (fun m => is_spikes m /\ (time_of m <= 2 ^ 24)%N /\ Forall (fun i => (i < 2 ^ 31)%N) (idx_of m)) ms ->
  exists r, load_json order (Some (save_json sorted)) u strict = Ret r /\ same_spikes u ms r.
Proof.
  intros Ho Hs Hm.
  assert (B : forall e, In e (flat_spikes sorted) -> (fst e < 2 ^ 31)%N /\ (snd e <= 2 ^ 24)%N).
  { apply (spike_bounds (fun t => (t <= 2 ^ 24)%N) (fun i => (i < 2 ^ 31)%N) ms sorted Hs).
    eapply Forall_impl; [|exact Hm]. cbn beta. intros m (_ & H1 & H2). auto. }
  rewrite load_saved_json by (intros e He; apply B, He).
  edestruct (convert_spec order (map (fun e => Z.of_N (fst e)) (flat_spikes sorted)) (map (fun e => f_of_d (d_of_Z (Z.of_N (snd e)))) (flat_spikes sorted)) u (f_of_Z 1) (map snd (flat_spikes sorted)) Ho) as (r & E & C).
  - apply Forall2_map_same. intros e He. apply json_step, B, He.
  - now rewrite !map_length.
  - exists r. split; [exact E|]. eapply converted_same; [exact Hs| |exact C].
    eapply Forall_impl; [|exact Hm]. cbn beta. intros m (_ & _ & H2). eapply Forall_impl; [|exact H2]. cbn beta.
    intros i Hi. change two32 with 4294967296%N. change (2 ^ 31)%N with 2147483648%N in Hi. lia.
Qed.
Print Assumptions c73_json_round_trip_partial.

(** The same for HDF5 files, if every time of a spike survives the multiplication by
    the time of a step and the division by it. *)
Theorem c73_h5_round_trip_partial order ms sorted u tps strict :
  reading order -> sorting ms sorted -> Forall message_ok ms ->
  Forall (fun m => idx_of m <> [] -> to_step (f_mul (f_of_Z (Z.of_N (time_of m))) tps) tps = Ret (time_of m)) ms ->
  exists r, load_h5 order (save_h5 sorted tps) u tps strict = Ret r /\ same_spikes u ms r.
Proof.
  intros Ho Hs Hm Ht.
  assert (Hi : Forall (fun m => Forall (fun i => (i < two32)%N) (idx_of m)) ms) by (eapply Forall_impl; [|exact Hm]; intros m H; apply H).
  assert (B : forall e, In e (flat_spikes sorted) -> (fst e < two32)%N /\ to_step (f_mul (f_of_Z (Z.of_N (snd e))) tps) tps = Ret (snd e)).
  { apply (spike_bounds (fun t => to_step (f_mul (f_of_Z (Z.of_N t)) tps) tps = Ret t) (fun i => (i < two32)%N) ms sorted Hs).
    rewrite Forall_forall in *. intros m Hin. split; [now apply Ht|now apply Hi]. }
  rewrite load_saved_h5.
  edestruct (convert_spec order (map (fun e => Z.of_N (fst e)) (flat_spikes sorted)) (map (fun e => f_mul (f_of_Z (Z.of_N (snd e))) tps) (flat_spikes sorted)) u tps (map snd (flat_spikes sorted)) Ho) as (r & E & C).
  - apply Forall2_map_same. intros e He. apply B, He.
  - now rewrite !map_length.
  - exists r. split; [exact E|]. eapply converted_same; [exact Hs|exact Hi|exact C].
Qed.
Print Assumptions c73_h5_round_trip_partial.

(** The default time of a step is 1: all times up to 2^24 survive. *)
Theorem c73_h5_default order ms sorted u strict :
  reading order -> sorting ms sorted -> Forall message_ok ms -> Forall (fun m => (time_of m <= 2 ^ 24)%N) ms ->
  exists r, load_h5 order (save_h5 sorted (f_of_Z 1)) u (f_of_Z 1) strict = Ret r /\ same_spikes u ms r.
Proof.
  intros Ho Hs Hm Ht. apply c73_h5_round_trip_partial with (ms := ms); try assumption.
  eapply Forall_impl; [|exact Ht]. cbn beta. intros m H _. now apply h5_step_one.
Qed.
Print Assumptions c73_h5_default.

(** Any time of a step from 2^-60 to 2^60: a spike comes back at its time or one
    step early, and none is lost (times below 2^22). *)
Theorem c73_h5_near order ms sorted u tps strict :
  reading order -> sorting ms sorted -> Forall message_ok ms -> Forall (fun m => (time_of m < 2 ^ 22)%N) ms ->
  fin32 tps -> (Raux.bpow Zaux.radix2 (-60) <= val tps <= Raux.bpow Zaux.radix2 60)%R ->
  exists r, load_h5 order (save_h5 sorted tps) u tps strict = Ret r /\
    Permutation (flat_map idx_of r) (flat_map idx_of ms) /\
    StronglySorted (fun a b => (time_of a < time_of b)%N) r /\
    forall m i, In m r -> In i (idx_of m) -> In i (spikes_at ms (time_of m)) \/ In i (spikes_at ms (time_of m + 1)).
Proof.
  intros Ho Hs Hm Ht Fp Hp.
  assert (Hi : Forall (fun m => Forall (fun i => (i < two32)%N) (idx_of m)) ms) by (eapply Forall_impl; [|exact Hm]; intros m H; apply H).
  assert (B : forall e, In e (flat_spikes sorted) -> (fst e < two32)%N /\ (snd e < 2 ^ 22)%N).
  { apply (spike_bounds (fun t => (t < 2 ^ 22)%N) (fun i => (i < two32)%N) ms sorted Hs).
    rewrite Forall_forall in *. intros m Hin. split; [intros _; now apply Ht|now apply Hi]. }
  set (st := fun t => match to_step (f_mul (f_of_Z (Z.of_N t)) tps) tps with Ret s => s | _ => 0%N end).
  assert (St : forall t, (t < 2 ^ 22)%N -> to_step (f_mul (f_of_Z (Z.of_N t)) tps) tps = Ret (st t) /\ (t = st t \/ t = st t + 1)%N).
  { intros t H. unfold st. destruct (h5_step_near t tps H Fp Hp) as [E|[H0 E]]; rewrite E; split; auto. right. lia. }
  rewrite load_saved_h5.
  edestruct (convert_spec order (map (fun e => Z.of_N (fst e)) (flat_spikes sorted)) (map (fun e => f_mul (f_of_Z (Z.of_N (snd e))) tps) (flat_spikes sorted)) u tps (map (fun e => st (snd e)) (flat_spikes sorted)) Ho) as (r & E & C).
  - apply Forall2_map_same. intros e He. apply St, B, He.
  - now rewrite !map_length.
  - exists r. split; [exact E|]. destruct C as (C1 & C2 & C3). rewrite map_map, combine_map in C2, C3.
    assert (X : map (fun e => (st (snd e), to_index (Z.of_N (fst e)))) (flat_spikes sorted) = map (fun e => (st (snd e), fst e)) (flat_spikes sorted)).
    { apply map_ext_in. intros e He. f_equal. apply to_index_N, B, He. }
    rewrite X in C2, C3. split; [|split; [exact C1|]].
    + rewrite C3, map_map. cbn [snd]. rewrite flat_spikes_idx. apply Permutation_flat_map. apply Hs.
    + intros m i Hin Hii. apply C2 in Hin as (t & idx & -> & _ & ->). cbn [idx_of time_of] in *.
      unfold at_time in Hii. apply in_map_iff in Hii as ([t' i'] & E1 & Hf). cbn [snd] in E1. subst i'.
      apply filter_In in Hf as [Hf Ef]. cbn [fst] in Ef. apply N.eqb_eq in Ef. subst t'.
      apply in_map_iff in Hf as ([i' t'] & E2 & He). injection E2 as E2 E3. cbn [fst snd] in E2, E3. subst i' t.
      destruct (St t') as [_ Hst]; [apply (B (i, t') He)|].
      assert (Hin : In i (spikes_at ms t')).
      { apply flat_spikes_in in He as (m & Hmm & Etm & Him). apply (sorted_in _ _ Hs) in Hmm. unfold spikes_at. apply in_flat_map.
        exists m. split; [exact Hmm|]. now rewrite Etm, N.eqb_refl. }
      cbn [snd]. destruct Hst as [<-|<-]; auto.
Qed.
Print Assumptions c73_h5_near.

(** Whatever the times: if loading what was saved succeeds, no spike is lost and none
    is added. *)
Theorem c73_no_spike_lost order ms sorted u tps strict r :
  reading order -> sorting ms sorted -> Forall message_ok ms ->
  load_h5 order (save_h5 sorted tps) u tps strict = Ret r ->
  Permutation (flat_map idx_of r) (flat_map idx_of ms).
Proof.
  intros Ho Hs Hm. rewrite load_saved_h5. intros E. destruct (convert_steps _ _ _ _ _ _ E) as (Hl & steps & F).
  destruct (convert_spec order _ _ u tps steps Ho F Hl) as (r' & E' & C). assert (r' = r) by congruence. subst r'.
  destruct C as (_ & _ & C). rewrite C. rewrite map_map.
  assert (Hi : forall e, In e (flat_spikes sorted) -> (fst e < two32)%N /\ True).
  { apply (spike_bounds (fun _ => True) (fun i => (i < two32)%N) ms sorted Hs). eapply Forall_impl; [|exact Hm]. intros m H. split; [auto|apply H]. }
  assert (Len : length steps = length (flat_spikes sorted)).
  { clear -F. apply Forall2_length in F || idtac. revert F. generalize (flat_spikes sorted). intros l F.
    rewrite <- (map_length (fun e => f_mul (f_of_Z (Z.of_N (snd e))) tps) l). induction F; cbn; congruence. }
  assert (X : map snd (combine steps (map (fun e => to_index (Z.of_N (fst e))) (flat_spikes sorted))) = map fst (flat_spikes sorted)).
  { clear -Hi Len. revert steps Len. induction (flat_spikes sorted) as [|e l IH]; intros [|s steps] Len; try discriminate; [reflexivity|].
    cbn [map combine snd]. rewrite to_index_N by (apply Hi; now left). f_equal. apply IH; [intros; apply Hi; now right|cbn in Len; congruence]. }
  rewrite X, flat_spikes_idx. apply Permutation_flat_map. apply Hs.
Qed.
Print Assumptions c73_no_spike_lost.

(** The texts of the lists of numbers: numbers separated by ", ", nothing cut off
    and no comma left over. *)
Theorem c73_value_text l : value_text l = String.concat ", " (map decimal l).
Proof. apply value_text_concat. Qed.
Print Assumptions c73_value_text.

(** As the property is written it does not hold. *)
(** With a step of 0.001 (float) the spikes of step 63 come back at step 62. *)
Definition milli : flt := S754_finite false 8589935 (-33).
Theorem c73_h5_refuted order u : reading order ->
  load_h5 order (save_h5 [SpikeMsg 1%N 63%N [5%N]] milli) u milli true = Ret [SpikeMsg u 62%N [5%N]].
Proof.
  intros Ho. assert (E : order [(62%N, [5%N])] = [(62%N, [5%N])]) by (apply Permutation_length_1_inv; symmetry; apply Ho).
  rewrite load_saved_h5. unfold convert. cbn [flat_spikes flat_map map length app snd fst Nat.eqb fill_buffer].
  replace (to_step (f_mul (f_of_Z (Z.of_N 63)) milli) milli) with (Ret 62%N) by (vm_compute; reflexivity).
  cbn [obind add_spike]. change (to_index (Z.of_N 5)) with 5%N. rewrite E. reflexivity.
Qed.
Print Assumptions c73_h5_refuted.
(** Steps 2^24 and 2^24 + 1 become one step. *)
Theorem c73_json_refuted order u : reading order ->
  load_json order (Some (save_json [SpikeMsg 1%N 16777216%N [5%N]; SpikeMsg 1%N 16777217%N [7%N]])) u true =
  Ret [SpikeMsg u 16777216%N [5; 7]%N].
Proof.
  intros Ho. assert (E : order [(16777216%N, [5; 7]%N)] = [(16777216%N, [5; 7]%N)]) by (apply Permutation_length_1_inv; symmetry; apply Ho).
  rewrite load_saved_json.
  - unfold convert. cbn [flat_spikes flat_map map length app snd fst Nat.eqb fill_buffer].
    replace (to_step (f_of_d (d_of_Z (Z.of_N 16777216))) (f_of_Z 1)) with (Ret 16777216%N) by (vm_compute; reflexivity).
    replace (to_step (f_of_d (d_of_Z (Z.of_N 16777217))) (f_of_Z 1)) with (Ret 16777216%N) by (vm_compute; reflexivity).
    cbn [obind add_spike fill_buffer]. change (N.eqb 16777216 16777216) with true. cbn [app]. change (to_index (Z.of_N 5)) with 5%N. change (to_index (Z.of_N 7)) with 7%N. rewrite E. reflexivity.
  - cbn [flat_spikes flat_map map app]. intros e [<-|[<-|[]]]; cbn [fst]; reflexivity.
Qed.
Print Assumptions c73_json_refuted.
(** A file with a neuron index of 2^31 or more, written by the library itself, cannot
    be loaded: the behaviour is undefined. *)
Theorem c73_json_index_refuted order u strict sender t i :
  (2 ^ 31 <= i)%N -> load_json order (Some (save_json [SpikeMsg sender t [i]])) u strict = UB.
Proof.
  intros Hi. unfold load_json, save_json. cbn [flat_spikes flat_map map app fst snd length].
  change (2 ^ 31)%N with 2147483648%N in Hi.
  assert (E : get_int (jint i) = UB).
  { unfold get_int, jint. rewrite (proj2 (andb_false_iff _ _)); [reflexivity|]. right. apply Z.ltb_ge. change (2 ^ 31)%Z with 2147483648%Z. lia. }
  cbn -[get_int get_double jint]. unfold get_all. rewrite E.
  change (get_int (JInt 2682)) with (Ret 2682%Z). change (get_int (JInt 0)) with (Ret 0%Z). change (get_int (JInt 1)) with (Ret 1%Z). reflexivity.
Qed.
Print Assumptions c73_json_index_refuted.
(** Senders are forgotten: files of messages that differ only in the senders are the
    same.  Messages without spikes leave no trace. *)
Theorem c73_senders_forgotten ms ms' tps :
  map time_of ms = map time_of ms' -> map idx_of ms = map idx_of ms' -> Forall is_spikes ms -> Forall is_spikes ms' ->
  save_json ms = save_json ms' /\ save_h5 ms tps = save_h5 ms' tps.
Proof.
  intros H1 H2 F1 F2. assert (E : flat_spikes ms = flat_spikes ms').
  { revert ms' H1 H2 F2. induction F1 as [|m ms (u & t & idx & ->) F1 IH]; intros [|m' ms'] H1 H2 F2; try discriminate; [reflexivity|].
    inversion F2 as [|? ? (u' & t' & idx' & ->) F2']; subst. cbn [map time_of idx_of] in *. injection H1 as -> H1. injection H2 as -> H2.
    cbn [flat_spikes flat_map]. f_equal. now apply IH. }
  unfold save_json, save_h5. now rewrite E.
Qed.
Print Assumptions c73_senders_forgotten.
Theorem c73_empty_dropped ms tps :
  save_json ms = save_json (filter (fun m => match idx_of m with [] => false | _ => true end) ms) /\
  save_h5 ms tps = save_h5 (filter (fun m => match idx_of m with [] => false | _ => true end) ms) tps.
Proof.
  assert (E : flat_spikes ms = flat_spikes (filter (fun m => match idx_of m with [] => false | _ => true end) ms)).
  { induction ms as [|m ms IH]; [reflexivity|]. cbn [filter flat_spikes flat_map]. destruct m as [u t [|i idx]|]; cbn [idx_of flat_spikes flat_map map app]; [exact IH| |exact IH].
    f_equal. f_equal. exact IH. }
  unfold save_json, save_h5. now rewrite <- E.
Qed.
Print Assumptions c73_empty_dropped.

(** Cases that meet the hypotheses. *)
Definition ex_ms := [SpikeMsg 1%N 7%N [3; 3; 1]%N; SpikeMsg 2%N 2%N [4]%N; SpikeMsg 3%N 7%N [9]%N].
Definition ex_sorted := [SpikeMsg 2%N 2%N [4]%N; SpikeMsg 3%N 7%N [9]%N; SpikeMsg 1%N 7%N [3; 3; 1]%N].
Example c73_met : reading (@rev _) /\ sorting ex_ms ex_sorted /\ Forall message_ok ex_ms /\
  Forall (fun m => is_spikes m /\ (time_of m <= 2 ^ 24)%N /\ Forall (fun i => (i < 2 ^ 31)%N) (idx_of m)) ex_ms /\
  load_json (@rev _) (Some (save_json ex_sorted)) 8%N true = Ret [SpikeMsg 8%N 2%N [4]%N; SpikeMsg 8%N 7%N [9; 3; 3; 1]%N].
Proof.
  split; [intros b; symmetry; apply Permutation_rev|]. split; [|split; [|split]].
  - split; [|repeat constructor; cbn; discriminate]. unfold ex_ms, ex_sorted.
    transitivity [SpikeMsg 2%N 2%N [4]%N; SpikeMsg 1%N 7%N [3; 3; 1]%N; SpikeMsg 3%N 7%N [9]%N]; [apply perm_skip, perm_swap|apply perm_swap].
  - repeat constructor; cbn; try (eexists _, _, _; reflexivity).
  - repeat constructor; cbn; try (eexists _, _, _; reflexivity); try discriminate.
  - vm_compute. reflexivity.
Qed.
Example c73_near_met : fin32 milli /\ (Raux.bpow Zaux.radix2 (-60) <= val milli <= Raux.bpow Zaux.radix2 60)%R /\
  load_h5 (@rev _) (save_h5 [SpikeMsg 1%N 62%N [4]%N; SpikeMsg 1%N 63%N [5]%N] milli) 8%N milli true = Ret [SpikeMsg 8%N 62%N [4; 5]%N].
Proof.
  split; [split; reflexivity|]. split; [|vm_compute; reflexivity].
  change (val milli) with (Defs.F2R (Defs.Float Zaux.radix2 8589935 (-33))). split.
  - apply Rle_trans with (Defs.F2R (Defs.Float Zaux.radix2 1 (-33))).
    + rewrite Float_prop.F2R_bpow. apply Raux.bpow_le. lia.
    + apply Float_prop.F2R_le. lia.
  - apply Rle_trans with (Defs.F2R (Defs.Float Zaux.radix2 (2 ^ 24) (-33))).
    + apply Float_prop.F2R_le. lia.
    + unfold Defs.F2R. cbn [Defs.Fnum Defs.Fexp]. rewrite (Raux.IZR_Zpower Zaux.radix2) by lia. rewrite <- Raux.bpow_plus. apply Raux.bpow_le. lia.
Qed.

(** *** C74 *)
(** JSON files of other origin.  If every part that is there has the type the format
    says, loading never has undefined behaviour: it returns the messages if the data
    are complete (and, in strict mode, the magic number is not wrong), and throws
    otherwise.  Missing for the property as written: files with parts of other types,
    refuted below. *)
Theorem c74_json_reported_partial order doc u strict :
  json_typed doc ->
  ((exists r, load_json order (Some doc) u strict = Ret r) <->
    (strict = true -> json_magic_or_none doc) /\ exists nodes times, json_data doc nodes times) /\
  (load_json order (Some doc) u strict = Throw <->
    ~ ((strict = true -> json_magic_or_none doc) /\ exists nodes times, json_data doc nodes times)) /\
  load_json order (Some doc) u strict <> UB.
Proof.
  intros H. destruct (load_json_spec order doc u strict H) as [(C & r & E)|(C & E)]; rewrite E.
  - split; [|split]; [split; [auto|eauto]|split; [discriminate|contradiction]|discriminate].
  - split; [|split]; [split; [intros (r & ?); discriminate|contradiction]|split; auto|discriminate].
Qed.
Print Assumptions c74_json_reported_partial.

(** HDF5 files: the same.  The version is only looked at. *)
Theorem c74_h5_reported_partial order f u tps strict :
  h5_typed f tps ->
  ((exists r, load_h5 order f u tps strict = Ret r) <->
    (strict = true -> h_magic f = Some 2682%Z) /\ exists nodes times, h5_data f nodes times) /\
  (load_h5 order f u tps strict = Throw <->
    ~ ((strict = true -> h_magic f = Some 2682%Z) /\ exists nodes times, h5_data f nodes times)) /\
  load_h5 order f u tps strict <> UB.
Proof.
  intros [Hv Ht].
  assert (G : (((strict = true -> h_magic f = Some 2682%Z) /\ exists nodes times, h5_data f nodes times) /\ exists r, load_h5 order f u tps strict = Ret r) \/
              (~ ((strict = true -> h_magic f = Some 2682%Z) /\ exists nodes times, h5_data f nodes times) /\ load_h5 order f u tps strict = Throw)).
  { unfold load_h5, check_format.
    set (ok := match h_magic f with Some z => Z.eqb z magic_number | None => false end).
    assert (Hok : ok = true <-> h_magic f = Some 2682%Z).
    { unfold ok. destruct (h_magic f) as [z|]; [|split; discriminate]. rewrite Z.eqb_eq. unfold magic_number. split; [congruence|now intros [= ->]]. }
    destruct (negb ok && strict) eqn:Es.
    { right. split; [|reflexivity]. intros [C _]. apply andb_true_iff in Es as [E1 ->]. apply negb_true_iff in E1. rewrite (proj2 Hok) in E1 by auto. discriminate. }
    assert (C : strict = true -> h_magic f = Some 2682%Z).
    { intros ->. apply Hok. destruct ok; [reflexivity|discriminate]. }
    assert (V : match h_version f with None => Ret tt | Some v => obind (std_equal3 v version) (fun _ => Ret tt) end = Ret tt).
    { destruct (h_version f) as [v|]; [|reflexivity]. specialize (Hv v eq_refl).
      destruct v as [|a [|b [|]]]; cbn in Hv; try lia; cbn [std_equal3 version]; try reflexivity; repeat (destruct (Z.eqb _ _); cbn [obind]); reflexivity. }
    rewrite V. cbn [obind]. destruct (h_spikes f) as [[g i]|] eqn:Esp; [|right; split; [|reflexivity]; intros [_ (n & t & g & i & E & _)]; congruence].
    set (d := match i with Some i0 => i0 | None => g end).
    assert (D : forall n t, h5_data f n t <-> (hg_node_ids d = Some n \/ hg_node_ids d = None /\ hg_gids d = Some n) /\ hg_timestamps d = Some t /\ length n = length t).
    { intros n t. unfold h5_data. rewrite Esp. split; [intros (g' & i' & [= <- <-] & R); exact R|intros R; exists g, i; auto]. }
    destruct (match hg_node_ids d with Some n => Some n | None => hg_gids d end) as [nodes|] eqn:En.
    - assert (Hn : forall n, hg_node_ids d = Some n \/ hg_node_ids d = None /\ hg_gids d = Some n <-> n = nodes).
      { intros n. destruct (hg_node_ids d) as [x|]; split; [intros [H|[H _]]; congruence|intros ->; left; congruence|intros [H|[_ H]]; congruence|intros ->; right; auto]. }
      destruct (hg_timestamps d) as [times|] eqn:Et.
      + destruct (Nat.eqb_spec (length times) (length nodes)) as [El|El].
        * left. assert (Hd : h5_data f nodes times) by (apply D; rewrite Hn; auto). split; [eauto|]. specialize (Ht _ _ Hd).
          assert (St : exists steps, Forall2 (fun x st => to_step x tps = Ret st) times steps).
          { clear -Ht. induction Ht as [|x l (t & E) _ (steps & F)]; [exists []; constructor|exists (t :: steps); auto]. }
          destruct St as (steps & F). unfold convert. rewrite (proj2 (Nat.eqb_eq _ _)) by auto. rewrite (fill_spec _ _ _ _ [] F) by auto. cbn [obind]. eauto.
        * right. split; [|reflexivity]. intros [_ (n & t & H)]. apply D in H as (H1 & H2 & H3). apply Hn in H1. subst n. assert (t = times) by congruence. subst t. congruence.
      + right. split; [|reflexivity]. intros [_ (n & t & H)]. apply D in H as (_ & H & _). congruence.
    - right. split; [|reflexivity]. intros [_ (n & t & H)]. apply D in H as (H & _). destruct (hg_node_ids d); destruct H as [H|[H1 H2]]; congruence. }
  destruct G as [(C & r & E)|(C & E)]; rewrite E.
  - split; [|split]; [split; [auto|eauto]|split; [discriminate|contradiction]|discriminate].
  - split; [|split]; [split; [intros (r & ?); discriminate|contradiction]|split; auto|discriminate].
Qed.
Print Assumptions c74_h5_reported_partial.
(** A text that is not JSON is reported. *)
Theorem c74_not_json order u strict : load_json order None u strict = Throw.
Proof. reflexivity. Qed.

(** As the property is written it does not hold: these files make the behaviour
    undefined instead of being reported. *)
(** The document is not an object. *)
Theorem c74_root_refuted order doc u strict : (forall l, doc <> JObj l) -> load_json order (Some doc) u strict = UB.
Proof. intros H. destruct doc; try reflexivity. now destruct (H l). Qed.
Print Assumptions c74_root_refuted.
(** "attributes" is not an array, or its first entry is not an object. *)
Theorem c74_attributes_refuted order l a u strict :
  member "attributes" l = Some a -> (forall gs, a <> JArr gs) -> load_json order (Some (JObj l)) u strict = UB.
Proof.
  intros H Ha. unfold load_json, has_magic. cbn [find_member obind]. rewrite H. destruct a; try reflexivity. now destruct (Ha l0).
Qed.
Theorem c74_attribute_refuted order l g gs u strict :
  member "attributes" l = Some (JArr (g :: gs)) -> (forall o, g <> JObj o) -> load_json order (Some (JObj l)) u strict = UB.
Proof.
  intros H Hg. unfold load_json, has_magic. cbn [find_member obind]. rewrite H. cbn [get_array obind scan_magic]. destruct g; try reflexivity. now destruct (Hg l0).
Qed.
(** A node that is not a 32-bit number: 2^31, a fraction, a string. *)
Definition other_file (node time : json) : json :=
  JObj [("spikes", JObj [("node_ids", JObj [("value", JArr [node])]); ("timestamps", JObj [("value", JArr [time])])])]%string.
Theorem c74_node_refuted order node time u : (forall z, ~ int32 node z) -> load_json order (Some (other_file node time)) u false = UB.
Proof.
  intros H. assert (E : get_int node = UB).
  { destruct (get_int node) as [z| |] eqn:E; [|destruct node; cbn in E; try discriminate; destruct (_ && _); discriminate|reflexivity].
    apply Storage_Proofs3.get_int32 in E. now destruct (H z). }
  unfold load_json, other_file. cbn -[get_int]. rewrite E. reflexivity.
Qed.
Print Assumptions c74_node_refuted.
(** A time before 0. *)
Theorem c74_time_refuted order u : load_json order (Some (other_file (JInt 0) (JInt (-1)))) u false = UB.
Proof. vm_compute. reflexivity. Qed.
(** An HDF5 version of more than two numbers that begins with 0, 1: the comparison
    reads past the end of the array it is compared with. *)
Theorem c74_version_refuted order g x rest u tps strict :
  load_h5 order (mkH5 (Some 2682%Z) (Some (0 :: 1 :: x :: rest)%Z) g) u tps strict = UB.
Proof. destruct strict; reflexivity. Qed.
(** In strict mode a file is accepted whose "magic" attribute has no value. *)
Definition no_value_file : json :=
  JObj [("attributes", JArr [JObj [("name", JStr "magic")]]);
        ("spikes", JObj [("node_ids", JObj [("value", JArr [JInt 3])]); ("timestamps", JObj [("value", JArr [JInt 2])])])]%string.
Theorem c74_magic_refuted order u : reading order ->
  ~ json_magic no_value_file /\ load_json order (Some no_value_file) u true = Ret [SpikeMsg u 2%N [3%N]].
Proof.
  intros Ho. split.
  - intros (b & g & a & H1 & H2 & H3 & H4). apply Storage_Proofs3.has_obj in H1. cbn in H1.
    destruct b as [|b0 b]; cbn in H1; [|injection H1 as _ H1; destruct b; discriminate]. injection H1 as <- <-.
    apply Storage_Proofs3.has_obj in H4. discriminate.
  - assert (E : order [(2%N, [3%N])] = [(2%N, [3%N])]) by (apply Permutation_length_1_inv; symmetry; apply Ho).
    transitivity (convert order [3%Z] [f_of_d (d_of_Z 2)] u (f_of_Z 1)); [reflexivity|].
    unfold convert. cbn [length Nat.eqb fill_buffer]. replace (to_step (f_of_d (d_of_Z 2)) (f_of_Z 1)) with (Ret 2%N) by (vm_compute; reflexivity).
    cbn [obind add_spike]. change (to_index 3) with 3%N. rewrite E. reflexivity.
Qed.
Print Assumptions c74_magic_refuted.

(** Files that meet the hypotheses: complete, without the magic number, with a
    missing part. *)
Example c74_met :
  json_typed (save_json ex_sorted) /\ json_typed (other_file (JInt 4) (JDouble (d_of_Z 2))) /\ json_typed (JObj []) /\
  json_typed no_value_file /\ h5_typed (save_h5 ex_sorted (f_of_Z 1)) (f_of_Z 1).
Proof.
  assert (A : forall name l v, has name (JObj l) v -> member name l = Some v) by (intros; now apply Storage_Proofs3.has_obj).
  split; [|split; [|split; [|split]]].
  - split; [eexists; reflexivity|]. split.
    + intros a Ha. apply A in Ha. injection Ha as <-. eexists. split; [reflexivity|]. repeat constructor; try (eexists; reflexivity); intros n Hn; apply A in Hn; injection Hn as <-;
      eexists; (split; [reflexivity|]); split; intros Hs; try discriminate; intros v Hv; apply A in Hv; injection Hv as <-;
      repeat constructor; try (exists 2682%Z; split; [reflexivity|lia]); [exists 0%Z|exists 1%Z]; (split; [reflexivity|lia]).
    + intros s Hs. apply A in Hs. injection Hs as <-. split; intros n vs Hn Hv; apply A in Hn; injection Hn as <-; apply A in Hv; injection Hv as <-.
      * cbn. repeat constructor; eexists; (split; [reflexivity|lia]).
      * cbn [flat_spikes ex_sorted flat_map map app snd jint]. repeat constructor; eexists _, _; (split; [right; eexists; split; reflexivity|vm_compute; reflexivity]).
  - split; [eexists; reflexivity|]. split; [intros a Ha; apply A in Ha; discriminate|].
    intros s Hs. apply A in Hs. injection Hs as <-. split; intros n vs Hn Hv; apply A in Hn; injection Hn as <-; apply A in Hv; injection Hv as <-.
    + repeat constructor. eexists. split; [reflexivity|lia].
    + repeat constructor. eexists _, _. split; [left; reflexivity|vm_compute; reflexivity].
  - split; [eexists; reflexivity|]. split; intros a Ha; apply A in Ha; discriminate.
  - split; [eexists; reflexivity|]. split.
    + intros a Ha. apply A in Ha. injection Ha as <-. eexists. split; [reflexivity|]. repeat constructor; try (eexists; reflexivity); intros n Hn; apply A in Hn; injection Hn as <-;
      eexists; (split; [reflexivity|]); split; intros Hs; try discriminate; intros v Hv; apply A in Hv; discriminate.
    + intros s Hs. apply A in Hs. injection Hs as <-. split; intros n vs Hn Hv; apply A in Hn; injection Hn as <-; apply A in Hv; injection Hv as <-.
      * repeat constructor. eexists. split; [reflexivity|lia].
      * repeat constructor. eexists _, _. split; [right; eexists; split; reflexivity|vm_compute; reflexivity].
  - split; [intros v [= <-]; cbn; lia|]. intros nodes times (g & i & [= <- <-] & _ & H & _). cbn in H. injection H as <-.
    repeat constructor; eexists; vm_compute; reflexivity.
Qed.
