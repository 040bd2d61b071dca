(** Property theorems C45-C50, C62: network, loader, channels, converters. *)
From Verif Require Import Base ListLemmas Messaging_Model Messaging_Spec Core_Model Core_Spec Core_Proofs
  Framework_Model Framework_Spec Framework_Proofs.

(** *** C45 *)
(** After any history of checked calls, failed ones included: the container holds
    exactly what was added and not removed, under pairwise different identifiers,
    and every call got the right answer for the contents at its time. *)
Theorem c45_unique_partial {A} (ops : list (rop A)) l tr :
  forallb checked ops = true -> reg_run [] ops = (l, tr) ->
  l = live tr /\ NoDup (map fst l) /\
  forall pre o x post, tr = pre ++ (o, x) :: post -> right_answer (live pre) o x.
Proof. intros Hc H. exact (reg_run_right ops [] l tr (NoDup_nil _) Hc H). Qed.
Print Assumptions c45_unique_partial.
Example c45_hypotheses : forallb checked [RAdd 1%N 10; RAdd 2%N 20; RAdd 1%N 30; RRemove 1%N; RAdd 1%N 40; RGet 1%N] = true /\
  reg_run [] [RAdd 1%N 10; RAdd 2%N 20; RAdd 1%N 30; RRemove 1%N; RAdd 1%N 40; RGet 1%N] =
  ([(2%N, 20); (1%N, 40)], [(RAdd 1%N 10, ROk); (RAdd 2%N 20, ROk); (RAdd 1%N 30, RThrew); (RRemove 1%N, ROk); (RAdd 1%N 40, ROk); (RGet 1%N, RValue 40)]).
Proof. split; reflexivity. Qed.
(** False for the overload that takes a variant (C45 names the others, but this one is
    just as public): it accepts a second entity under the same identifier, lookups
    give the older one, and removing once leaves the other. *)
Theorem c45_variant_refuted :
  reg_run [] [RAdd 1%N 10; RAddVariant 1%N 30; RGet 1%N; RRemove 1%N; RExists 1%N] =
  ([(1%N, 30)], [(RAdd 1%N 10, ROk); (RAddVariant 1%N 30, ROk); (RGet 1%N, RValue 10); (RRemove 1%N, ROk); (RExists 1%N, RBool true)]).
Proof. reflexivity. Qed.
Print Assumptions c45_variant_refuted.

(** *** C46 *)
(** If no two channel identifiers share a bucket: loading throws exactly if some
    channel has no generator; otherwise there is exactly one input channel per
    identifier, and afterwards the backend's endpoint stores spikes of [c] for
    projection [p] exactly if the model has the pair. *)
Theorem c46_inputs_partial h entries b gens :
  layout h entries b -> separated h entries ->
  match load_inputs gens b with
  | Ret (channels, ops) =>
      NoDup channels /\ (forall c, In c channels <-> exists p, In (c, p) entries) /\
      (forall c p, In (c, p) entries -> In c gens) /\
      (forall c p, listens ops 0 p c <-> In (c, p) entries)
  | Throw => exists c p, In (c, p) entries /\ ~ In c gens
  | UB => False
  end.
Proof.
  intros HL HS. unfold load_inputs. pose proof (gen_inputs_spec gens (channels_of b)) as H.
  destruct (gen_inputs gens (channels_of b)) as [[cs ops]| |]; [|destruct H as (c & H1 & H2)|exact H].
  - destruct H as (-> & Hg & ->). split; [exact (channels_NoDup h entries b HL)|]. split; [|split].
    + intros c. split; [exact (channel_key h entries b HL c)|]. intros (p & Hp). exact (channel_exists h entries b HL c p HS Hp).
    + intros c p Hp. apply Hg. exact (channel_exists h entries b HL c p HS Hp).
    + intros c p. rewrite listens_iff. unfold hist_senders. rewrite hist_inputs. cbn [senders_of In]. split.
      * intros [[]|(ps & H1 & H2)]. now apply (channel_peers h entries b HL c ps HS H1).
      * intros Hp. right. pose proof (channel_exists h entries b HL c p HS Hp) as Hc.
        apply in_map_iff in Hc as ([c' ps] & E & Hc). cbn [fst] in E. subst c'. exists ps. split; [exact Hc|].
        now apply (channel_peers h entries b HL c ps HS Hc).
  - destruct (channel_key h entries b HL c H1) as (p & Hp). eauto.
Qed.
Print Assumptions c46_inputs_partial.
(** The same for output channels: channel number [k] (counting from the first) owns
    endpoint [id + k], which collects exactly its populations. *)
Theorem c46_outputs_partial h entries b id :
  layout h entries b -> separated h entries ->
  let (channels, ops) := load_outputs id b in
  NoDup channels /\ (forall c, In c channels <-> exists p, In (c, p) entries) /\
  (forall k c p, nth_error channels k = Some c -> (listens ops (id + k) c p <-> In (c, p) entries)).
Proof.
  intros HL HS. unfold load_outputs. pose proof (gen_outputs_spec 0%N (channels_of b) id) as [H _].
  destruct (gen_outputs id (channels_of b)) as [cs ops] eqn:E. cbn [fst] in H. subst cs.
  split; [exact (channels_NoDup h entries b HL)|]. split.
  - intros c. split; [exact (channel_key h entries b HL c)|]. intros (p & Hp). exact (channel_exists h entries b HL c p HS Hp).
  - intros k c p Hk. rewrite listens_iff. pose proof (proj2 (gen_outputs_spec c (channels_of b) id) k) as H.
    rewrite E in H. cbn [snd] in H. rewrite H. rewrite nth_error_map in Hk.
    destruct (nth_error (channels_of b) k) as [[c' ps]|] eqn:En; cbn [option_map fst] in Hk; [|discriminate]. injection Hk as ->.
    rewrite N.eqb_refl. cbn [senders_of]. apply nth_error_In in En. exact (channel_peers h entries b HL c ps HS En p).
Qed.
Print Assumptions c46_outputs_partial.
Definition ex_entries : list (uid * uid) := [(7, 1); (8, 2); (7, 3)]%N.
Example c46_hypotheses :
  layout (fun u => N.to_nat (u mod 4)) ex_entries [[(8, 2)]; []; []; [(7, 3); (7, 1)]]%N /\
  separated (fun u => N.to_nat (u mod 4)) ex_entries /\
  load_inputs [7; 8; 9]%N [[(8, 2)]; []; []; [(7, 3); (7, 1)]]%N =
    Ret ([8; 7], [OCreate; OSubscribe 0 0 2 [8]; OCreate; OSubscribe 0 0 3 [7]; OSubscribe 0 0 1 [7]])%N /\
  load_inputs [8]%N [[(8, 2)]; []; []; [(7, 3); (7, 1)]]%N = Throw.
Proof.
  split; [|split; [|split; reflexivity]].
  - split.
    + intros [|[|[|[|i]]]]; cbn; try reflexivity; [apply perm_swap|]. destruct i; reflexivity.
    + intros e [<-|[<-|[<-|[]]]]; cbn; lia.
  - intros e e' [<-|[<-|[<-|[]]]] [<-|[<-|[<-|[]]]] H; vm_compute in H; reflexivity || discriminate.
Qed.
(** False in general: two identifiers in one bucket.  One of them gets no channel
    (its generator is never asked), its projection is subscribed to the other. *)
Theorem c46_bucket_refuted :
  layout (fun _ => 0) [(7, 1); (8, 2)]%N [[(7, 1); (8, 2)]]%N /\
  load_inputs [7; 8]%N [[(7, 1); (8, 2)]]%N = Ret ([7], [OCreate; OSubscribe 0 0 1 [7]; OSubscribe 0 0 2 [7]])%N.
Proof.
  split; [|reflexivity]. split.
  - intros [|[|i]]; cbn; reflexivity.
  - intros e _. cbn. lia.
Qed.
Print Assumptions c46_bucket_refuted.

(** *** C47 *)
(** Every history of updates and reads of an output channel: if the messages arrive
    in step order and every read is for an interval [a <= b] with [a + b + 1] within
    what can be allocated, each read gives exactly the buffered messages of the
    interval, in order, and takes exactly them out.  Missing: other intervals. *)
Theorem c47_reads_partial limit ops :
  (limit < two64)%N -> StronglySorted earlier (arriving ops) -> Forall (read_ok limit) ops ->
  oc_run limit [] ops = Ret (oc_expected [] ops).
Proof. intros Hl HS HF. exact (oc_run_exact limit Hl ops [] HS HF). Qed.
Print Assumptions c47_reads_partial.
Definition ex_oc : list oc_op :=
  [OcUpdate [SpikeMsg 1 3 [4]; SpikeMsg 1 5 [6]]; OcRead 4 9; OcUpdate [SpikeMsg 1 6 []; SpikeMsg 1 8 [1]]; OcRead 0 7]%N.
Example c47_hypotheses : StronglySorted earlier (arriving ex_oc) /\ Forall (read_ok 1000) ex_oc /\
  oc_run 1000 [] ex_oc = Ret ([SpikeMsg 1 8 [1]], [[SpikeMsg 1 5 [6]]; [SpikeMsg 1 3 [4]; SpikeMsg 1 6 []]])%N.
Proof.
  split; [|split; [|reflexivity]].
  - cbn. repeat constructor; unfold earlier; cbn; lia.
  - repeat constructor; cbn; lia.
Qed.
(** False otherwise: reading "everything" throws even from an empty buffer, and a
    reversed interval with a message inside is undefined behaviour. *)
Theorem c47_interval_refuted limit : (2 < limit < two64 - 1)%N ->
  oc_read limit 0 limit [] = Throw /\
  forall a b m, (b < msg_time m < a)%N -> (a + b + 1 <= limit)%N -> oc_read limit a b [m] = UB.
Proof.
  intros Hl. split.
  - unfold oc_read. assert (E : add64 (add64 0 limit) 1 = (limit + 1)%N).
    { unfold add64, w64. rewrite N.add_0_l, (N.mod_small limit) by lia. apply N.mod_small. lia. }
    rewrite E. replace (limit <? limit + 1)%N with true by lia. reflexivity.
  - intros a b m Hm Hs. apply oc_read_reversed; [repeat constructor| |].
    + unfold add64, w64. rewrite (N.mod_small (a + b)) by lia. rewrite N.mod_small by lia. exact Hs.
    + exists m. split; [now left|lia].
Qed.
Print Assumptions c47_interval_refuted.

(** *** C48 *)
(** For every environment: the calls made are those of the step loop (C21), and
    the messages sent are, per predicate call and per channel, one with that step
    and the generator's data if they are not empty, and nothing else. *)
Theorem c48_sends_partial chans data e fuel b tr b' en :
  executor_start chans data e fuel b = (tr, b', en) ->
  exists evs, start true true e fuel b = (evs, b', en) /\ calls_in tr = evs /\
    sent_in tr = all_due chans data 0 (pre_steps evs).
Proof.
  unfold executor_start. destruct (start true true e fuel b) as [[evs b1] en1] eqn:E. intros H. injection H as <- <- <-.
  destruct (executor_events_sent chans data evs 0) as [H1 H2]. exists evs. auto.
Qed.
Print Assumptions c48_sends_partial.
(** [due_inputs] asks the right generator of every channel. *)
Theorem c48_due chans d s m : In m (due_inputs chans d s) <->
  exists j c, nth_error chans j = Some c /\ d j s <> [] /\ m = SpikeMsg c s (d j s).
Proof.
  rewrite <- (In_inputs_sent chans (fun _ => d) 0 s m), inputs_sent_due. reflexivity.
Qed.
Print Assumptions c48_due.
(** False in full: the inputs of a step that the predicate refuses have been sent. *)
Definition ex_yes := mkAct true false false.
Definition ex_no := mkAct false false false.
Definition ex_env := mkEnv (fun i => if Nat.ltb i 1 then ex_yes else ex_no) (fun _ => ex_yes) (fun _ => ex_yes) false false.
Theorem c48_refused_refuted :
  executor_start [7; 8]%N (fun i j s => if Nat.eqb j 0 then [N.of_nat i; 3] else []%N)%N ex_env 5 (mkB false false 0) =
  ([XOther EInit; XSend (SpikeMsg 7 0 [0; 3]); XOther (EPre 0 ex_yes); XOther (EStep 0 ex_yes); XOther (EPost 1 ex_yes);
    XSend (SpikeMsg 7 1 [1; 3]); XOther (EPre 1 ex_no)]%N, mkB true true 1, Returned).
Proof. reflexivity. Qed.
Print Assumptions c48_refused_refuted.

(** *** C49 *)
Theorem c49_bitwise ms size :
  length (converter_bitwise ms size) = size /\
  forall k, k < size -> (nth_error (converter_bitwise ms size) k = Some true <-> In (N.of_nat k) (indexes ms)) /\
                        (nth_error (converter_bitwise ms size) k = Some false <-> ~ In (N.of_nat k) (indexes ms)).
Proof.
  unfold converter_bitwise. split; [now rewrite fold_upd_length, repeat_length|]. intros k Hk.
  rewrite fold_upd_nth, nth_error_repeat' by (rewrite ?repeat_length; auto). cbn [option_map]. rewrite iter_true.
  rewrite <- filter_zero. destruct (Nat.eqb _ 0); cbn [negb]; split; split; intros; congruence.
Qed.
Print Assumptions c49_bitwise.
Theorem c49_count ms size :
  length (converter_count ms size) = size /\
  forall k, k < size -> nth_error (converter_count ms size) k =
    Some (w64 (N.of_nat (count_occ N.eq_dec (indexes ms) (N.of_nat k)))).
Proof.
  unfold converter_count. split; [now rewrite fold_upd_length, repeat_length|]. intros k Hk.
  rewrite fold_upd_nth, nth_error_repeat' by (rewrite ?repeat_length; auto). cbn [option_map]. rewrite iter_count.
  do 3 f_equal. clear. induction (indexes ms) as [|i l IH]; [reflexivity|]. cbn [filter count_occ].
  destruct (N.eq_dec i (N.of_nat k)) as [E|E].
  - subst. rewrite N.eqb_refl. cbn [length]. now rewrite IH.
  - replace (N.eqb i (N.of_nat k)) with false by (symmetry; now apply N.eqb_neq). exact IH.
Qed.
Print Assumptions c49_count.
(** The set converter, for output sizes below [2^32]. *)
Theorem c49_set_partial ms size : (size < two32)%N ->
  StronglySorted N.lt (converter_set ms size) /\
  forall x, In x (converter_set ms size) <-> In x (indexes ms) /\ (x < size)%N.
Proof.
  intros Hs. unfold converter_set. destruct (set_fold (indexes ms) [] (SSorted_nil _)) as [H1 H2]. split; [now apply sorted_filter|].
  intros x. rewrite filter_In, H2. cbn [In]. unfold w32. rewrite N.mod_small by exact Hs. rewrite N.ltb_lt. tauto.
Qed.
Print Assumptions c49_set_partial.
(** False above: the bound is cut to 32 bits, so a larger output loses indexes. *)
Theorem c49_set_refuted : converter_set [SpikeMsg 1 0 [5; 9]]%N two32 = [] /\ converter_set [SpikeMsg 1 0 [5; 9]]%N (two32 - 1) = [5; 9]%N.
Proof. split; reflexivity. Qed.
Print Assumptions c49_set_refuted.
Example c49_case : converter_bitwise [SpikeMsg 1 0 [2; 9]; SpikeMsg 1 1 [0; 2]]%N 4 = [true; false; true; false] /\
  converter_count [SpikeMsg 1 0 [2; 9]; SpikeMsg 1 1 [0; 2]]%N 4 = [1; 0; 2; 0]%N /\
  converter_set [SpikeMsg 1 0 [2; 9]; SpikeMsg 1 1 [0; 2]]%N 4 = [0; 2]%N.
Proof. repeat split. Qed.

(** *** C50 *)
Theorem c50_parse delim numbers :
  is_digit delim = false ->
  Forall (fun ds => (ds <> [] /\ Forall (fun d => (d < 10)%N) ds) /\ (denotes ds < two32)%N) numbers ->
  index_converter delim (joined delim numbers) = Ret (map denotes numbers).
Proof.
  intros Hd HF. unfold index_converter.
  apply (index_loop_text delim Hd numbers [] (S (length (joined delim numbers))) 0 HF); auto.
Qed.
Print Assumptions c50_parse.
Example c50_case : is_digit 44 = false /\ joined 44 [[1; 2]; [0]; [3; 0; 7]]%N = [49; 50; 44; 48; 44; 51; 48; 55]%N /\
  index_converter 44 [49; 50; 44; 48; 44; 51; 48; 55]%N = Ret [12; 0; 307]%N.
Proof. repeat split. Qed.

(** *** C62 *)
(** A sequence of [size] values becomes the indexes at which the interpretation
    holds, ascending; exactly [size] values are consumed.  A stream that ends
    earlier makes the converter use a value that was never read. *)
Theorem c62_sequence {V} (interpret : V -> bool) size stream : size <= N.to_nat two32 ->
  match sequence_converter interpret size stream with
  | Ret (r, rest) => size <= length stream /\ rest = skipn size stream /\
      (forall k, In k r <-> exists j v, k = N.of_nat j /\ j < size /\ nth_error stream j = Some v /\ interpret v = true) /\
      StronglySorted N.lt r
  | UB => length stream < size
  | Throw => False
  end.
Proof. intros H. exact (sequence_spec interpret size 0 stream H). Qed.
Print Assumptions c62_sequence.
Example c62_case : sequence_converter (fun v => 3 <? v)%N 4 [1; 5; 4; 3; 9]%N = Ret ([1; 2], [9])%N.
Proof. reflexivity. Qed.
