(** Property theorems C56, C57, C64-C67: classification datasets and the evaluation of
    inference results. *)
From Verif Require Import Base ListLemmas Classify_Model Classify_Spec Classify_Proofs Classify_Proofs2.

(** *** C56: split.  For a dataset with fewer than 2^32 frames and a request whose sum
    fits in [size_t], the training part is the first [t] frames and the inference part
    the next [i], the step counts fit, and a request for too many frames throws and
    leaves the dataset as it was.  Missing: sums that wrap around, and datasets with
    2^32 frames (c56_wrap_refuted, c56_truncation_refuted). *)
Theorem c56_split_partial d t i : (ds_size d < two32)%N -> (t + i < two64)%N ->
  ((t + i <= ds_size d)%N -> (t * ds_spf d < two64)%N -> (i * ds_spf d < two64)%N -> exists d', split d t i = (d', Ret tt) /\
     training_data d' = Ret (firstn (N.to_nat t) (ds_data d)) /\
     inference_data d' = Ret (firstn (N.to_nat i) (skipn (N.to_nat t) (ds_data d))) /\
     training_steps d' = (t * ds_spf d)%N /\ inference_steps d' = (i * ds_spf d)%N /\
     ds_data d' = ds_data d /\ ds_spf d' = ds_spf d /\ ds_classes d' = ds_classes d /\ ds_image d' = ds_image d) /\
  ((ds_size d < t + i)%N -> split d t i = (d, Throw)).
Proof.
  intros H32 H64. unfold split, add64, w64. rewrite N.mod_small by lia. rewrite (N.add_comm i t).
  change two32 with 4294967296%N in *. change two64 with 18446744073709551616%N in *. split.
  - intros H Ht Hi. replace (ds_size d <? t + i)%N with false by lia. eexists. split; [reflexivity|]. unfold w32. change two32 with 4294967296%N.
    rewrite (N.mod_small t), (N.mod_small i) by lia. unfold training_data, inference_data, training_steps, inference_steps, range, w64.
    change two64 with 18446744073709551616%N. cbn [ds_data ds_train ds_inf ds_spf ds_classes ds_image]. unfold ds_size in *.
    replace (0 + t <=? N.of_nat (length (ds_data d)))%N with true by lia. replace (t + i <=? N.of_nat (length (ds_data d)))%N with true by lia.
    rewrite !N.mod_small by lia. auto 10.
  - intros H. replace (ds_size d <? t + i)%N with true by lia. reflexivity.
Qed.
Print Assumptions c56_split_partial.
(** The two parts are disjoint and together the first [t + i] frames. *)
Theorem c56_partition d t i : (ds_size d < two32)%N -> (t + i <= ds_size d)%N ->
  exists a b rest, training_data (fst (split d t i)) = Ret a /\ inference_data (fst (split d t i)) = Ret b /\
    ds_data d = a ++ b ++ rest /\ N.of_nat (length a) = t /\ N.of_nat (length b) = i.
Proof.
  intros H32 H. change two32 with 4294967296%N in *.
  exists (firstn (N.to_nat t) (ds_data d)), (firstn (N.to_nat i) (skipn (N.to_nat t) (ds_data d))), (skipn (N.to_nat i) (skipn (N.to_nat t) (ds_data d))).
  unfold split, add64, w64. change two64 with 18446744073709551616%N. rewrite N.mod_small by lia. replace (ds_size d <? i + t)%N with false by lia.
  cbn [fst]. unfold w32, training_data, inference_data, range. cbn [ds_data ds_train ds_inf]. change two32 with 4294967296%N.
  rewrite (N.mod_small t), (N.mod_small i) by lia. unfold ds_size in *.
  replace (0 + t <=? N.of_nat (length (ds_data d)))%N with true by lia. replace (t + i <=? N.of_nat (length (ds_data d)))%N with true by lia.
  split; [reflexivity|]. split; [reflexivity|]. split; [now rewrite !firstn_skipn|]. rewrite !firstn_length, !skipn_length. lia.
Qed.
Print Assumptions c56_partition.
Example c56_case :
  let d := mkDs [(3%N, [true]); (1%N, [false]); (2%N, [true])] 0 0 1 4 1 in
  training_data (fst (split d 2 1)) = Ret [(3%N, [true]); (1%N, [false])] /\ inference_data (fst (split d 2 1)) = Ret [(2%N, [true])] /\
  split d 2 2 = (d, Throw) /\ (ds_size d < two32)%N.
Proof. ex_compute. Qed.
(** The sum of the counts wraps around: a request for 2^64 frames of an empty dataset
    is accepted, and the training data then lies outside the dataset. *)
Theorem c56_wrap_refuted d : exists d', split d (two64 - 1) 1 = (d', Ret tt) /\ ((ds_size d < 4294967295)%N -> training_data d' = UB).
Proof.
  eexists. split.
  - unfold split. change (add64 1 (two64 - 1)) with 0%N. replace (ds_size d <? 0)%N with false by lia. reflexivity.
  - intros H. unfold training_data, range. cbn [ds_data ds_train]. change (w32 (two64 - 1)) with 4294967295%N. unfold ds_size in H.
    replace (0 + 4294967295 <=? N.of_nat (length (ds_data d)))%N with false by lia. reflexivity.
Qed.
Print Assumptions c56_wrap_refuted.
(** The counts are cut to 32 bits: a split of 2^32 frames leaves none for training. *)
Theorem c56_truncation_refuted d : (two32 <= ds_size d)%N -> exists d', split d two32 0 = (d', Ret tt) /\ training_data d' = Ret [].
Proof.
  intros H. unfold split. change (add64 0 two32) with two32. replace (ds_size d <? two32)%N with false by lia.
  eexists. split; [reflexivity|]. unfold training_data, range. cbn [ds_data ds_train]. change (w32 two32) with 0%N.
  replace (0 + 0 <=? N.of_nat (length (ds_data d)))%N with true by lia. reflexivity.
Qed.
Print Assumptions c56_truncation_refuted.

(** *** C64: generators.  At every step the training generators give the label and the
    pixels of one frame, frames in order and over again, each for the steps of a frame;
    the inference generator does so with the inference part. *)
Theorem c64_training d step : prepared d -> (0 < ds_train d)%N ->
  exists label data l, nth_error (ds_data d) (N.to_nat ((step / ds_spf d) mod ds_train d)) = Some (label, data) /\
    labels_generator d step = Ret [label] /\ training_spikes d step = Ret l /\ shows (ds_image d) data (step mod ds_spf d) l.
Proof.
  intros (H1 & H2 & H3 & H4 & H5 & H6) Ht. pose proof (N.mod_lt (step / ds_spf d) (ds_train d) ltac:(lia)) as Hm. unfold ds_size in *.
  destruct (at_lt (ds_data d) ((step / ds_spf d) mod ds_train d)) as ([label data] & E1 & E2 & Hin); [lia|].
  destruct (frame_spikes_spec d data step H3 (H1 _ Hin) H5 H6) as (l & E3 & Hs). exists label, data, l.
  unfold labels_generator, training_spikes, div_, mod_. replace (N.eqb (ds_spf d) 0) with false by lia. cbn [obind].
  replace (N.eqb (ds_train d) 0) with false by lia. cbn [obind]. rewrite E2. cbn [obind fst snd]. auto.
Qed.
Print Assumptions c64_training.
Theorem c64_inference d step : prepared d -> (0 < ds_inf d)%N ->
  exists label data l, nth_error (ds_data d) (N.to_nat (ds_train d + (step / ds_spf d) mod ds_inf d)) = Some (label, data) /\
    inference_spikes d step = Ret l /\ shows (ds_image d) data (step mod ds_spf d) l.
Proof.
  intros (H1 & H2 & H3 & H4 & H5 & H6) Ht. pose proof (N.mod_lt (step / ds_spf d) (ds_inf d) ltac:(lia)) as Hm. unfold ds_size in *.
  destruct (at_lt (ds_data d) (ds_train d + (step / ds_spf d) mod ds_inf d)) as ([label data] & E1 & E2 & Hin); [lia|].
  destruct (frame_spikes_spec d data step H3 (H1 _ Hin) H5 H6) as (l & E3 & Hs). exists label, data, l.
  unfold inference_spikes, div_, mod_. replace (N.eqb (ds_spf d) 0) with false by lia. cbn [obind].
  replace (N.eqb (ds_inf d) 0) with false by lia. cbn [obind]. unfold add64, w64. rewrite (N.mod_small (ds_train d + (step / ds_spf d) mod ds_inf d)) by lia. rewrite E2. cbn [obind fst snd]. auto.
Qed.
Print Assumptions c64_inference.
(** So in the steps of one pass every frame of the part is shown completely: step [k]
    of frame [f] comes at step [f * steps_per_frame + k]. *)
Theorem c64_pass d f k : prepared d -> (f < ds_train d)%N -> (k < ds_spf d)%N ->
  exists label data l, nth_error (ds_data d) (N.to_nat f) = Some (label, data) /\
    labels_generator d (f * ds_spf d + k) = Ret [label] /\ training_spikes d (f * ds_spf d + k) = Ret l /\ shows (ds_image d) data k l.
Proof.
  intros Hp Hf Hk. pose proof (c64_training d (f * ds_spf d + k) Hp ltac:(lia)) as H.
  assert (E1 : ((f * ds_spf d + k) / ds_spf d = f)%N) by (rewrite N.add_comm, N.div_add by lia; rewrite N.div_small by lia; lia).
  assert (E2 : ((f * ds_spf d + k) mod ds_spf d = k)%N) by (rewrite N.add_comm, N.mod_add by lia; apply N.mod_small; lia).
  rewrite E1, E2, (N.mod_small f) in H by lia. exact H.
Qed.
Print Assumptions c64_pass.
Theorem c64_empty_part_ub d step :
  (ds_train d = 0%N -> labels_generator d step = UB /\ training_spikes d step = UB) /\ (ds_inf d = 0%N -> inference_spikes d step = UB).
Proof.
  unfold labels_generator, training_spikes, inference_spikes, div_, mod_.
  split; intros ->; destruct (N.eqb (ds_spf d) 0); cbn [obind N.eqb]; repeat split; reflexivity.
Qed.
Print Assumptions c64_empty_part_ub.
Definition c64_d := mkDs [(3, [true; false; true; true]); (1, [false; false; false; true]); (5, [true; true; false; false])]%N 2 1 2 6 2.
Example c64_case :
  prepared c64_d /\
  map (training_spikes c64_d) [0; 1; 2; 3; 4]%N = [Ret [0]; Ret [0; 1]; Ret []; Ret [1]; Ret [0]]%N /\
  map (labels_generator c64_d) [0; 1; 2; 3; 4]%N = [Ret [3]; Ret [3]; Ret [1]; Ret [1]; Ret [3]]%N /\
  map (inference_spikes c64_d) [0; 1; 2]%N = [Ret [0; 1]; Ret []; Ret [0; 1]]%N.
Proof.
  split; [|ex_compute]. split; [|repeat split; vm_compute; congruence].
  intros nf [<-|[<-|[<-|[]]]]; reflexivity.
Qed.

(** *** C65: the incrementing converter.  Images of the right size give frames with a
    bit for every pixel and step, without spikes after the active steps; and over all
    images the spikes of a pixel in active steps are those of one accumulator, from
    zero, fed with the values of the pixel. *)
Theorem c65_converter limit d active factor imgs :
  (active <= ds_spf d)%N -> (ds_spf d < two64)%N -> (ds_spf d * ds_image d <= limit)%N -> (limit < two64)%N ->
  (forall x, In x imgs -> N.of_nat (length x) = ds_image d) ->
  let size := N.to_nat (ds_image d) in
  let a := N.to_nat active in
  let rest := N.to_nat (ds_spf d - active) in
  exists fs, convert_all limit d active factor [] imgs = Ret fs /\ length fs = length imgs /\
    (forall f, In f fs -> N.of_nat (length f) = (ds_spf d * ds_image d)%N) /\
    forall p, p < size ->
      flat_map (pixel_bits size p 0 a) fs = accumulator factor (S754_zero false) (flat_map (fun img => repeat (nth p img 0%N) a) imgs) /\
      forall f, In f fs -> pixel_bits size p a rest f = repeat false rest.
Proof.
  intros H1 H2 H3 H4 Hi size a rest.
  destruct (convert_all_spec limit d active factor H1 H2 H3 H4 imgs [] Hi (or_introl eq_refl)) as (fs & E & Hl & Hf & Hp).
  exists fs. split; [exact E|]. split; [exact Hl|]. split; [exact Hf|]. intros p Hps. apply Hp.
  rewrite nth_error_nth' with (d := S754_zero false) by (rewrite repeat_length; exact Hps). now rewrite nth_repeat.
Qed.
Print Assumptions c65_converter.
(** More active steps than steps are refused (for images that have pixels). *)
Theorem c65_too_many_active limit d active factor states image :
  (ds_spf d < active)%N -> (active < two64)%N -> (limit < two64 - active)%N -> ds_image d = 1%N ->
  (states = [] \/ length states = 1) -> length image = 1 -> convert limit d active factor states image = Throw.
Proof.
  intros H1 H2 H3 Hi Hs Himg. unfold convert. rewrite Hi. change (N.to_nat 1) with 1.
  set (st0 := match states with [] => repeat (S754_zero false) 1 | _ => states end).
  assert (L : length st0 = 1) by (unfold st0; destruct states; [reflexivity|]; destruct Hs; [discriminate|assumption]).
  destruct (active_steps_spec factor (N.to_nat active) 1 st0 image L Himg) as (bits & E & Hl & _). rewrite E. cbn [obind fst snd].
  rewrite N.mul_1_r. unfold sub64, w64. change two64 with 18446744073709551616%N in *. rewrite (N.mod_small active) by lia.
  rewrite N.mod_mod, N.mod_small by lia.
  replace (limit <? N.of_nat (length bits) + (ds_spf d + (18446744073709551616 - active)))%N with true by lia. reflexivity.
Qed.
Print Assumptions c65_too_many_active.
(** Half a unit per step and white: a spike in every second step, going on in the next
    image. *)
Example c65_case :
  let d := mkDs [] 0 0 4 2 2 in
  let half := f_div (f_of_Z 1) (f_of_Z 2) in
  convert_all (2 ^ 40) d 3 half [] [[1; 0]; [1; 2]]%N =
    Ret [[false; false; true; false; false; false; false; false]; [true; true; false; true; true; true; false; false]] /\
  accumulator half (S754_zero false) [1; 1; 1; 1; 1; 1]%N = [false; true; false; true; false; true].
Proof. ex_compute. Qed.

(** *** C66: reading labels and images.  With at least as many images as labels, the
    dataset gets, in order, every label whose line is ended by a line feed, with its
    image converted, up to the given number of images. *)
Theorem c66_pairs_partial {S} (conv : S -> list N -> outcome (S * frame)) d imgs extra strs zs tail fs max classes size spf s :
  (forall s b, N.of_nat (length b) = size -> exists s' f, conv s b = Ret (s', f)) ->
  (forall x, In x imgs -> N.of_nat (length x) = size) -> Forall2 line strs zs -> ~ In 10%N tail ->
  length strs <= length imgs -> converted conv s (firstn (length strs) imgs) fs -> ds_data d = [] ->
  exists d' s', process conv d (mkStream (concat imgs ++ extra) true) (mkStream (lines strs ++ tail) true) max classes size spf s = (d', Ret s') /\
    ds_data d' = (if N.eqb max 0 then combine (map label_of zs) fs else firstn (N.to_nat max) (combine (map label_of zs) fs)) /\
    ds_spf d' = spf /\ ds_classes d' = classes /\ ds_image d' = size.
Proof.
  intros Hc Hi Hl Ht Hle Hcv Hd. unfold process. rewrite Hd. cbn [st_bytes].
  assert (Hlen : length strs <= length (lines strs)).
  { clear. induction strs as [|x l IH]; [reflexivity|]. cbn [lines flat_map length]. fold (lines l). rewrite !app_length. cbn [length]. lia. }
  assert (Hc' : forall s b, length b = N.to_nat size -> exists s' f, conv s b = Ret (s', f)) by (intros s0 b Hb; apply Hc; lia).
  assert (Hi' : forall x, In x imgs -> length x = N.to_nat size) by (intros x Hx; specialize (Hi x Hx); lia).
  assert (Hrep : length (repeat 0%N (N.to_nat size)) = N.to_nat size) by apply repeat_length.
  assert (Hfuel : length strs < Datatypes.S (length (lines strs ++ tail))) by (rewrite app_length; lia).
  destruct (read_loop_spec conv (N.to_nat size) Hc' max tail extra Ht strs zs imgs fs s [] _ _ Hl Hi' Hle Hcv Hrep Hfuel) as (s' & E).
  rewrite E. eexists. exists s'. split; [reflexivity|]. cbn [ds_data ds_spf ds_classes ds_image app length]. split; [|auto].
  assert (L : length (combine (map label_of zs) fs) <= length strs).
  { rewrite combine_length, map_length. assert (length strs = length zs) by (clear -Hl; induction Hl; cbn [length]; lia). lia. }
  unfold kept. cbn [length]. change (N.of_nat 0) with 0%N. destruct (N.eqb_spec max 0) as [->|Em].
  - cbn [N.ltb N.compare]. now rewrite firstn_all2.
  - replace (0 <? max)%N with true by lia. rewrite Nat.sub_0_r. destruct (Nat.le_gt_cases (length strs) (N.to_nat max)).
    + rewrite Nat.min_l by lia. rewrite !firstn_all2 by lia. reflexivity.
    + rewrite Nat.min_r by lia. reflexivity.
Qed.
Print Assumptions c66_pairs_partial.
(** A converter that keeps the bytes above 100. *)
Definition c66_conv (s : nat) (b : list N) : outcome (nat * frame) := Ret (S s, map (fun x => (100 <? x)%N) b).
Example c66_case :
  fst (process c66_conv (mkDs [] 0 0 0 0 0) (mkStream [200; 0; 0; 200; 7]%N true) (mkStream [55; 10; 49; 50; 10]%N true) 0 10 2 1 0)
    = mkDs [(7, [true; false]); (12, [false; true])]%N 0 0 1 10 2 /\
  line [55]%N 7 /\ line [49; 50]%N 12 /\ lines [[55]; [49; 50]]%N = [55; 10; 49; 50; 10]%N.
Proof. split; [reflexivity|]. split; [split; [cbn; intuition discriminate|reflexivity]|]. split; [split; [cbn; intuition discriminate|reflexivity]|reflexivity]. Qed.
(** The claim fails: a last label without a line feed is lost, and a label too many is
    paired with the previous image. *)
Theorem c66_refuted :
  ds_data (fst (process c66_conv (mkDs [] 0 0 0 0 0) (mkStream [200; 0]%N true) (mkStream [55; 10; 56]%N true) 0 10 1 1 0)) = [(7, [true])]%N /\
  ds_data (fst (process c66_conv (mkDs [] 0 0 0 0 0) (mkStream [200]%N true) (mkStream [55; 10; 56; 10]%N true) 0 10 1 1 0)) = [(7, [true]); (8, [true])]%N.
Proof. ex_compute. Qed.
Print Assumptions c66_refuted.

(** *** C57: the evaluation, exactly.  [pred] is the prediction for each frame (the
    first class with most votes).  True positives of a class are the frames of the class
    predicted so, false negatives those without any vote.  Missing: "false positives"
    count the frames of the class for which another class is predicted, instead of the
    frames of other classes for which the class is predicted (c57_refuted), and "true
    negatives" all frames of other classes. *)
Theorem c57_counts_partial d ms :
  (0 < ds_classes d)%N -> (0 < ds_spf d)%N -> (ds_inf d * ds_spf d < two64)%N -> (ds_train d + ds_inf d <= ds_size d)%N ->
  (N.of_nat (length (flat_map snd ms)) < two64)%N -> StronglySorted (fun a b : spike_message => (fst a <= fst b)%N) ms ->
  (forall label data, In (label, data) (ds_data d) -> (label < ds_classes d)%N) ->
  exists pred rs, evaluate d ms = Ret rs /\ N.of_nat (length rs) = ds_classes d /\
    (forall f, (N.of_nat f < ds_inf d)%N -> prediction (ds_classes d) (ds_spf d) (N.of_nat f) ms (pred f)) /\
    let frames := N.to_nat (ds_inf d) in
    let label f := fst (nth (N.to_nat (ds_train d) + f) (ds_data d) (0%N, [])) in
    forall c r, nth_error rs c = Some r -> let c := N.of_nat c in
      r_tp r = count frames (fun f => N.eqb (label f) c && opt_eqb (pred f) (Some c)) /\
      r_fn r = count frames (fun f => N.eqb (label f) c && opt_eqb (pred f) None) /\
      r_fp r = count frames (fun f => N.eqb (label f) c && negb (opt_eqb (pred f) (Some c)) && negb (opt_eqb (pred f) None)) /\
      r_tn r = count frames (fun f => negb (N.eqb (label f) c)) /\
      (r_tp r + r_fn r + r_fp r + r_tn r = ds_inf d)%N.
Proof.
  intros Hc Hs H64 Hsz Hb Hord Hlab.
  set (pr := guess d ms).
  exists (fun f => if N.eqb (snd (pr f)) 0 then None else Some (fst (pr f))).
  assert (Hinf : (ds_inf d <= ds_inf d * ds_spf d)%N) by nia.
  unfold evaluate. assert (Est : inference_steps d = (ds_inf d * ds_spf d)%N) by (unfold inference_steps, w64; apply N.mod_small; exact H64).
  rewrite Est.
  assert (E0 : ([], repeat 0%N (N.to_nat (ds_classes d))) = state_at d ms 0).
  { unfold state_at. rewrite N.div_0_l by lia. cbn [N.to_nat seq map]. f_equal. rewrite N.mul_0_l, window_empty. clear.
    generalize 0. induction (N.to_nat (ds_classes d)) as [|n IH]; intros a; cbn [repeat seq map]; [reflexivity|]. f_equal. apply IH. }
  assert (Ef : ms = from_time 0 ms).
  { unfold from_time. clear. induction ms as [|m ms IH]; [reflexivity|]. cbn [filter]. replace (0 <=? fst m)%N with true by lia. now f_equal. }
  pose proof (eval_steps_spec d ms Hord Hc Hs Hb (N.to_nat (ds_inf d * ds_spf d)) 0 ltac:(lia)) as Hev. rewrite <- Ef in Hev.
  rewrite E0, Hev. cbn [obind].
  rewrite N.add_0_l, N2Nat.id. unfold state_at. cbn [fst]. rewrite N.div_mul by lia. fold pr.
  unfold predictions_results. rewrite map_length, seq_length, N2Nat.id.
  assert (Erep : repeat (mkRes 0 0 0 0) (N.to_nat (ds_classes d)) = map (fun _ => mkRes 0 0 0 0) (seq 0 (N.to_nat (ds_classes d)))).
  { clear. generalize 0. induction (N.to_nat (ds_classes d)) as [|n IH]; intros a; cbn [repeat seq map]; [reflexivity|]. f_equal. apply IH. }
  rewrite Erep. change 0%N with (N.of_nat 0) at 1. unfold ds_size in Hsz.
  assert (Hl : forall j, j < N.to_nat (ds_inf d) -> N.to_nat (ds_train d) + j < length (ds_data d) /\ N.to_nat (label_at d j) < N.to_nat (ds_classes d)).
  { intros j Hj. assert (K : N.to_nat (ds_train d) + j < length (ds_data d)) by lia. split; [exact K|]. unfold label_at.
    destruct (nth (N.to_nat (ds_train d) + j) (ds_data d) (0%N, [])) as [lb dt] eqn:En. cbn [fst].
    assert (Hin : In (lb, dt) (ds_data d)) by (rewrite <- En; now apply nth_In). specialize (Hlab lb dt Hin). lia. }
  rewrite (tally_spec d pr (N.to_nat (ds_classes d))) by (intros j Hj; apply Hl; lia). cbn [obind].
  rewrite map_map. eexists. split; [reflexivity|]. split; [rewrite map_length, seq_length; lia|]. split.
  - intros f Hf. unfold pr, guess.
    set (votes := map (fun c => hits (ds_classes d) (N.of_nat c) (spikes_of_frame (ds_spf d) (N.of_nat f) ms)) (seq 0 (N.to_nat (ds_classes d)))).
    assert (Hn : forall c, c < N.to_nat (ds_classes d) -> nth_error votes c = Some (hits (ds_classes d) (N.of_nat c) (spikes_of_frame (ds_spf d) (N.of_nat f) ms))).
    { intros c Hcc. unfold votes. rewrite nth_error_map, nth_error_nth' with (d := 0) by (now rewrite seq_length). rewrite seq_nth by exact Hcc. reflexivity. }
    assert (Hv : forall c, (c < ds_classes d)%N -> hits (ds_classes d) c (spikes_of_frame (ds_spf d) (N.of_nat f) ms) = N.of_nat (votes_for (ds_classes d) (ds_spf d) (N.of_nat f) c ms)) by reflexivity.
    destruct (best_spec votes 0 (0, 0)%N) as [[E Hz]|(j & v & Hj & E & Hpos & Hmax)].
    + rewrite E. cbn [snd N.eqb]. cbn. destruct (spikes_of_frame (ds_spf d) (N.of_nat f) ms) as [|s t] eqn:Es; [exact Es|exfalso].
      pose proof (N.mod_lt s (ds_classes d) ltac:(lia)) as Hm.
      specialize (Hn (N.to_nat (s mod ds_classes d)) ltac:(lia)). apply nth_error_In in Hn. apply Hz in Hn. cbn [snd] in Hn.
      unfold hits in Hn. rewrite N2Nat.id in Hn. cbn [filter] in Hn. rewrite N.eqb_refl in Hn. cbn [length] in Hn. lia.
    + rewrite E. cbn [snd fst] in *. replace (N.eqb v 0) with false by lia. cbn [prediction]. rewrite N.add_0_l.
      assert (Hjc : j < N.to_nat (ds_classes d)).
      { assert (K : j < length votes) by (apply nth_error_Some; congruence). unfold votes in K. now rewrite map_length, seq_length in K. }
      rewrite (Hn j Hjc) in Hj. injection Hj as Hj. rewrite Hv in Hj by lia. split; [lia|]. split; [lia|]. intros c' Hc'.
      specialize (Hn (N.to_nat c') ltac:(lia)). rewrite N2Nat.id, Hv in Hn by lia. destruct (Hmax _ _ Hn) as [A B]. split; [lia|].
      intros K. specialize (B ltac:(lia)). lia.
  - cbn zeta. intros c r Hr. rewrite nth_error_map in Hr.
    destruct (Nat.lt_ge_cases c (N.to_nat (ds_classes d))) as [C|C].
    2: { assert (E : nth_error (seq 0 (N.to_nat (ds_classes d))) c = None) by (apply nth_error_None; rewrite seq_length; lia). rewrite E in Hr. discriminate. }
    rewrite nth_error_nth' with (d := 0) in Hr by (now rewrite seq_length). rewrite seq_nth in Hr by exact C. cbn [option_map Nat.add] in Hr.
    rewrite tallied_counts in Hr by (cbn [r_tp r_fn r_fp]; rewrite seq_length; lia). cbn [r_tp r_fn r_fp r_tn] in Hr. rewrite !N.add_0_l in Hr.
    unfold true_negatives in Hr. cbn [r_tp r_fn r_fp r_tn] in Hr.
    set (l := seq 0 (N.to_nat (ds_inf d))) in *.
    set (A := N.of_nat (length (filter (fun f => (c =? N.to_nat (label_at d f)) && (negb (snd (pr f) =? 0)%N && (fst (pr f) =? label_at d f)%N)) l))) in Hr.
    set (B := N.of_nat (length (filter (fun f => (c =? N.to_nat (label_at d f)) && (snd (pr f) =? 0)%N) l))) in Hr.
    set (D := N.of_nat (length (filter (fun f => (c =? N.to_nat (label_at d f)) && (negb (snd (pr f) =? 0)%N && negb (fst (pr f) =? label_at d f)%N)) l))) in Hr.
    assert (Hsum : (A + B + D + count (N.to_nat (ds_inf d)) (fun f => negb (N.eqb (label_at d f) (N.of_nat c))) = ds_inf d)%N).
    { assert (En : ds_inf d = N.of_nat (length l)) by (unfold l; rewrite seq_length; lia). unfold A, B, D, count. fold l. rewrite En at 1. clearbody l. clear.
      induction l as [|f l IH]; [reflexivity|]. cbn [filter length].
      replace (N.eqb (label_at d f) (N.of_nat c)) with (c =? N.to_nat (label_at d f))
        by (destruct (Nat.eqb_spec c (N.to_nat (label_at d f))); destruct (N.eqb_spec (label_at d f) (N.of_nat c)); try reflexivity; lia).
      destruct (c =? N.to_nat (label_at d f)), (snd (pr f) =? 0)%N, (fst (pr f) =? label_at d f)%N; cbn [andb negb length]; lia. }
    assert (Ht : sub64 (sub64 (sub64 (ds_inf d) A) B) D = count (N.to_nat (ds_inf d)) (fun f => negb (N.eqb (label_at d f) (N.of_nat c)))).
    { assert (G : forall x y, (y <= x)%N -> (x < two64)%N -> sub64 x y = (x - y)%N).
      { intros x y Hxy Hx. unfold sub64, w64. rewrite (N.mod_small y) by lia. replace (x + (two64 - y))%N with (x - y + 1 * two64)%N by lia.
        rewrite N.mod_add by (unfold two64; lia). apply N.mod_small. lia. }
      rewrite (G (ds_inf d) A), (G (ds_inf d - A)%N B), (G (ds_inf d - A - B)%N D) by lia. lia. }
    rewrite Ht in Hr. injection Hr as <-. cbn [r_tp r_fn r_fp r_tn].
    assert (Hle : forall f, (c =? N.to_nat (label_at d f)) = N.eqb (label_at d f) (N.of_nat c)).
    { intros f. destruct (Nat.eqb_spec c (N.to_nat (label_at d f))); destruct (N.eqb_spec (label_at d f) (N.of_nat c)); try reflexivity; lia. }
    split; [|split; [|split; [|split; [|exact Hsum]]]].
    + unfold A, count. fold l. f_equal. f_equal. apply filter_ext. intros f. rewrite Hle. fold (label_at d f).
      destruct (N.eqb_spec (label_at d f) (N.of_nat c)) as [El|El]; cbn [andb]; [|reflexivity]. rewrite El. destruct (snd (pr f) =? 0)%N; reflexivity.
    + unfold B, count. fold l. f_equal. f_equal. apply filter_ext. intros f. rewrite Hle. fold (label_at d f).
      destruct (snd (pr f) =? 0)%N; reflexivity.
    + unfold D, count. fold l. f_equal. f_equal. apply filter_ext. intros f. rewrite Hle. fold (label_at d f).
      destruct (N.eqb_spec (label_at d f) (N.of_nat c)) as [El|El]; cbn [andb]; [|reflexivity]. rewrite El. destruct (snd (pr f) =? 0)%N; cbn [opt_eqb negb andb]; [reflexivity|].
      now rewrite andb_true_r.
    + reflexivity.
Qed.
Print Assumptions c57_counts_partial.
(** Two frames, labels 0 and 1; the first is predicted as class 1.  The false positive
    goes to class 0, which was never predicted, and class 1 has none. *)
Definition c57_d := mkDs [(0, [true]); (1, [true])]%N 0 2 1 2 1.
Theorem c57_refuted : evaluate c57_d [(0, [1]); (1, [1])]%N = Ret [mkRes 0 0 1 1; mkRes 1 0 0 1].
Proof. ex_compute. Qed.
Print Assumptions c57_refuted.
Example c57_case :
  (0 < ds_classes c57_d)%N /\ (ds_train c57_d + ds_inf c57_d <= ds_size c57_d)%N /\
  (forall label data, In (label, data) (ds_data c57_d) -> (label < ds_classes c57_d)%N) /\
  evaluate c57_d [(0, [2; 0; 1]); (1, []); (1, [1; 3])]%N = Ret [mkRes 1 0 0 1; mkRes 1 0 0 1].
Proof.
  split; [reflexivity|]. split; [vm_compute; congruence|]. split; [|ex_compute].
  intros label data [H|[H|[]]]; injection H as <- <-; reflexivity.
Qed.
(** The messages have to start with the evaluation and be in order: after a message of a
    later time (or an earlier one) nothing more is counted. *)
Theorem c57_stuck d t idx ms : (inference_steps d <= t)%N -> evaluate d ((t, idx) :: ms) = evaluate d [].
Proof.
  intros H. unfold evaluate. f_equal.
  assert (G : forall n k st, (k + N.of_nat n <= t)%N -> eval_steps d n k ((t, idx) :: ms) st = eval_steps d n k [] st).
  { induction n as [|n IH]; intros k st Hk; cbn [eval_steps take_step]; [reflexivity|].
    replace (N.eqb t k) with false by lia. destruct (process_spikes d st [] k); cbn [obind]; [|reflexivity|reflexivity]. apply IH. lia. }
  apply G. lia.
Qed.
Print Assumptions c57_stuck.
