(** C125: the MNIST client: from a file of images to the spikes of every step, and the record of the results. *)
From Verif Require Import Base Client_Model Client_Spec Client_Proofs.

(** The whole path: at step [s] the channel gets exactly the pixels of image [skip + s / F] that are lit in frame
    [s mod F], in ascending order; after the last frame it gets nothing.  At most 363 levels (the client has 10). *)
Theorem c125_input fuel size F L skip bytes step : 0 < size -> (N.of_nat size <= two32)%N -> 0 < F -> 1 <= L -> L <= 363 ->
  Forall (fun b => (b < 256)%N) bytes -> length bytes < fuel ->
  let steps := F * (length bytes / size + 1 - skip) in (N.of_nat steps < two64)%N ->
  exists frames, read_spikes fuel size F L skip (Some bytes) = Some frames /\ length frames = steps /\
    generate frames 0 (N.of_nat step) = Ret (if Nat.ltb step steps then shown bytes size L (skip + step / F) (step mod F) else []).
Proof.
  intros Hs Hs2 HF H1 H2 Hb Hf steps H64. destruct (input_ok fuel size F L skip bytes step Hs Hs2 HF H1 H2 Hb Hf) as (fr & A & B & C).
  exists fr. split; [exact A|]. split; [exact B|]. exact (C H64).
Qed.
Example c125_input_case : read_spikes 10 2 3 4 0 (Some [255; 64; 128]%N) = Some [[true; true]; [true; false]; [true; false]; [true; false]; [true; false]; [false; false]] /\
  map (fun s => generate [[true; true]; [true; false]; [true; false]; [true; false]; [true; false]; [false; false]] 0 s) [0; 1; 4; 5; 6]%N = map Ret [[0; 1]; [0]; [0]; []; []]%N /\
  shown [255; 64; 128]%N 2 4 1 1 = [0]%N.
Proof. repeat split; vm_compute; reflexivity. Qed.

(** The images: the file cut into pieces; what is missing of the last one is black. *)
Theorem c125_images fuel size bytes : 0 < size -> length bytes < fuel ->
  exists l, read_images fuel size (Some bytes) = Some l /\ length l = length bytes / size + 1 /\
    forall i, i < length l -> nth i l [] = map (pixel bytes size i) (seq 0 size).
Proof. intros A B. exact (read_ok size A fuel bytes B). Qed.
(** "A file of [n] images gives [n] images": one more is always there, and it is black. *)
Theorem c125_images_refuted fuel size bytes n : 0 < size -> length bytes < fuel -> length bytes = n * size ->
  exists l, read_images fuel size (Some bytes) = Some l /\ length l = n + 1 /\ nth n l [] = repeat 0%N size.
Proof.
  intros A B E. destruct (read_ok size A fuel bytes B) as (l & E1 & E2 & E3). exists l. split; [exact E1|]. rewrite E, Nat.div_mul in E2 by lia. split; [exact E2|].
  rewrite E3 by lia. apply nth_ext with 0%N 0%N; [now rewrite map_length, seq_length, repeat_length|]. intros p Hp. rewrite map_length, seq_length in Hp.
  rewrite nth_map_seq, nth_repeat by exact Hp. unfold pixel. apply nth_overflow. lia.
Qed.
(** Images of no bytes: the file is never read to its end. *)
Theorem c125_no_size_refuted fuel bytes : read_images fuel 0 (Some bytes) = None.
Proof. apply read_none. Qed.

(** A pixel in a frame: right for up to 363 levels; for more (up to 2^31) right unless the pixel reaches the level exactly. *)
Theorem c125_exact L k b : 1 <= L -> L <= 363 -> k < L -> (b < 256)%N -> lit L k b = N.leb (256 * N.of_nat (k + 1)) (b * N.of_nat L).
Proof. intros A B C D. rewrite lit_bright by assumption. unfold bright. now replace (Nat.ltb k L) with true by (symmetry; now apply Nat.ltb_lt). Qed.
Theorem c125_levels L k b : 1 <= L -> (Z.of_nat L < 2 ^ 31)%Z -> k < L -> (b < 256)%N ->
  ((256 * N.of_nat (k + 1) < b * N.of_nat L)%N -> lit L k b = true) /\ ((b * N.of_nat L < 256 * N.of_nat (k + 1))%N -> lit L k b = false).
Proof. intros A B C D. split; [now apply lit_over|now apply lit_under]. Qed.
Example c125_levels_case : lit 1000 0 1%N = true /\ lit 1000 3 1%N = false.
Proof. split; vm_compute; reflexivity. Qed.
(** With 364 levels a pixel of 192 is not lit in the frame whose level it reaches. *)
Theorem c125_levels_refuted : (192 * 364 = 256 * (272 + 1))%N /\ lit 364 272 192%N = false.
Proof. split; vm_compute; reflexivity. Qed.
(** Over the frames of an image a pixel is lit as often as its brightness says. *)
Theorem c125_count L F b : 1 <= L -> L <= 363 -> L <= F -> (b < 256)%N ->
  length (filter (fun f => match f with x :: _ => x | [] => false end) (image_to_spikes [b] L F)) = N.to_nat (b * N.of_nat L / 256).
Proof.
  intros H1 H2 H3 Hb. rewrite <- (bright_count L F b H1 H3 Hb). unfold image_to_spikes. rewrite Nat.min_r by exact H3.
  rewrite (map_ext_in _ (fun k => if bright L k b then [true] else if Nat.ltb k L then [false] else [])).
  - induction (seq 0 F) as [|k t IH]; [reflexivity|]. cbn [map filter]. destruct (bright L k b); cbn [length]; [now rewrite IH|]. destruct (Nat.ltb k L); exact IH.
  - intros k _. unfold bright. destruct (Nat.ltb_spec k L) as [A|A]; cbn [map andb]; [|reflexivity]. rewrite c125_exact by assumption. now destruct (N.leb _ _).
Qed.
Example c125_count_case : length (filter (fun f => match f with x :: _ => x | [] => false end) (image_to_spikes [200]%N 10 20)) = 7.
Proof. vm_compute. reflexivity. Qed.

(** The parameter [skip] of the generator: every value but 0 makes it read behind the frames. *)
Theorem c125_skip_refuted frames skip : (0 < skip)%N -> (skip <= N.of_nat (length frames))%N -> (N.of_nat (length frames) < two64)%N ->
  exists step, (step < N.of_nat (length frames))%N /\ generate frames skip step = UB.
Proof.
  intros A B C. exists (N.of_nat (length frames) - skip)%N. split; [lia|]. unfold generate. replace (_ <=? _)%N with false by (symmetry; apply N.leb_gt; lia).
  unfold add64, w64. rewrite N.mod_small by lia. replace (N.of_nat (length frames) - skip + skip)%N with (N.of_nat (length frames)) by lia. rewrite Nat2N.id.
  now replace (nth_error frames (length frames)) with (@None (list bool)) by (symmetry; now apply nth_error_None).
Qed.
Example c125_skip_case : generate [[true]; [true]] 1 0 = Ret [0]%N /\ generate [[true]; [true]] 1 1 = UB.
Proof. split; reflexivity. Qed.

(** The record of the results: every message with spikes, in order, when a step has at most one message (one
    output population); of several messages only the first counts. *)
Theorem c125_observed steps : Forall (fun ms => length ms <= 1) steps -> observe_all steps = spiking steps.
Proof. exact (observed steps). Qed.
Example c125_observed_case : observe_all [[(0, [])]; []; [(2, [3; 4])]]%N = [(2, [3; 4])]%N.
Proof. reflexivity. Qed.
Theorem c125_observed_refuted : observe_all [[(0, []); (0, [7])]; [(1, [1]); (1, [2])]]%N = [(1, [1])]%N /\
  spiking [[(0, []); (0, [7])]; [(1, [1]); (1, [2])]]%N = [(0, [7]); (1, [1]); (1, [2])]%N.
Proof. split; reflexivity. Qed.

Print Assumptions c125_input.
Print Assumptions c125_images.
Print Assumptions c125_images_refuted.
Print Assumptions c125_no_size_refuted.
Print Assumptions c125_exact.
Print Assumptions c125_levels.
Print Assumptions c125_levels_refuted.
Print Assumptions c125_count.
Print Assumptions c125_skip_refuted.
Print Assumptions c125_observed.
Print Assumptions c125_observed_refuted.
