(** Model of the classification datasets and of the evaluation of inference results.
    Paths are relative to /repo/knp/base-framework/. *)
From Verif Require Import Base.

(** ** Datasets *)
(** [Dataset] and its image subclass, include/knp/framework/data_processing/
    classification/dataset.h:204-224, image.h:125.  A frame is a vector of spikes. *)
Definition frame := list bool.
Record dataset := mkDs {
  ds_data : list (N * frame);   (* dataset_: label (32 bits) and frame *)
  ds_train : N;                 (* frames_amount_for_training_, 32 bits *)
  ds_inf : N;                   (* frames_amount_for_inference_, 32 bits *)
  ds_spf : N;                   (* steps_per_frame_ *)
  ds_classes : N;               (* classes_amount_ *)
  ds_image : N                  (* image_size_ *)
}.
Definition ds_size (d : dataset) : N := N.of_nat (length (ds_data d)).

(** [Dataset::split], impl/data_processing/classification/dataset.cpp:30-43; the sum is
    one of [size_t], the stored counts are [unsigned].  The result is the object
    afterwards and whether the call threw. *)
Definition split (d : dataset) (train inf : N) : dataset * outcome unit :=
  if (ds_size d <? add64 inf train)%N then (d, Throw)
  else (mkDs (ds_data d) (w32 train) (w32 inf) (ds_spf d) (ds_classes d) (ds_image d), Ret tt).
(** A range of iterators from [begin() + a] to [begin() + a + n]; leaving the vector is
    undefined. *)
Definition range {A} (l : list A) (a n : N) : outcome (list A) :=
  if (a + n <=? N.of_nat (length l))%N then Ret (firstn (N.to_nat n) (skipn (N.to_nat a) l)) else UB.
(** [get_data_for_training] and [get_data_for_inference], dataset.h:148-163. *)
Definition training_data (d : dataset) := range (ds_data d) 0 (ds_train d).
Definition inference_data (d : dataset) := range (ds_data d) (ds_train d) (ds_inf d).
(** [get_steps_amount_for_training] and [.._inference], dataset.h:177-190. *)
Definition training_steps (d : dataset) : N := w64 (ds_train d * ds_spf d).
Definition inference_steps (d : dataset) : N := w64 (ds_inf d * ds_spf d).

(** ** Generators *)
Definition at_ {A} (l : list A) (i : N) : outcome A :=
  match nth_error l (N.to_nat i) with Some x => Ret x | None => UB end.
(** Unsigned division and remainder; by zero is undefined. *)
Definition div_ (a b : N) : outcome N := if N.eqb b 0 then UB else Ret (a / b)%N.
Definition mod_ (a b : N) : outcome N := if N.eqb b 0 then UB else Ret (a mod b)%N.
(** [make_training_labels_generator], impl/data_processing/classification/image.cpp:
    58-70. *)
Definition labels_generator (d : dataset) (step : N) : outcome (list N) :=
  obind (div_ step (ds_spf d)) (fun f =>
  obind (mod_ f (ds_train d)) (fun lf =>
  obind (at_ (ds_data d) lf) (fun nf => Ret [fst nf]))).
(** The loops over the pixels, image.cpp:84-90, 108-114: [i] runs from [start] to
    [stop]; a spike index has 32 bits. *)
Fixpoint pixels (data : frame) (start i : N) (n : nat) : outcome (list N) :=
  match n with
  | 0 => Ret []
  | S n' => obind (at_ data i) (fun b =>
            obind (pixels data start (i + 1) n') (fun r => Ret (if b then w32 (sub64 i start) :: r else r)))
  end.
Definition frame_spikes (d : dataset) (data : frame) (step : N) : outcome (list N) :=
  obind (mod_ step (ds_spf d)) (fun local =>
  let start := w64 (local * ds_image d) in
  let stop := add64 start (ds_image d) in
  pixels data start start (N.to_nat (stop - start))).
(** [make_training_images_spikes_generator], image.cpp:73-94. *)
Definition training_spikes (d : dataset) (step : N) : outcome (list N) :=
  obind (div_ step (ds_spf d)) (fun f =>
  obind (mod_ f (ds_train d)) (fun lf =>
  obind (at_ (ds_data d) lf) (fun nf => frame_spikes d (snd nf) step))).
(** [make_inference_images_spikes_generator], image.cpp:97-118. *)
Definition inference_spikes (d : dataset) (step : N) : outcome (list N) :=
  obind (div_ step (ds_spf d)) (fun f =>
  obind (mod_ f (ds_inf d)) (fun lf =>
  obind (at_ (ds_data d) (add64 (ds_train d) lf)) (fun nf => frame_spikes d (snd nf) step))).

(** ** Image conversion *)
Definition one_f : flt := f_of_Z 1.
(** The body of the pixel loop for one pixel, image.cpp:138-143. *)
Definition pixel_step (factor s : flt) (x : N) : flt * bool :=
  let s' := f_add s (f_mul factor (f_of_Z (Z.of_N x))) in
  if f_ge s' one_f then (f_sub s' one_f, true) else (s', false).
(** One active step over all pixels, 135-144: [states[l]] and [image[l]] for [l] below
    the image size; reading outside a vector is undefined. *)
Fixpoint image_step (factor : flt) (n : nat) (states : list flt) (image : list N) : outcome (list flt * list bool) :=
  match n with
  | 0 => Ret (states, [])
  | S n' => match states, image with
            | s :: ss, x :: xs =>
                obind (image_step factor n' ss xs) (fun r =>
                let '(s', b) := pixel_step factor s x in Ret (s' :: fst r, b :: snd r))
            | _, _ => UB
            end
  end.
Fixpoint active_steps (factor : flt) (size k : nat) (states : list flt) (image : list N) : outcome (list flt * list bool) :=
  match k with
  | 0 => Ret (states, [])
  | S k' => obind (image_step factor size states image) (fun r =>
            obind (active_steps factor size k' (fst r) image) (fun r' => Ret (fst r', snd r ++ snd r')))
  end.
(** [make_incrementing_image_to_spikes_converter], image.cpp:121-151: the functor with
    its [states].  [limit] is the greatest size of a vector of booleans: a longer
    insertion throws (147: the difference is unsigned). *)
Definition convert (limit : N) (d : dataset) (active : N) (factor : flt) (states : list flt) (image : list N)
  : outcome (list flt * frame) :=
  let states := match states with [] => repeat (S754_zero false) (N.to_nat (ds_image d)) | _ => states end in
  obind (active_steps factor (N.to_nat (ds_image d)) (N.to_nat active) states image) (fun r =>
  let rest := w64 (sub64 (ds_spf d) active * ds_image d) in
  if (limit <? N.of_nat (length (snd r)) + rest)%N then Throw
  else Ret (fst r, snd r ++ repeat false (N.to_nat rest))).

(** ** Reading labelled images *)
(** An input stream: bytes still to read, and [good()]. *)
Record stream := mkStream { st_bytes : list N; st_good : bool }.
(** [istream::read(buffer, n)] on a good stream: too few bytes are copied to the start of
    the buffer and the stream is not good any more. *)
Definition st_read (s : stream) (n : nat) (buffer : list N) : stream * list N :=
  if Nat.leb n (length (st_bytes s)) then (mkStream (skipn n (st_bytes s)) (st_good s), firstn n (st_bytes s))
  else (mkStream [] false, st_bytes s ++ skipn (length (st_bytes s)) buffer).
(** [std::getline] on a good stream: up to the line feed, which is dropped; at the end of
    the stream it is not good any more. *)
Fixpoint get_line (l : list N) : option (list N * list N) :=
  match l with
  | [] => None
  | c :: t => if N.eqb c 10 then Some ([], t)
              else match get_line t with Some (a, r) => Some (c :: a, r) | None => None end
  end.
(** [std::stoi]: white space, a sign, decimal digits; no digits or a value out of the
    range of [int] throws. *)
Definition is_space (c : N) : bool := N.eqb c 32 || ((9 <=? c) && (c <=? 13))%N.
Definition is_digit (c : N) : bool := ((48 <=? c) && (c <=? 57))%N.
Fixpoint skip_space (l : list N) : list N :=
  match l with c :: t => if is_space c then skip_space t else l | [] => [] end.
Fixpoint digits (acc : Z) (l : list N) : Z :=
  match l with
  | c :: t => if is_digit c then digits (10 * acc + (Z.of_N c - 48))%Z t else acc
  | [] => acc
  end.
Definition stoi (l : list N) : outcome Z :=
  let l := skip_space l in
  let '(neg, l) := match l with
                   | c :: t => if N.eqb c 45 then (true, t) else if N.eqb c 43 then (false, t) else (false, l)
                   | [] => (false, l) end in
  match l with
  | c :: _ => if is_digit c then
                let v := digits 0 l in
                let v := if neg then (- v)%Z else v in
                if ((- 2 ^ 31 <=? v) && (v <=? 2 ^ 31 - 1))%Z then Ret v else Throw
              else Throw
  | [] => Throw
  end.
(** A label stored as [unsigned]. *)
Definition label_of (z : Z) : N := Z.to_N (z mod 2 ^ 32).
(** The reading loop of [process_labels_and_images], image.cpp:41-54, for a converter
    with a state; the result also has the records read before an exception.  [fuel]
    bounds the iterations: every full one uses up a byte of the labels. *)
Section Process.
Context {S : Type} (conv : S -> list N -> outcome (S * frame)).
Fixpoint read_loop (fuel : nat) (size : nat) (max : N) (images labels : stream) (buffer : list N) (s : S) (data : list (N * frame))
  : list (N * frame) * outcome S :=
  match fuel with
  | 0 => (data, Ret s)
  | Datatypes.S fuel' =>
      if st_good images && st_good labels then
        let '(images, buffer) := st_read images size buffer in
        match conv s buffer with
        | Ret (s', f) =>
            match get_line (st_bytes labels) with
            | None => (data, Ret s')
            | Some (str, rest) =>
                match stoi str with
                | Ret z =>
                    let data := data ++ [(label_of z, f)] in
                    if N.eqb (N.of_nat (length data)) max then (data, Ret s')
                    else read_loop fuel' size max images (mkStream rest (st_good labels)) buffer s' data
                | Throw => (data, Throw)
                | UB => (data, UB)
                end
            end
        | Throw => (data, Throw)
        | UB => (data, UB)
        end
      else (data, Ret s)
  end.
(** [process_labels_and_images], image.cpp:28-55; [reserve] (39) of too many images
    (not modelled) throws. *)
Definition process (d : dataset) (images labels : stream) (max classes size spf : N) (s : S) : dataset * outcome S :=
  let '(data, r) := read_loop (Datatypes.S (length (st_bytes labels))) (N.to_nat size) max images labels (repeat 0%N (N.to_nat size)) s (ds_data d) in
  (mkDs data (ds_train d) (ds_inf d) spf classes size, r).
End Process.

(** ** Evaluation of inference results *)
(** [EvaluationHelper::process_spikes], impl/inference_evaluation/classification/
    processor.cpp:65-84. *)
Fixpoint vote (votes : list N) (i : nat) : outcome (list N) :=
  match votes, i with
  | v :: t, 0 => Ret (add64 v 1 :: t)
  | v :: t, S i' => obind (vote t i') (fun t' => Ret (v :: t'))
  | [], _ => UB
  end.
Fixpoint vote_all (classes : N) (spikes votes : list N) : outcome (list N) :=
  match spikes with
  | [] => Ret votes
  | s :: t => obind (mod_ s classes) (fun c => obind (vote votes (N.to_nat c)) (vote_all classes t))
  end.
(** The search for the first class with most votes, 70-80: (class, votes). *)
Fixpoint best (i : N) (votes : list N) (cur : N * N) : N * N :=
  match votes with
  | [] => cur
  | v :: t => best (i + 1) t (if (snd cur <? v)%N then (i, v) else cur)
  end.
(** The state: predictions and current votes. *)
Definition process_spikes (d : dataset) (st : list (N * N) * list N) (spikes : list N) (step : N)
  : outcome (list (N * N) * list N) :=
  obind (vote_all (ds_classes d) spikes (snd st)) (fun votes =>
  obind (mod_ (add64 step 1) (ds_spf d)) (fun m =>
  if N.eqb m 0 then Ret (fst st ++ [best 0 votes (0, 0)%N], repeat 0%N (length votes))
  else Ret (fst st, votes))).
(** A spike message: send time and neuron indexes (the sender is not used). *)
Definition spike_message := (N * list N)%type.
(** The messages of the current step at the front, 124-129: spikes and remaining
    messages. *)
Fixpoint take_step (step : N) (ms : list spike_message) : list N * list spike_message :=
  match ms with
  | (time, idx) :: t =>
      if N.eqb time step then let '(s, r) := take_step step t in (idx ++ s, r) else ([], ms)
  | [] => ([], [])
  end.
(** The loop over steps, 122-132. *)
Fixpoint eval_steps (d : dataset) (n : nat) (step : N) (ms : list spike_message) (st : list (N * N) * list N)
  : outcome (list (N * N) * list N) :=
  match n with
  | 0 => Ret st
  | S n' => let '(spikes, rest) := take_step step ms in
            obind (process_spikes d st spikes step) (fun st' => eval_steps d n' (step + 1) rest st')
  end.
(** [InferenceResult], include/knp/framework/inference_evaluation/classification/
    result.h:36-72. *)
Record result := mkRes { r_tp : N; r_fn : N; r_fp : N; r_tn : N }.
Definition total_votes (r : result) : N := w64 (r_tp r + r_fn r + r_fp r).
(** [process_inference_predictions], 87-111. *)
Fixpoint bump (f : result -> result) (i : nat) (rs : list result) : outcome (list result) :=
  match rs, i with
  | r :: t, 0 => Ret (f r :: t)
  | r :: t, S i' => obind (bump f i' t) (fun t' => Ret (r :: t'))
  | [], _ => UB
  end.
Fixpoint tally (d : dataset) (i : N) (ps : list (N * N)) (rs : list result) : outcome (list result) :=
  match ps with
  | [] => Ret rs
  | (c, votes) :: t =>
      obind (at_ (ds_data d) (ds_train d + i)) (fun nf =>
      let label := fst nf in
      let f := fun r => if N.eqb votes 0 then mkRes (r_tp r) (add64 (r_fn r) 1) (r_fp r) (r_tn r)
                        else if negb (N.eqb c label) then mkRes (r_tp r) (r_fn r) (add64 (r_fp r) 1) (r_tn r)
                        else mkRes (add64 (r_tp r) 1) (r_fn r) (r_fp r) (r_tn r) in
      obind (bump f (N.to_nat label) rs) (tally d (i + 1) t))
  end.
Definition true_negatives (n : N) (r : result) : result :=
  mkRes (r_tp r) (r_fn r) (r_fp r) (sub64 (sub64 (sub64 n (r_tp r)) (r_fn r)) (r_fp r)).
Definition predictions_results (d : dataset) (ps : list (N * N)) : outcome (list result) :=
  obind (tally d 0 ps (repeat (mkRes 0 0 0 0) (N.to_nat (ds_classes d)))) (fun rs =>
  Ret (map (true_negatives (N.of_nat (length ps))) rs)).
(** [process_inference_results], 114-135. *)
Definition evaluate (d : dataset) (ms : list spike_message) : outcome (list result) :=
  obind (eval_steps d (N.to_nat (inference_steps d)) 0 ms ([], repeat 0%N (N.to_nat (ds_classes d)))) (fun st =>
  predictions_results d (fst st)).

(** ** Metrics *)
(** impl/inference_evaluation/perfomance_metrics.cpp:28-62: sums are of [size_t]; both
    operands of a division are converted to [float]. *)
Definition f_size (n : N) : flt := f_of_Z (Z.of_N n).
Definition get_precision (tp fp : N) : flt :=
  if N.eqb (add64 tp fp) 0 then S754_zero false else f_div (f_size tp) (f_size (add64 tp fp)).
Definition get_recall (tp fn : N) : flt :=
  if N.eqb (add64 tp fn) 0 then S754_zero false else f_div (f_size tp) (f_size (add64 tp fn)).
Definition total (tp fn fp tn : N) : N := add64 (add64 (add64 tp fn) fp) tn.
Definition get_prevalence (tp fn fp tn : N) : flt :=
  if N.eqb (total tp fn fp tn) 0 then S754_zero false else f_div (f_size (add64 tp fn)) (f_size (total tp fn fp tn)).
Definition get_accuracy (tp fn fp tn : N) : flt :=
  if N.eqb (total tp fn fp tn) 0 then S754_zero false else f_div (f_size (add64 tp tn)) (f_size (total tp fn fp tn)).
Definition two_f : flt := f_of_Z 2.
Definition is_zero (x : flt) : bool := match x with S754_zero _ => true | _ => false end.
Definition get_f_score (precision recall : flt) : flt :=
  if is_zero (f_mul precision recall) then S754_zero false
  else f_div (f_mul (f_mul two_f precision) recall) (f_add precision recall).
(** A row of the table, processor.cpp:138-160. *)
Record row := mkRow { w_label : N; w_votes : N; w_tp : N; w_fn : N; w_fp : N; w_tn : N;
                      w_precision : flt; w_recall : flt; w_prevalence : flt; w_accuracy : flt; w_f_score : flt }.
Definition csv_row (label : N) (r : result) : row :=
  let precision := get_precision (r_tp r) (r_fp r) in
  let recall := get_recall (r_tp r) (r_fp r) in
  mkRow label (total_votes r) (r_tp r) (r_fn r) (r_fp r) (r_tn r) precision recall
    (get_prevalence (r_tp r) (r_fn r) (r_fp r) (r_tn r)) (get_accuracy (r_tp r) (r_fn r) (r_fp r) (r_tn r)) (get_f_score precision recall).
Fixpoint csv (label : N) (rs : list result) : list row :=
  match rs with [] => [] | r :: t => csv_row label r :: csv (label + 1) t end.
