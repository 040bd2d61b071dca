(** Property theorems C12-C15: identifiers and message formats. *)
From Coq Require Import String.
From Verif Require Import Base Messaging_Model Codec_Model Codec_Spec Codec_Proofs.
Local Open Scope N_scope.
Local Open Scope list_scope.

(** *** C12 *)
Theorem c12_generated_distinct start i j :
  i < 2 ^ 64 -> j < 2 ^ 64 -> generated start i = generated start j -> i = j.
Proof. exact (generated_inj start i j). Qed.
Print Assumptions c12_generated_distinct.

(** The i-th identifier is nil exactly if the 64-bit counter stands at 0. *)
Theorem c12_generated_nil start i :
  generated start i = 0 <-> (start + i) mod 2 ^ 64 = 0.
Proof. exact (generated_nil start i). Qed.
Print Assumptions c12_generated_nil.

Example c12_demo : generated 1 0 = 2 ^ 120 /\ generated 1 255 = 2 ^ 112 /\
  generated 1 (2 ^ 64 - 1) = 0 /\ generated 1 (2 ^ 64 - 2) = (2 ^ 64 - 1) * 2 ^ 64.
Proof. ex_compute. Qed.

(** *** C13 *)
Theorem c13_order a b c :
  a < 2 ^ 128 -> b < 2 ^ 128 -> c < 2 ^ 128 ->
  uid_lt a a = false /\
  (uid_lt a b = true -> uid_lt b c = true -> uid_lt a c = true) /\
  (uid_lt a b = true \/ uid_eqb a b = true \/ uid_lt b a = true) /\
  (uid_eqb a b = true <-> a = b) /\
  uid_lt a b = (b <? a).
Proof.
  exact (fun Ha Hb Hc => order_laws a b c Ha Hb Hc).
Qed.
Print Assumptions c13_order.

Example c13_demo : uid_lt (2 ^ 127) 5 = true /\ uid_lt 5 (2 ^ 127) = false /\ uid_eqb 7 7 = true.
Proof. ex_compute. Qed.

(** *** C14 *)
(** False in full: an empty message read into an object that held indexes keeps
    them ... *)
Theorem c14_text_empty_refuted : exists m old m',
  fits m /\ read_spike old (show_message m) = Some (m', []) /\ m' <> m.
Proof.
  exists (SpikeMsg 7 1 []), [5], (SpikeMsg 7 1 [5]).
  split; [repeat split; constructor|]. split; [vm_compute; reflexivity|discriminate].
Qed.
Print Assumptions c14_text_empty_refuted.

(** ... and two different messages have the same text, so no reader whatsoever
    can restore both. *)
Theorem c14_text_float_refuted : exists m1 m2,
  fits m1 /\ fits m2 /\ m1 <> m2 /\ show_message m1 = show_message m2.
Proof.
  exists (ImpactMsg 1 2 3 4 false [mkImpact 0 (S754_finite false 16777215 0) EXCITATORY 0 0]).
  exists (ImpactMsg 1 2 3 4 false [mkImpact 0 (S754_finite false 8388608 1) EXCITATORY 0 0]).
  split; [repeat split; repeat constructor|]. split; [repeat split; repeat constructor|].
  split; [discriminate|]. vm_compute. reflexivity.
Qed.
Print Assumptions c14_text_float_refuted.

(** Missing from the full statement: the message is not empty or the target is
    fresh. *)
Theorem c14_spike_text_partial s t idx old rest :
  fits (SpikeMsg s t idx) -> (idx <> [] \/ old = []) -> stops rest ->
  read_spike old (show_message (SpikeMsg s t idx) ++ rest) = Some (SpikeMsg s t idx, rest).
Proof. exact (read_show_spike s t idx old rest). Qed.
Print Assumptions c14_spike_text_partial.

(** Missing: as above, and every impact value must survive the six-digit
    decimal form (for whatever correct text-to-float conversion is used). *)
Theorem c14_impact_text_partial strtof s t pre post f ims old rest :
  fits (ImpactMsg s t pre post f ims) -> values_survive strtof ims ->
  (ims <> [] \/ old = []) -> stops rest ->
  read_impacts strtof old (show_message (ImpactMsg s t pre post f ims) ++ rest) =
    Some (ImpactMsg s t pre post f ims, rest).
Proof. exact (read_show_impacts strtof s t pre post f ims old rest). Qed.
Print Assumptions c14_impact_text_partial.

Example c14_demo_text :
  show_message (SpikeMsg (2 ^ 120) 12 [3; 40]) =
    codes " 01000000-0000-0000-0000-000000000000 12 2 3 40" /\
  show_float (S754_finite false 16777215 0) = codes "1.67772e+07" /\
  show_float (S754_finite true 1 (-1)) = codes "-0.5" /\
  show_float (S754_finite false 13421773 (-27)) = codes "0.1" /\
  show_float (S754_finite false 123456 0) = codes "123456" /\
  show_float (S754_finite false 10995116 (-40)) = codes "1e-05".
Proof. ex_compute. Qed.
Example c14_demo_hyp :
  fits (SpikeMsg (2 ^ 120) 12 [3; 40]) /\ stops (codes " next") /\
  fits (ImpactMsg 1 2 3 4 true [mkImpact 9 (S754_finite true 1 (-1)) BLOCKING 1 2]) /\
  values_survive (fun t => if bytes_eqb t (codes "-0.5") then Some (S754_finite true 1 (-1)) else None)
                 [mkImpact 9 (S754_finite true 1 (-1)) BLOCKING 1 2].
Proof. repeat split; repeat constructor. Qed.

(** *** C15 *)
(** Partial: the FlatBuffers library's byte layout is trusted; what is proved is
    that the tables handed to it and read from it carry every field. *)
Theorem c15_envelope_partial m : fits m -> extract_from_envelope (pack_to_envelope m) = Ret m.
Proof. exact (envelope_round m). Qed.
Print Assumptions c15_envelope_partial.

(** An envelope of an unknown type is rejected with an exception. *)
Theorem c15_unknown_type_throws e :
  fe_message_type e <> 1 -> fe_message_type e <> 2 -> extract_from_envelope e = Throw.
Proof. exact (envelope_unknown e). Qed.
Print Assumptions c15_unknown_type_throws.

Example c15_demo : fits (ImpactMsg 1 2 3 4 true [mkImpact 9 (S754_finite true 1 (-1)) BLOCKING 1 2]).
Proof. repeat split; repeat constructor. Qed.
