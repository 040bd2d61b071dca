(** Proofs about datasets and the evaluation of inference results. *)
From Verif Require Import Base ListLemmas Classify_Model Classify_Spec.

(** ** Generators *)
Lemma pixels_spec data start : forall n i,
  (i + N.of_nat n <= N.of_nat (length data))%N -> (start <= i)%N -> (i + N.of_nat n <= start + two32)%N -> (i + N.of_nat n <= two64)%N ->
  exists r, pixels data start i n = Ret r /\ StronglySorted N.lt r /\
    forall p, In p r <-> (i <= start + p)%N /\ (start + p < i + N.of_nat n)%N /\ nth_error data (N.to_nat (start + p)) = Some true.
Proof.
  induction n as [|n IH]; intros i H1 H2 H3 H4; cbn [pixels].
  - exists []. split; [reflexivity|]. split; [constructor|]. intros p. cbn [In]. split; [contradiction|lia].
  - unfold at_. destruct (nth_error data (N.to_nat i)) as [b|] eqn:Eb; [|apply nth_error_None in Eb; lia].
    destruct (IH (i + 1)%N) as (r & E & Hs & Hr); try lia. cbn [obind]. rewrite E. cbn [obind].
    assert (Ew : w32 (sub64 i start) = (i - start)%N).
    { unfold w32, sub64, w64. change two64 with 18446744073709551616%N in *. change two32 with 4294967296%N in *.
      rewrite (N.mod_small start) by lia. replace (i + (18446744073709551616 - start))%N with (i - start + 1 * 18446744073709551616)%N by lia.
      rewrite N.mod_add by lia. rewrite (N.mod_small (i - start)) by lia. apply N.mod_small. lia. }
    destruct b.
    + exists (w32 (sub64 i start) :: r). rewrite Ew. split; [reflexivity|]. split.
      * constructor; [exact Hs|]. apply Forall_forall. intros p Hp. apply Hr in Hp. lia.
      * intros p. cbn [In]. rewrite Hr. split.
        -- intros [<-|(A & B & C)]; [|split; [lia|split; [lia|exact C]]]. split; [lia|]. split; [lia|].
           replace (start + (i - start))%N with i by lia. exact Eb.
        -- intros (A & B & C). destruct (N.eq_dec (start + p) i) as [e|e]; [left; lia|right]. split; [lia|]. split; [lia|exact C].
    + exists r. split; [reflexivity|]. split; [exact Hs|]. intros p. rewrite Hr. split.
      * intros (A & B & C). split; [lia|]. split; [lia|exact C].
      * intros (A & B & C). assert ((start + p)%N <> i) by (intros e; rewrite e in C; congruence). split; [lia|]. split; [lia|exact C].
Qed.
Lemma frame_spikes_spec d data step : (0 < ds_spf d)%N -> N.of_nat (length data) = (ds_spf d * ds_image d)%N ->
  (ds_spf d * ds_image d < two64)%N -> (ds_image d <= two32)%N ->
  exists r, frame_spikes d data step = Ret r /\ shows (ds_image d) data (step mod ds_spf d) r.
Proof.
  intros Hs Hl H64 H32. unfold frame_spikes, mod_. replace (N.eqb (ds_spf d) 0) with false by lia. cbn [obind].
  set (k := (step mod ds_spf d)%N). assert (Hk : (k < ds_spf d)%N) by (apply N.mod_lt; lia).
  assert (Hm : (k * ds_image d + ds_image d <= ds_spf d * ds_image d)%N) by nia.
  cbn zeta. unfold add64, w64. rewrite (N.mod_small (k * ds_image d)) by lia. rewrite N.mod_small by lia.
  replace (k * ds_image d + ds_image d - k * ds_image d)%N with (ds_image d) by lia.
  destruct (pixels_spec data (k * ds_image d) (N.to_nat (ds_image d)) (k * ds_image d)) as (r & E & H1 & H2); try lia.
  exists r. split; [exact E|]. split; [exact H1|]. intros p. rewrite H2. split; intros (A & B); [split; [lia|apply B]|].
  split; [lia|]. split; [lia|exact B].
Qed.
Lemma at_lt {A} (l : list A) i : (i < N.of_nat (length l))%N -> exists x, nth_error l (N.to_nat i) = Some x /\ at_ l i = Ret x /\ In x l.
Proof.
  intros H. unfold at_. destruct (nth_error l (N.to_nat i)) as [x|] eqn:E; [|apply nth_error_None in E; lia].
  exists x. split; [reflexivity|]. split; [reflexivity|]. now apply nth_error_In in E.
Qed.

(** ** Conversion *)
Lemma image_step_spec factor : forall n states image, length states = n -> length image = n ->
  image_step factor n states image =
    Ret (map (fun p => fst (pixel_step factor (fst p) (snd p))) (combine states image),
         map (fun p => snd (pixel_step factor (fst p) (snd p))) (combine states image)).
Proof.
  induction n as [|n IH]; intros [|s ss] [|x xs] H1 H2; try discriminate; [reflexivity|].
  cbn [image_step combine map fst snd length] in *. rewrite IH by lia. cbn [obind fst snd]. now destruct (pixel_step factor s x).
Qed.
(** The states after [k] steps with the same image, and the bits. *)
Fixpoint pixel_run (factor s : flt) (x : N) (k : nat) : flt * list bool :=
  match k with
  | 0 => (s, [])
  | S k' => let '(s1, b) := pixel_step factor s x in let '(s2, bs) := pixel_run factor s1 x k' in (s2, b :: bs)
  end.
Lemma active_steps_spec factor : forall k size states image, length states = size -> length image = size ->
  exists bits, active_steps factor size k states image =
    Ret (map (fun p => fst (pixel_run factor (fst p) (snd p) k)) (combine states image), bits) /\
    length bits = k * size /\
    forall l j s x, nth_error states l = Some s -> nth_error image l = Some x -> j < k ->
      nth_error bits (j * size + l) = nth_error (snd (pixel_run factor s x k)) j.
Proof.
  induction k as [|k IH]; intros size states image H1 H2; cbn [active_steps].
  - exists []. split; [|split; [reflexivity|intros; lia]]. f_equal. f_equal.
    assert (G : forall a b, length a = length b -> map (fun p : flt * N => fst (pixel_run factor (fst p) (snd p) 0)) (combine a b) = a).
    { induction a as [|s a IHa]; intros [|x b] Hl; try discriminate; [reflexivity|]. cbn [combine map pixel_run fst]. f_equal. apply IHa. now injection Hl. }
    symmetry. apply G. lia.
  - rewrite (image_step_spec factor size states image H1 H2). cbn [obind fst snd].
    set (ss1 := map (fun p : flt * N => fst (pixel_step factor (fst p) (snd p))) (combine states image)).
    assert (L1 : length ss1 = size) by (unfold ss1; rewrite map_length, combine_length; lia).
    destruct (IH size ss1 image L1 H2) as (bits & E & Hl & Hb). rewrite E. cbn [obind fst snd].
    set (b1 := map (fun p : flt * N => snd (pixel_step factor (fst p) (snd p))) (combine states image)).
    assert (Lb : length b1 = size) by (unfold b1; rewrite map_length, combine_length; lia).
    exists (b1 ++ bits). split; [|split].
    + f_equal. f_equal. unfold ss1. clear. revert image. induction states as [|s ss IHs]; intros [|x xs]; try reflexivity.
      cbn [combine map fst snd pixel_run]. destruct (pixel_step factor s x) as [s1 b]. cbn [fst]. destruct (pixel_run factor s1 x k) as [s2 bs] eqn:Ep. cbn [fst].
      f_equal. apply IHs.
    + rewrite app_length, Hl, Lb. lia.
    + intros l j s x Hs Hx Hj. assert (l < size) by (rewrite <- H1; apply nth_error_Some; congruence). cbn [pixel_run].
      assert (Hc : nth_error (combine states image) l = Some (s, x)).
      { clear -Hs Hx. revert image l Hs Hx. induction states as [|a states IHs]; intros [|b image] [|l] Hs Hx; try discriminate.
        - injection Hs as ->. injection Hx as ->. reflexivity.
        - cbn. now apply IHs. }
      destruct (pixel_step factor s x) as [s1 b] eqn:E1. destruct (pixel_run factor s1 x k) as [s2 bs] eqn:E2. cbn [snd].
      destruct j as [|j].
      * cbn [Nat.mul Nat.add nth_error]. rewrite nth_error_app1 by lia. unfold b1. rewrite nth_error_map, Hc. cbn [option_map fst snd]. now rewrite E1.
      * rewrite nth_error_app2 by (rewrite Lb; nia). rewrite Lb. replace (S j * size + l - size) with (j * size + l) by lia. cbn [nth_error].
        rewrite (Hb l j s1 x); [now rewrite E2| |exact Hx|lia]. unfold ss1. rewrite nth_error_map, Hc. cbn [option_map fst snd]. now rewrite E1.
Qed.
Lemma pixel_run_length factor x : forall k s, length (snd (pixel_run factor s x k)) = k.
Proof.
  induction k as [|k IH]; intros s; cbn [pixel_run]; [reflexivity|]. destruct (pixel_step factor s x) as [s1 b].
  specialize (IH s1). destruct (pixel_run factor s1 x k). cbn [snd length] in *. lia.
Qed.
Lemma accumulator_run factor x rest : forall k s,
  accumulator factor s (repeat x k ++ rest) = snd (pixel_run factor s x k) ++ accumulator factor (fst (pixel_run factor s x k)) rest.
Proof.
  induction k as [|k IH]; intros s; cbn [repeat app accumulator pixel_run]; [reflexivity|]. unfold pixel_step at 1 2, f_ge, f_le.
  cbn zeta. fold one_f. destruct (SFleb one_f (f_add s (f_mul factor (f_of_Z (Z.of_N x))))); rewrite IH;
  destruct (pixel_run factor _ x k) as [s2 bs]; reflexivity.
Qed.

Lemma convert_spec limit d active factor states image :
  (active <= ds_spf d)%N -> (ds_spf d < two64)%N -> (ds_spf d * ds_image d <= limit)%N -> (limit < two64)%N ->
  N.of_nat (length image) = ds_image d ->
  states = [] \/ N.of_nat (length states) = ds_image d ->
  let size := N.to_nat (ds_image d) in
  let st0 := match states with [] => repeat (S754_zero false) size | _ => states end in
  exists st' f, convert limit d active factor states image = Ret (st', f) /\
    N.of_nat (length f) = (ds_spf d * ds_image d)%N /\ N.of_nat (length st') = ds_image d /\
    forall l s x, nth_error st0 l = Some s -> nth_error image l = Some x ->
      nth_error st' l = Some (fst (pixel_run factor s x (N.to_nat active))) /\
      pixel_bits size l 0 (N.to_nat active) f = snd (pixel_run factor s x (N.to_nat active)) /\
      pixel_bits size l (N.to_nat active) (N.to_nat (ds_spf d - active)) f = repeat false (N.to_nat (ds_spf d - active)).
Proof.
  intros Ha Hspf Hlim H64 Hi Hst size st0. unfold convert. fold size. fold st0.
  assert (Hst0 : length st0 = size).
  { unfold st0, size. destruct states; [now rewrite repeat_length|]. destruct Hst; [discriminate|]. lia. }
  assert (Himg : length image = size) by (unfold size; lia).
  destruct (active_steps_spec factor (N.to_nat active) size st0 image Hst0 Himg) as (bits & E & Hl & Hb). rewrite E. cbn [obind fst snd].
  assert (Hrest : w64 (sub64 (ds_spf d) active * ds_image d) = ((ds_spf d - active) * ds_image d)%N).
  { unfold sub64, w64. change two64 with 18446744073709551616%N in *. rewrite (N.mod_small active) by lia.
    replace (ds_spf d + (18446744073709551616 - active))%N with (ds_spf d - active + 1 * 18446744073709551616)%N by lia.
    rewrite N.mod_add by lia. rewrite (N.mod_small (ds_spf d - active)) by lia. apply N.mod_small. nia. }
  assert (Hsum : (N.of_nat (length bits) + (ds_spf d - active) * ds_image d = ds_spf d * ds_image d)%N).
  { rewrite Hl. unfold size. rewrite Nat2N.inj_mul, !N2Nat.id. rewrite N.mul_sub_distr_r. assert (active * ds_image d <= ds_spf d * ds_image d)%N by nia. lia. }
  rewrite Hrest. replace (limit <? N.of_nat (length bits) + (ds_spf d - active) * ds_image d)%N with false by lia.
  eexists. eexists. split; [reflexivity|]. split; [rewrite app_length, repeat_length; lia|].
  split; [rewrite map_length, combine_length; lia|]. intros l s x Hs Hx.
  assert (Hls : l < size) by (rewrite <- Hst0; apply nth_error_Some; congruence).
  split; [|split].
  - rewrite nth_error_map.
    assert (Hc : nth_error (combine st0 image) l = Some (s, x)).
    { clear -Hs Hx; clearbody st0. revert image l Hs Hx. induction st0 as [|a st IHs]; intros [|b image] [|l] Hs Hx; try discriminate.
      - injection Hs as ->. injection Hx as ->. reflexivity.
      - cbn. now apply IHs. }
    rewrite Hc. reflexivity.
  - apply nth_error_ext. intros j. unfold pixel_bits. rewrite nth_error_map.
    pose proof (pixel_run_length factor x (N.to_nat active) s) as Hpl.
    destruct (Nat.lt_ge_cases j (N.to_nat active)) as [C|C].
    + rewrite nth_error_nth' with (d := 0) by (now rewrite seq_length). rewrite seq_nth by exact C. cbn [option_map Nat.add].
      rewrite <- (Hb l j s x Hs Hx C). rewrite app_nth1 by (rewrite Hl; nia). symmetry. apply nth_error_nth'. rewrite Hl. nia.
    + assert (E1 : nth_error (seq 0 (N.to_nat active)) j = None) by (apply nth_error_None; rewrite seq_length; lia). rewrite E1. cbn [option_map].
      symmetry. apply nth_error_None. lia.
  - unfold pixel_bits. apply nth_error_ext. intros j. rewrite nth_error_map.
    destruct (Nat.lt_ge_cases j (N.to_nat (ds_spf d - active))) as [C|C].
    + rewrite nth_error_nth' with (d := 0) by (now rewrite seq_length). rewrite seq_nth by exact C. cbn [option_map].
      rewrite nth_error_nth' with (d := false) by (now rewrite repeat_length). rewrite nth_repeat.
      rewrite app_nth2 by (rewrite Hl; nia). rewrite nth_repeat. reflexivity.
    + assert (E1 : nth_error (seq (N.to_nat active) (N.to_nat (ds_spf d - active))) j = None) by (apply nth_error_None; rewrite seq_length; lia). rewrite E1. cbn [option_map].
      symmetry. apply nth_error_None. rewrite repeat_length. lia.
Qed.
Lemma convert_all_spec limit d active factor : (active <= ds_spf d)%N -> (ds_spf d < two64)%N -> (ds_spf d * ds_image d <= limit)%N -> (limit < two64)%N ->
  let size := N.to_nat (ds_image d) in
  forall imgs states, (forall x, In x imgs -> N.of_nat (length x) = ds_image d) -> states = [] \/ N.of_nat (length states) = ds_image d ->
  let st0 := match states with [] => repeat (S754_zero false) size | _ => states end in
  exists fs, convert_all limit d active factor states imgs = Ret fs /\ length fs = length imgs /\
    (forall f, In f fs -> N.of_nat (length f) = (ds_spf d * ds_image d)%N) /\
    forall l s, nth_error st0 l = Some s ->
      flat_map (pixel_bits size l 0 (N.to_nat active)) fs =
        accumulator factor s (flat_map (fun img => repeat (nth l img 0%N) (N.to_nat active)) imgs) /\
      forall f, In f fs -> pixel_bits size l (N.to_nat active) (N.to_nat (ds_spf d - active)) f = repeat false (N.to_nat (ds_spf d - active)).
Proof.
  intros Ha Hspf Hlim H64 size. induction imgs as [|x imgs IH]; intros states Hi Hst st0; cbn [convert_all].
  - exists []. split; [reflexivity|]. split; [reflexivity|]. split; [intros f []|]. intros l s _. split; [reflexivity|intros f []].
  - destruct (convert_spec limit d active factor states x Ha Hspf Hlim H64 (Hi x (or_introl eq_refl)) Hst) as (st' & f & E & Hf & Hst' & Hp).
    rewrite E. cbn [obind fst snd]. destruct (IH st') as (fs & E' & Hl & Hfs & Hq); [intros y Hy; apply Hi; now right|now right|].
    rewrite E'. cbn [obind]. exists (f :: fs). split; [reflexivity|]. split; [cbn; now f_equal|].
    split; [intros g [<-|Hg]; [exact Hf|now apply Hfs]|].
    intros l s Hs. assert (Hls : l < size).
    { assert (L0 : length st0 = size) by (unfold st0, size; destruct states; [now rewrite repeat_length|]; destruct Hst; [discriminate|lia]).
      rewrite <- L0. apply nth_error_Some. congruence. }
    assert (Hx : nth_error x l = Some (nth l x 0%N)) by (apply nth_error_nth'; specialize (Hi x (or_introl eq_refl)); unfold size in Hls; lia).
    destruct (Hp l s (nth l x 0%N) Hs Hx) as (P1 & P2 & P3).
    assert (P1' : nth_error (match st' with [] => repeat (S754_zero false) size | _ => st' end) l = Some (fst (pixel_run factor s (nth l x 0%N) (N.to_nat active)))).
    { destruct st'; [|exact P1]. destruct l; discriminate. }
    destruct (Hq l _ P1') as (Q1 & Q2). split.
    + cbn [flat_map]. fold size in P2. rewrite accumulator_run, P2, Q1. reflexivity.
    + intros g [<-|Hg]; [exact P3|now apply Q2].
Qed.

(** ** Reading *)
Lemma get_line_app str rest : ~ In 10%N str -> get_line (str ++ 10%N :: rest) = Some (str, rest).
Proof.
  induction str as [|c str IH]; intros H; cbn [app get_line]; [reflexivity|].
  destruct (N.eqb_spec c 10) as [->|E]; [exfalso; apply H; now left|]. rewrite IH; [reflexivity|]. intros H'. apply H. now right.
Qed.
Lemma get_line_none l : ~ In 10%N l -> get_line l = None.
Proof.
  induction l as [|c l IH]; intros H; cbn [get_line]; [reflexivity|].
  destruct (N.eqb_spec c 10) as [->|E]; [exfalso; apply H; now left|]. rewrite IH; [reflexivity|]. intros H'. apply H. now right.
Qed.
Lemma st_read_length s n b : length b = n -> length (snd (st_read s n b)) = n.
Proof.
  intros H. unfold st_read. destruct (Nat.leb_spec n (length (st_bytes s))); cbn [snd]; [now apply firstn_length_le|].
  rewrite app_length, skipn_length. lia.
Qed.
(** The records kept: up to the limit, if it is not reached already. *)
Definition kept (have : nat) (max : N) (n : nat) : nat :=
  if (N.of_nat have <? max)%N then Nat.min n (N.to_nat max - have) else n.
Section Reading.
Context {S : Type} (conv : S -> list N -> outcome (S * frame)) (size : nat).
Hypothesis conv_ok : forall s b, length b = size -> exists s' f, conv s b = Ret (s', f).
Lemma read_loop_spec max tail extra : ~ In 10%N tail -> forall strs zs imgs fs s data fuel buffer,
  Forall2 line strs zs -> (forall x, In x imgs -> length x = size) -> length strs <= length imgs ->
  converted conv s (firstn (length strs) imgs) fs -> length buffer = size -> length strs < fuel ->
  exists s', read_loop conv fuel size max (mkStream (concat imgs ++ extra) true) (mkStream (lines strs ++ tail) true) buffer s data =
    (data ++ firstn (kept (length data) max (length strs)) (combine (map label_of zs) fs), Ret s').
Proof.
  intros Ht. induction strs as [|str strs IH]; intros zs imgs fs s data fuel buffer Hl Hi Hle Hc Hb Hf.
  - revert Hb. inversion Hl; subst. intros Hb. destruct fuel as [|fuel]; [cbn in Hf; lia|]. cbn [read_loop st_good st_bytes andb lines flat_map app].
    pose proof (st_read_length (mkStream (concat imgs ++ extra) true) size buffer Hb) as Hr.
    destruct (st_read (mkStream (concat imgs ++ extra) true) size buffer) as [im bu]. cbn [snd] in Hr.
    destruct (conv_ok s bu Hr) as (s' & f & E). rewrite E. rewrite (get_line_none tail Ht). exists s'.
    cbn [map combine]. rewrite firstn_nil, app_nil_r. reflexivity.
  - revert Hb. inversion Hl as [|? z ? zs' [Hn Hz] Hl']; subst. destruct fuel as [|fuel]; [lia|].
    destruct imgs as [|x imgs]; [cbn in Hle; lia|]. cbn [length firstn] in *. inversion Hc as [|? s' ? f ? fs' Ec Hc']; subst. intros Hb.
    cbn [read_loop st_good st_bytes andb concat].
    assert (Hx : length x = size) by (apply Hi; now left).
    assert (Er : st_read (mkStream ((x ++ concat imgs) ++ extra) true) size buffer = (mkStream (concat imgs ++ extra) true, x)).
    { unfold st_read. cbn [st_bytes st_good]. rewrite <- app_assoc.
      replace (Nat.leb size (length (x ++ concat imgs ++ extra))) with true by (symmetry; apply Nat.leb_le; rewrite app_length; lia).
      rewrite <- Hx. rewrite skipn_app, skipn_all, Nat.sub_diag, firstn_app, firstn_all, Nat.sub_diag. cbn [skipn firstn app]. now rewrite app_nil_r. }
    rewrite Er, Ec. cbn [lines flat_map]. rewrite <- !app_assoc. cbn [app]. rewrite (get_line_app str _ Hn). rewrite Hz.
    cbn [map combine]. rewrite app_length. cbn [length].
    destruct (N.eqb_spec (N.of_nat (length data + 1)) max) as [Em|Em].
    + exists s'. unfold kept. replace (N.of_nat (length data) <? max)%N with true by lia.
      replace (Nat.min (Datatypes.S (length strs)) (N.to_nat max - length data)) with 1 by lia. reflexivity.
    + destruct (IH zs' imgs fs' s' (data ++ [(label_of z, f)]) fuel x Hl') as (s'' & E); [intros y Hy; apply Hi; now right|lia|exact Hc'|exact Hx|lia|].
      exists s''. fold (lines strs). rewrite E. f_equal. rewrite <- app_assoc. cbn [app]. f_equal.
      assert (Ek : kept (length data) max (Datatypes.S (length strs)) = Datatypes.S (kept (length (data ++ [(label_of z, f)])) max (length strs))).
      { unfold kept. rewrite app_length. cbn [length]. 
        destruct (N.ltb_spec (N.of_nat (length data)) max); destruct (N.ltb_spec (N.of_nat (length data + 1)) max); lia. }
      rewrite Ek. reflexivity.
Qed.
End Reading.
