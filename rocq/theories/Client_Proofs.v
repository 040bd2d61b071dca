(** Proofs about the MNIST client. *)
From Verif Require Import Base FloatReal Metrics_Proofs Normalize_Proofs Quant_Proofs Resource_Proofs Client_Model Client_Spec.
From Coq Require Import Reals Psatz.
From Flocq Require Import Core IEEE754.BinarySingleNaN Relative.
Local Instance P24 : Prec_gt_0 24 := eq_refl.
Local Instance E128 : Prec_lt_emax 24 128 := eq_refl.
Local Instance P53 : Prec_gt_0 53 := eq_refl.
Local Instance E1024 : Prec_lt_emax 53 1024 := eq_refl.
Open Scope R_scope.

Lemma d_of_int z : (0 <= z < 2 ^ 31)%Z -> fin64 (d_of_Z z) /\ val (d_of_Z z) = IZR z.
Proof.
  intros Hz. pose proof (of_Z_real 53 1024 P53 E1024 z) as C. cbn zeta in C.
  assert (Rz : rd (IZR z) = IZR z).
  { apply round_generic; [apply valid_rnd_round_mode|]. change (SpecFloat.fexp 53 1024) with (FLT_exp (-1074) 53).
    apply generic_format_FLT. exists (Float radix2 z 0); cbn [Fnum Fexp]; [unfold F2R; cbn; ring| |lia]. change (Zpower radix2 53) with (2 ^ 53)%Z. change (2^53)%Z with 9007199254740992%Z. change (2^31)%Z with 2147483648%Z in Hz. lia. }
  rewrite Rz in C. destruct C as [C1 C2]; [|destruct z; split; assumption].
  unfold bounded_R. rewrite Rabs_pos_eq by (apply IZR_le; lia). apply Rlt_trans with (IZR (2 ^ 31)); [apply IZR_lt; lia|]. change (2 ^ 31)%Z with (Zpower radix2 31). rewrite IZR_Zpower by lia. apply bpow_lt. lia.
Qed.
Lemma tiny1000 : 0 < bpow radix2 (-1000) <= / 1000000000000000.
Proof. split; [apply bpow_gt_0|]. apply Rle_trans with (bpow radix2 (-60)); [apply bpow_le; lia|]. change (bpow radix2 (-60)) with (/ 1152921504606846976). lra. Qed.
Lemma bpow53 : bpow radix2 (-53) = / 9007199254740992.
Proof. reflexivity. Qed.

Section Pixel.
Variables (L k : nat) (b : N).
Hypothesis HL : (1 <= L)%nat.
Hypothesis HL2 : (Z.of_nat L < 2 ^ 31)%Z.
Hypothesis Hk : (k < L)%nat.
Hypothesis Hb : (b < 256)%N.
Let x := 256 * IZR (Z.of_nat (k + 1)) / IZR (Z.of_nat L).

Lemma threshold_near : fin64 (d_mul (delta L) (d_of_Z (Z.of_nat (k + 1)))) /\ Rabs (val (d_mul (delta L) (d_of_Z (Z.of_nat (k + 1)))) - x) <= / 8000000000000.
Proof.
  assert (B31 : (2 ^ 31 = 2147483648)%Z) by reflexivity.
  destruct (d_of_int 256 ltac:(lia)) as [A1 A2], (d_of_int (Z.of_nat L) ltac:(lia)) as [L1 L2], (d_of_int (Z.of_nat (k + 1)) ltac:(lia)) as [K1 K2].
  assert (PL : 1 <= IZR (Z.of_nat L)) by (apply IZR_le; lia).
  assert (PK : 0 <= IZR (Z.of_nat (k + 1)) <= IZR (Z.of_nat L)) by (split; apply IZR_le; lia).
  assert (BL : IZR (Z.of_nat L) <= 2147483648) by (apply IZR_le; lia).
  set (l := IZR (Z.of_nat L)) in *. set (c := IZR (Z.of_nat (k + 1))) in *.
  assert (I : 0 < / l <= 1). { split; [apply Rinv_0_lt_compat; lra|]. rewrite <- Rinv_1. apply Rinv_le; lra. }
  destruct (div_real 53 1024 P53 E1024 _ _ A1 L1) as [D1 D2]; [rewrite L2; lra|rewrite A2, L2; apply bounded8d, Rabs_le; unfold Rdiv; lra|].
  change (SFdiv 53 1024 (d_of_Z 256) (d_of_Z (Z.of_nat L))) with (delta L) in *. rewrite A2, L2 in D2.
  destruct (err64 (256 / l)) as (e & n & Ee & En & Er). rewrite Er in D2. rewrite bpow53 in Ee. pose proof tiny1000 as T.
  apply Rabs_le_inv in Ee. apply Rabs_le_inv in En.
  assert (Ql : 0 <= c * / l <= 1). { split; [apply Rmult_le_pos; lra|]. apply Rmult_le_reg_r with l; [lra|]. rewrite Rmult_assoc, Rinv_l by lra. lra. }
  assert (N1 : Rabs (n * c) <= / 100000000000000 * / 100000000000). {
    assert (N0 : Rabs (n * c) <= bpow radix2 (-1000) * 2147483648). { rewrite Rabs_mult. apply Rmult_le_compat; try apply Rabs_pos; apply Rabs_le; lra. }
    eapply Rle_trans; [exact N0|]. apply Rle_trans with (bpow radix2 (-200) * 2147483648); [apply Rmult_le_compat_r; [lra|apply bpow_le; lia]|].
    apply Rle_trans with (bpow radix2 (-200) * bpow radix2 31); [apply Rmult_le_compat_l; [apply bpow_ge_0|change (bpow radix2 31) with 2147483648; lra]|].
    rewrite <- bpow_plus. apply Rle_trans with (bpow radix2 (-100)); [apply bpow_le; lia|]. change (bpow radix2 (-100)) with (/ 1267650600228229401496703205376). lra. }
  apply Rabs_le_inv in N1.
  assert (Ex : val (delta L) * c = x * (1 + e) + n * c). { rewrite D2. unfold x. fold l c. unfold Rdiv. ring. }
  assert (Bx : 0 <= x <= 256). { unfold x. fold l c. unfold Rdiv. replace (256 * c * / l) with (256 * (c * / l)) by ring. lra. }
  assert (P1 : - (256 * / 9007199254740992) <= x * e <= 256 * / 9007199254740992) by (apply prod_bound; lra).
  destruct (mul_real 53 1024 P53 E1024 _ _ D1 K1) as [M1 M2]; [rewrite K2; fold c; rewrite Ex; apply bounded8d, Rabs_le; lra|].
  unfold d_mul. split; [exact M1|]. rewrite M2, K2. fold c. rewrite Ex.
  destruct (err64 (x * (1 + e) + n * c)) as (e2 & n2 & Ee2 & En2 & Er2). rewrite Er2. rewrite bpow53 in Ee2. apply Rabs_le_inv in Ee2. apply Rabs_le_inv in En2.
  assert (P2 : - (257 * / 9007199254740992) <= (x * (1 + e) + n * c) * e2 <= 257 * / 9007199254740992) by (apply prod_bound; lra).
  apply Rabs_le. lra.
Qed.
Lemma lit_real : lit L k b = Rle_bool (val (d_mul (delta L) (d_of_Z (Z.of_nat (k + 1))))) (IZR (Z.of_N b)).
Proof.
  destruct (d_of_int (Z.of_N b)) as [B1 B2]; [change (2 ^ 31)%Z with 2147483648%Z; lia|]. unfold lit.
  rewrite (le_real 53 1024 _ _ (proj1 threshold_near) B1). now rewrite B2.
Qed.
Lemma apart (z : Z) : (1 <= z)%Z -> / 2147483648 <= IZR z / IZR (Z.of_nat L).
Proof.
  intros Hz. assert (PL : 1 <= IZR (Z.of_nat L) <= 2147483648) by (split; apply IZR_le; change (2 ^ 31)%Z with 2147483648%Z in HL2; lia).
  assert (1 <= IZR z) by (apply IZR_le; lia). assert (I : / 2147483648 <= / IZR (Z.of_nat L)) by (apply Rinv_le; lra).
  unfold Rdiv. apply Rle_trans with (1 * / IZR (Z.of_nat L)); [lra|]. apply Rmult_le_compat_r; lra.
Qed.
Lemma lit_over : (256 * N.of_nat (k + 1) < b * N.of_nat L)%N -> lit L k b = true.
Proof.
  intros H. rewrite lit_real. apply Rle_bool_true. destruct threshold_near as [_ T]. apply Rabs_le_inv in T.
  assert (PL : 0 < IZR (Z.of_nat L)) by (apply IZR_lt; lia).
  pose proof (apart (Z.of_N b * Z.of_nat L - 256 * Z.of_nat (k + 1)) ltac:(lia)) as A. rewrite minus_IZR, !mult_IZR in A.
  assert (E : (IZR (Z.of_N b) * IZR (Z.of_nat L) - 256 * IZR (Z.of_nat (k + 1))) / IZR (Z.of_nat L) = IZR (Z.of_N b) - x) by (unfold x; field; lra).
  rewrite E in A. lra.
Qed.
Lemma lit_under : (b * N.of_nat L < 256 * N.of_nat (k + 1))%N -> lit L k b = false.
Proof.
  intros H. rewrite lit_real. apply Rle_bool_false. destruct threshold_near as [_ T]. apply Rabs_le_inv in T.
  assert (PL : 0 < IZR (Z.of_nat L)) by (apply IZR_lt; lia).
  pose proof (apart (256 * Z.of_nat (k + 1) - Z.of_N b * Z.of_nat L) ltac:(lia)) as A. rewrite minus_IZR, !mult_IZR in A.
  assert (E : (256 * IZR (Z.of_nat (k + 1)) - IZR (Z.of_N b) * IZR (Z.of_nat L)) / IZR (Z.of_nat L) = x - IZR (Z.of_N b)) by (unfold x; field; lra).
  rewrite E in A. lra.
Qed.
End Pixel.

(** Equality: all the levels below 364. *)
Open Scope nat_scope.
Definition even_case (L : nat) (b : nat) : bool :=
  let p := (N.of_nat b * N.of_nat L)%N in
  if (p mod 256 =? 0)%N then match N.to_nat (p / 256) with O => true | S k => lit L k (N.of_nat b) end else true.
Lemma even_cases : forallb (fun L => forallb (even_case L) (seq 0 256)) (seq 1 363) = true.
Proof. vm_compute. reflexivity. Qed.
Lemma lit_even L k b : 1 <= L -> L <= 363 -> (b < 256)%N -> (b * N.of_nat L = 256 * N.of_nat (k + 1))%N -> lit L k b = true.
Proof.
  intros H1 H2 Hb E. pose proof even_cases as A. rewrite forallb_forall in A. specialize (A L ltac:(apply in_seq; lia)).
  rewrite forallb_forall in A. specialize (A (N.to_nat b) ltac:(apply in_seq; lia)). unfold even_case in A. rewrite N2Nat.id in A. rewrite E in A.
  replace (256 * N.of_nat (k + 1))%N with (N.of_nat (k + 1) * 256)%N in A by lia. rewrite N.mod_mul, N.div_mul in A by lia. cbn [N.eqb] in A.
  rewrite Nat2N.id in A. now replace (k + 1) with (S k) in A by lia.
Qed.
Lemma lit_bright L k b : 1 <= L -> L <= 363 -> k < L -> (b < 256)%N -> lit L k b = bright L k b.
Proof.
  intros H1 H2 Hk Hb. unfold bright. replace (Nat.ltb k L) with true by (symmetry; now apply Nat.ltb_lt). cbn [andb].
  assert (HL2 : (Z.of_nat L < 2 ^ 31)%Z) by (change (2 ^ 31)%Z with 2147483648%Z; lia).
  destruct (N.compare_spec (256 * N.of_nat (k + 1)) (b * N.of_nat L)) as [E|E|E].
  - rewrite lit_even by (auto; lia). symmetry. apply N.leb_le. lia.
  - rewrite lit_over by (auto; lia). symmetry. apply N.leb_le. lia.
  - rewrite lit_under by (auto; lia). symmetry. apply N.leb_gt. lia.
Qed.

(** Images. *)
Lemma nth_map_seq {A} (f : nat -> A) n p d : p < n -> nth p (map f (seq 0 n)) d = f p.
Proof. intros H. rewrite nth_indep with (d' := f 0) by now rewrite map_length, seq_length. rewrite map_nth, seq_nth by exact H. reflexivity. Qed.
Lemma read_ok size : 0 < size -> forall fuel bytes, length bytes < fuel ->
  exists l, read_loop fuel size bytes = Some l /\ length l = length bytes / size + 1 /\
    forall i, i < length l -> nth i l [] = map (pixel bytes size i) (seq 0 size).
Proof.
  intros Hs. induction fuel as [|fuel IH]; intros bytes Hf; [lia|]. cbn [read_loop]. destruct (Nat.ltb_spec (length bytes) size) as [A|A].
  - exists [bytes ++ repeat 0%N (size - length bytes)]. split; [reflexivity|]. rewrite Nat.div_small by exact A. split; [reflexivity|].
    intros [|i] Hi; [|cbn in Hi; lia]. cbn [nth]. apply nth_ext with 0%N 0%N; [rewrite app_length, repeat_length, map_length, seq_length; lia|].
    intros p Hp. rewrite app_length, repeat_length in Hp. rewrite nth_map_seq by lia. unfold pixel. cbn [Nat.mul Nat.add].
    destruct (Nat.lt_ge_cases p (length bytes)) as [B|B]; [now rewrite app_nth1|]. rewrite app_nth2, nth_repeat by exact B. symmetry. now apply nth_overflow.
  - destruct (IH (skipn size bytes)) as (l & E1 & E2 & E3); [rewrite skipn_length; lia|]. rewrite E1.
    exists (firstn size bytes :: l). split; [reflexivity|]. split.
    + cbn [length]. rewrite E2, skipn_length. replace (length bytes) with (length bytes - size + 1 * size) at 2 by lia. rewrite Nat.div_add by lia. lia.
    + intros [|i] Hi.
      * cbn [nth]. apply nth_ext with 0%N 0%N; [rewrite firstn_length, map_length, seq_length; lia|]. intros p Hp. rewrite firstn_length in Hp.
        rewrite nth_map_seq by lia. unfold pixel. cbn [Nat.mul Nat.add]. rewrite <- (firstn_skipn size bytes) at 2. rewrite app_nth1; [reflexivity|]. rewrite firstn_length. lia.
      * cbn [nth]. cbn [length] in Hi. rewrite E3 by lia. apply map_ext. intros p. unfold pixel. rewrite <- (firstn_skipn size bytes) at 2.
        rewrite app_nth2; rewrite firstn_length; [|rewrite Nat.min_l by lia; cbn [Nat.mul]; lia]. rewrite Nat.min_l by lia. f_equal. cbn [Nat.mul]. lia.
Qed.
(** A file that never ends the loop. *)
Lemma read_none fuel : forall bytes, read_loop fuel 0 bytes = None.
Proof. induction fuel as [|f IH]; intros bytes; [reflexivity|]. cbn [read_loop Nat.ltb Nat.leb skipn]. now rewrite IH. Qed.

(** Frames. *)
Lemma frames_len im L F : length (image_to_spikes im L F) = F.
Proof. unfold image_to_spikes. now rewrite map_length, seq_length. Qed.
Lemma frame_at im L F k : k < F -> nth_error (image_to_spikes im L F) k = Some (if Nat.ltb k L then map (lit L k) im else []).
Proof.
  intros H. unfold image_to_spikes. rewrite nth_error_map. replace (nth_error (seq 0 F) k) with (Some k).
  - cbn [option_map]. f_equal. destruct (Nat.ltb_spec k L), (Nat.ltb_spec k (Nat.min F L)); try reflexivity; lia.
  - symmetry. rewrite (nth_error_nth' _ 0) by now rewrite seq_length. now rewrite seq_nth.
Qed.
Lemma flat_len {A B} (f : A -> list B) F l : (forall x, length (f x) = F) -> length (flat_map f l) = F * length l.
Proof. intros H. induction l as [|x t IH]; cbn [flat_map length]; [lia|]. rewrite app_length, H, IH. lia. Qed.
Lemma flat_nth {A B} (f : A -> list B) F d : (forall x, length (f x) = F) -> 0 < F -> forall l s, s < F * length l ->
  nth_error (flat_map f l) s = nth_error (f (nth (s / F) l d)) (s mod F).
Proof.
  intros H HF. induction l as [|x t IH]; intros s Hs; cbn [length] in Hs; [lia|]. cbn [flat_map]. destruct (Nat.lt_ge_cases s F) as [C|C].
  - rewrite Nat.div_small, Nat.mod_small by exact C. cbn [nth]. apply nth_error_app1. now rewrite H.
  - rewrite nth_error_app2 by (rewrite H; exact C). rewrite H, IH by lia. replace s with (s - F + 1 * F) at 3 4 by lia. rewrite Nat.div_add, Nat.mod_add by lia.
    replace ((s - F) / F + 1) with (S ((s - F) / F)) by lia. reflexivity.
Qed.
Lemma indexes_map (g : nat -> bool) n : forall i, (N.of_nat (i + n) <= two32)%N -> indexes (N.of_nat i) (map g (seq i n)) = map N.of_nat (filter g (seq i n)).
Proof.
  induction n as [|n IH]; intros i Hi; [reflexivity|]. cbn [seq map indexes filter]. replace (N.of_nat i + 1)%N with (N.of_nat (S i)) by lia. rewrite IH by (rewrite <- Nat.add_succ_comm in Hi; exact Hi).
  destruct (g i); [|reflexivity]. cbn [map]. f_equal. unfold w32. apply N.mod_small. lia.
Qed.
Lemma nth_skipn {A} (l : list A) s i d : nth i (skipn s l) d = nth (s + i) l d.
Proof. revert l; induction s as [|s IH]; intros [|x t]; cbn; try reflexivity; [now destruct i|apply IH]. Qed.

Lemma filter_false {A} (l : list A) : filter (fun _ => false) l = [].
Proof. induction l as [|y t IH]; [reflexivity|exact IH]. Qed.
Lemma filter_true {A} (l : list A) : filter (fun _ => true) l = l.
Proof. induction l as [|y t IH]; cbn; [|rewrite IH]; reflexivity. Qed.
Lemma input_ok fuel size F L skip bytes step : 0 < size -> (N.of_nat size <= two32)%N -> 0 < F -> 1 <= L -> L <= 363 -> Forall (fun b => (b < 256)%N) bytes -> length bytes < fuel ->
  let n := length bytes / size + 1 - skip in
  exists frames, read_spikes fuel size F L skip (Some bytes) = Some frames /\ length frames = F * n /\
    ((N.of_nat (F * n) < two64)%N -> generate frames 0 (N.of_nat step) = Ret (if Nat.ltb step (F * n) then shown bytes size L (skip + step / F) (step mod F) else [])).
Proof.
  intros Hs Hs2 HF H1 H2 Hb Hf n. destruct (read_ok size Hs fuel bytes Hf) as (l & E1 & E2 & E3). unfold read_spikes, read_images. rewrite E1.
  eexists. split; [reflexivity|]. set (fs := flat_map _ _). assert (Lf : length fs = F * n) by (unfold fs; rewrite flat_len with (F := F) by (intros; apply frames_len); rewrite skipn_length, E2; reflexivity).
  split; [exact Lf|]. intros H64. unfold generate. rewrite Lf. destruct (Nat.ltb_spec step (F * n)) as [A|A].
  - replace (N.of_nat (F * n) <=? N.of_nat step)%N with false by (symmetry; apply N.leb_gt; lia). unfold add64, w64. rewrite N.add_0_r, N.mod_small by lia. rewrite Nat2N.id. unfold fs.
    assert (S1 : step / F < n) by (apply Nat.div_lt_upper_bound; lia).
    rewrite (flat_nth _ F []); [|intros; apply frames_len|exact HF|rewrite skipn_length, E2; exact A]. rewrite frame_at by (apply Nat.mod_upper_bound; lia).
    rewrite nth_skipn, E3 by (rewrite E2; unfold n in S1; lia). f_equal. unfold shown. destruct (Nat.ltb_spec (step mod F) L) as [B|B].
    + rewrite map_map. rewrite (map_ext_in _ (fun p => bright L (step mod F) (pixel bytes size (skip + step / F) p))).
      * apply (indexes_map _ size 0). exact Hs2.
      * intros p _. apply lit_bright; try assumption. unfold pixel. destruct (Nat.lt_ge_cases ((skip + step / F) * size + p) (length bytes)) as [C|C]; [|now rewrite nth_overflow].
        rewrite Forall_forall in Hb. apply Hb. now apply nth_In.
    + cbn [indexes]. symmetry. replace (filter _ _) with (@nil nat); [reflexivity|]. symmetry. rewrite (filter_ext_in _ (fun _ => false)); [exact (filter_false _)|]. intros p _. unfold bright.
      now replace (Nat.ltb (step mod F) L) with false by (symmetry; now apply Nat.ltb_ge).
  - replace (N.of_nat (F * n) <=? N.of_nat step)%N with true by (symmetry; apply N.leb_le; lia). reflexivity.
Qed.

(** How often a pixel is lit. *)
Lemma bright_count L F b : 1 <= L -> L <= F -> (b < 256)%N -> length (filter (fun k => bright L k b) (seq 0 F)) = N.to_nat (b * N.of_nat L / 256).
Proof.
  intros H1 H2 Hb. set (m := N.to_nat (b * N.of_nat L / 256)). assert (Hm : m < L).
  { unfold m. assert ((b * N.of_nat L / 256 < N.of_nat L)%N) by (apply N.div_lt_upper_bound; nia). lia. }
  replace F with (m + (F - m)) by lia. rewrite seq_app, filter_app, app_length.
  assert (A : forall k, bright L k b = true <-> k < m).
  { intros k. unfold bright. rewrite andb_true_iff, Nat.ltb_lt, N.leb_le. split.
    - intros [_ K]. unfold m. assert ((N.of_nat (k + 1) <= b * N.of_nat L / 256)%N) by (apply N.div_le_lower_bound; lia). lia.
    - intros K. split; [lia|]. pose proof (N.mul_div_le (b * N.of_nat L) 256 ltac:(lia)). assert ((N.of_nat (k + 1) <= b * N.of_nat L / 256)%N) by (unfold m in K; lia). nia. }
  rewrite (filter_ext_in _ (fun _ => true) (seq 0 m)) by (intros k K; apply in_seq in K; apply A; lia).
  rewrite (filter_ext_in _ (fun _ => false) (seq (0 + m) _)).
  - rewrite filter_true, filter_false, seq_length. cbn. lia.
  - intros k K. apply in_seq in K. destruct (bright L k b) eqn:E; [|reflexivity]. apply A in E. lia.
Qed.

(** The observer. *)
Lemma observe_app ms r : observe ms r = r ++ observe ms [].
Proof. destruct ms as [|[t [|x l]] ms]; cbn; now rewrite ?app_nil_r. Qed.
Lemma observed steps : Forall (fun ms => length ms <= 1) steps -> observe_all steps = spiking steps.
Proof.
  intros H. assert (G : forall r, fold_left (fun r ms => observe ms r) steps r = r ++ spiking steps); [|exact (G [])].
  induction steps as [|ms t IH]; intros r; [cbn; now rewrite app_nil_r|]. apply Forall_cons_iff in H as [H1 H2]. cbn [fold_left]. rewrite IH by exact H2. rewrite observe_app, <- app_assoc. f_equal.
  unfold spiking. cbn [concat]. rewrite filter_app. f_equal. destruct ms as [|[s [|x l]] [|]]; cbn in *; try reflexivity; lia.
Qed.
