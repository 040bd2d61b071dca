(** Model of one step of the LIF, BLIFAT and AltAI neurons, and of the step of a
    population.  All paths are relative to /repo/knp/backends/cpu/cpu-library/
    include/knp/backends/cpu-library/ and /repo/knp/neuron-traits-library/include/
    knp/neuron-traits/. *)
From Verif Require Import Base Messaging_Model.

(** A [float] value used as a [double]. *)
Definition d_of_f (x : flt) : flt :=
  match x with
  | S754_finite s m e => binary_normalize 53 1024 (if s then Zneg m else Zpos m) e s
  | _ => x
  end.
Definition f_neg (x : flt) : flt := SFopp x.
(** [std::round]: to the nearest integer, halves away from zero. *)
Definition f_round (x : flt) : flt :=
  match x with
  | S754_finite s m (Zneg p) =>
      let q := ((2 * Zpos m + 2 ^ Zpos p) / (2 * 2 ^ Zpos p))%Z in
      match q with
      | Zpos n => binary_normalize 24 128 (if s then Zneg n else Zpos n) 0 s
      | _ => S754_zero s
      end
  | _ => x
  end.

(** ** LIF *)
(** lif.h:61-98: parameters that a step does not change, and those it does. *)
Record lif_par := mkLifPar { lp_reset : flt; lp_thr : flt; lp_leak : flt; lp_period : N (* uint32_t *) }.
Record lif := mkLif { l_pot : flt; l_cnt : N (* uint32_t *) }.
(** impl/populations/lif/lif_impl.h:33-40. *)
Definition lif_pre (p : lif_par) (n : lif) : lif :=
  if N.eqb (l_cnt n) 0 then mkLif (f_mul (l_pot n) (lp_leak p)) (l_cnt n) else n.
(** lif_impl.h:43-66. *)
Definition lif_impact (n : lif) (i : impact) : outcome lif :=
  match i_type i with
  | EXCITATORY => Ret (if N.eqb (l_cnt n) 0 then mkLif (f_add (l_pot n) (i_value i)) (l_cnt n) else n)
  | INHIBITORY_CURRENT => Ret (if N.eqb (l_cnt n) 0 then mkLif (f_sub (l_pot n) (i_value i)) (l_cnt n) else n)
  | _ => Throw
  end.
(** lif_impl.h:69-86. *)
Definition lif_post (p : lif_par) (n : lif) : lif * bool :=
  if N.eqb (l_cnt n) 0 then
    if f_gt (l_pot n) (lp_thr p) then (mkLif (lp_reset p) (lp_period p), true) else (n, false)
  else (mkLif (l_pot n) (l_cnt n - 1), false).

(** ** BLIFAT *)
(** blifat.h:208-343; [double] except where noted.  [is_being_forced_] of the
    STDP variant is read by training only and left out; stochastic stimulation is
    not used by the backends. *)
Record bl_par := mkBlPar {
  bp_thr : flt; bp_add : flt; bp_thr_decay : flt; bp_thr_inc : flt;
  bp_trace_decay : flt; bp_trace_inc : flt; bp_inh_decay : flt;
  bp_pot_decay : flt; bp_burst : N (* unsigned *); bp_reflex : flt; bp_rev : flt;
  bp_refract : N (* unsigned *); bp_reset : flt; bp_min : flt }.
Record bl := mkBl {
  b_since : N (* size_t *); b_dyn : flt; b_trace : flt; b_inh : flt;
  b_pot : flt; b_pre : flt; b_phase : N (* unsigned *); b_block : Z (* int64_t *); b_dopa : flt }.
(** Default values, blifat.h:45-201. *)
Definition d_zero : flt := S754_zero false.
Definition d_one : flt := d_of_Z 1.
Definition bl_default_par : bl_par :=
  mkBlPar d_one d_zero d_zero d_zero d_zero d_zero d_zero d_zero 0 d_zero
          (d_div (d_of_Z (-3)) (d_of_Z 10)) 0 d_zero (d_of_Z (-1000000000)).
Definition bl_default : bl := mkBl (two64 - 1) d_zero d_zero d_zero d_zero d_zero 0 int64_max d_zero.

(** impl/populations/blifat/blifat_impl.h:31-47; with [stdp] the overload
    50-65 for the STDP variant. *)
Definition bl_prestep (stdp : bool) (p : bl_par) (n : bl) : bl :=
  let pot := d_mul (b_pot n) (bp_pot_decay p) in
  let '(phase, pot) := if N.eqb (b_phase n) 1
                       then (if stdp then b_phase n else (b_phase n - 1)%N, d_add pot (bp_reflex p))
                       else (b_phase n, pot) in
  mkBl (add64 (b_since n) 1) (d_mul (b_dyn n) (bp_thr_decay p)) (d_mul (b_trace n) (bp_trace_decay p))
       (d_mul (b_inh n) (bp_inh_decay p)) pot pot phase (b_block n) (if stdp then d_zero else b_dopa n).
(** blifat_impl.h:68-107; the cast of a blocking value outside of the range of
    [int64_t] is undefined. *)
Definition bl_impact (n : bl) (i : impact) : outcome bl :=
  let v := d_of_f (i_value i) in
  match i_type i with
  | EXCITATORY => Ret (mkBl (b_since n) (b_dyn n) (b_trace n) (b_inh n) (d_add (b_pot n) v) (b_pre n) (b_phase n) (b_block n) (b_dopa n))
  | INHIBITORY_CURRENT => Ret (mkBl (b_since n) (b_dyn n) (b_trace n) (b_inh n) (d_sub (b_pot n) v) (b_pre n) (b_phase n) (b_block n) (b_dopa n))
  | INHIBITORY_CONDUCTANCE => Ret (mkBl (b_since n) (b_dyn n) (b_trace n) (d_add (b_inh n) v) (b_pot n) (b_pre n) (b_phase n) (b_block n) (b_dopa n))
  | DOPAMINE => Ret (mkBl (b_since n) (b_dyn n) (b_trace n) (b_inh n) (b_pot n) (b_pre n) (b_phase n) (b_block n) (d_add (b_dopa n) v))
  | BLOCKING => obind (to_int64 (i_value i)) (fun z =>
                  Ret (mkBl (b_since n) (b_dyn n) (b_trace n) (b_inh n) (b_pot n) (b_pre n) (b_phase n) z (b_dopa n)))
  end.
(** blifat_impl.h:129-140: the blocking counter. *)
Definition bl_next_block (z : Z) : Z :=
  if (z <? 0)%Z then (if (z + 1 =? 0)%Z then int64_max else z + 1)%Z
  else if (z >? 0)%Z then (z - 1)%Z else z.
(** blifat_impl.h:110-116. *)
Definition bl_fires (p : bl_par) (n : bl) : bool :=
  (bp_refract p <? b_since n)%N && f_ge (b_pot n) (d_add (d_add (bp_thr p) (b_dyn n)) (bp_add p)).
(** blifat_impl.h:119-168. *)
Definition bl_post (p : bl_par) (n : bl) : bl * bool :=
  let pot := if (b_block n <=? 0)%Z then b_pre n else b_pot n in
  let pot := if f_lt (b_inh n) d_one
             then d_sub pot (d_mul (d_sub pot (bp_rev p)) (b_inh n))
             else bp_rev p in
  let n1 := mkBl (b_since n) (b_dyn n) (b_trace n) (b_inh n) pot (b_pre n) (b_phase n) (bl_next_block (b_block n)) (b_dopa n) in
  let spike := bl_fires p n1 in
  let n2 := if spike
            then mkBl 0 (d_add (b_dyn n1) (bp_thr_inc p)) (d_add (b_trace n1) (bp_trace_inc p)) (b_inh n1)
                      (bp_reset p) (b_pre n1) (bp_burst p) (b_block n1) (b_dopa n1)
            else n1 in
  let n3 := if f_lt (b_pot n2) (bp_min p)
            then mkBl (b_since n2) (b_dyn n2) (b_trace n2) (b_inh n2) (bp_min p) (b_pre n2) (b_phase n2) (b_block n2) (b_dopa n2)
            else n2 in
  (n3, spike).

(** ** AltAI *)
(** altai_lif.h:164-...; thresholds are 16-bit integers, the additional
    threshold and dopamine are [double], the potential is [float]. *)
Record al_par := mkAlPar {
  ap_diff : bool; ap_reset : bool; ap_rev : bool; ap_sat : bool; ap_nosave : bool;
  ap_thr : N; ap_neg : N; ap_leak : Z; ap_resetv : N; ap_add : flt }.
Record al := mkAl { a_pot : flt; a_pre : flt; a_time : Z (* int64_t *); a_dopa : flt }.
(** altai_lif.h:50-157. *)
Definition al_default_par : al_par := mkAlPar false true true true false 1 30000 0 0 d_zero.
Definition al_default : al := mkAl (S754_zero false) (S754_zero false) 0 d_zero.

(** impl/populations/altai/altai_impl.h:33-53. *)
Definition al_prestep (stdp : bool) (p : al_par) (n : al) : al :=
  let pot := if ap_nosave p then f_of_Z (Z.of_N (ap_resetv p)) else f_round (a_pot n) in
  mkAl pot pot (a_time n) (if stdp then d_zero else a_dopa n).
(** altai_impl.h:56-83; [std::abs] of the least [int64_t] and the cast of an
    out-of-range value are undefined; the comparison with the [int64_t] is made
    in [float]. *)
Definition al_impact (n : al) (i : impact) : outcome al :=
  match i_type i with
  | EXCITATORY => Ret (mkAl (f_add (a_pot n) (i_value i)) (a_pre n) (a_time n) (a_dopa n))
  | INHIBITORY_CURRENT => Ret (mkAl (f_sub (a_pot n) (i_value i)) (a_pre n) (a_time n) (a_dopa n))
  | DOPAMINE => Ret (mkAl (a_pot n) (a_pre n) (a_time n) (d_add (a_dopa n) (d_of_f (i_value i))))
  | BLOCKING =>
      let assign := obind (to_int64 (i_value i)) (fun z => Ret (mkAl (a_pot n) (a_pre n) z (a_dopa n))) in
      if xorb (a_time n <? 0)%Z (sign_bit (i_value i)) then assign
      else if (a_time n =? int64_min)%Z then UB
      else if f_le (f_of_Z (Z.abs (a_time n))) (SFabs (i_value i)) then assign
      else Ret n
  | INHIBITORY_CONDUCTANCE => Throw
  end.
(** altai_impl.h:107-120. *)
Definition al_next_time (t : Z) : Z :=
  let t := if (t >? 0)%Z then (t - 1)%Z else if (t <? 0)%Z then (t + 1)%Z else t in
  if (t =? 0)%Z then int64_max else t.
(** altai_impl.h:123: the threshold, in [double]. *)
Definition al_threshold (p : al_par) : flt := d_add (d_of_Z (Z.of_N (ap_thr p))) (ap_add p).
Definition al_floor (p : al_par) : flt := f_neg (f_of_Z (Z.of_N (ap_neg p))).
(** altai_impl.h:103-104: the leak. *)
Definition al_leak (p : al_par) (pot : flt) : flt :=
  f_add pot (f_of_Z (ap_leak p * (if ap_rev p && f_lt pot (S754_zero false) then -1 else 1))).
(** altai_impl.h:99-151. *)
Definition al_post (p : al_par) (n : al) : al * bool :=
  let pot := al_leak p (a_pot n) in
  let time := al_next_time (a_time n) in
  let over := f_ge (d_of_f pot) (al_threshold p) in
  let spiked := over && (time >? 0)%Z in
  let pot1 := if over then
                let q := if ap_diff p then f_of_d (d_sub (d_of_f pot) (al_threshold p)) else pot in
                if ap_reset p then f_of_Z (Z.of_N (ap_resetv p)) else q
              else pot in
  let was_reset := over && ap_reset p in
  let pot2 := if f_le pot1 (al_floor p) && negb was_reset then
                if ap_sat p then al_floor p
                else if ap_reset p then f_of_Z (- Z.of_N (ap_resetv p))
                else if ap_diff p then f_add pot1 (f_of_Z (Z.of_N (ap_neg p)))
                else pot1
              else pot1 in
  (mkAl pot2 (a_pre n) time (a_dopa n), spiked).

(** ** Steps of one neuron and of a population *)
Section Step.
Context {A : Type}.
(** A neuron kind: what a step does before the impacts, for an impact, after the
    impacts. *)
Variables (pre : A -> A) (imp : A -> impact -> outcome A) (post : A -> A * bool).

Fixpoint impacts (n : A) (l : list impact) : outcome A :=
  match l with
  | [] => Ret n
  | i :: t => obind (imp n i) (fun n' => impacts n' t)
  end.
(** The three phases for one neuron. *)
Definition neuron_step (n : A) (l : list impact) : outcome (A * bool) :=
  obind (impacts (pre n) l) (fun n' => Ret (post n')).
(** Several steps, with the impacts of each. *)
Fixpoint neuron_run (n : A) (ls : list (list impact)) : outcome (A * list bool) :=
  match ls with
  | [] => Ret (n, [])
  | l :: t => obind (neuron_step n l) (fun r => obind (neuron_run (fst r) t) (fun r' =>
                Ret (fst r', snd r :: snd r')))
  end.

(** [population[i]]: no bounds check. *)
Fixpoint update_at (i : nat) (f : A -> outcome A) (l : list A) : outcome (list A) :=
  match l, i with
  | [], _ => UB
  | x :: t, 0 => obind (f x) (fun x' => Ret (x' :: t))
  | x :: t, S i' => obind (update_at i' f t) (fun t' => Ret (x :: t'))
  end.
(** [impact_population], populations.h:73-85. *)
Fixpoint impact_population (l : list impact) (neurons : list A) : outcome (list A) :=
  match l with
  | [] => Ret neurons
  | i :: t => obind (update_at (N.to_nat (i_post i)) (fun n => imp n i) neurons) (impact_population t)
  end.
(** [calculate_pre_impact_population_state] and
    [calculate_post_impact_population_state], populations.h:53-61, 104-116, on
    the neurons [start, start + count). *)
Fixpoint pre_part (start count : nat) (neurons : list A) : list A :=
  match neurons, start with
  | [], _ => []
  | x :: t, S s => x :: pre_part s count t
  | x :: t, 0 => match count with 0 => neurons | S c => pre x :: pre_part 0 c t end
  end.
Fixpoint post_part (i start count : nat) (neurons : list A) : list A * list nat :=
  match neurons, start with
  | [], _ => ([], [])
  | x :: t, S s => let (t', l) := post_part (S i) s count t in (x :: t', l)
  | x :: t, 0 =>
      match count with
      | 0 => (neurons, [])
      | S c => let (x', b) := post x in
               let (t', l) := post_part (S i) 0 c t in
               (x' :: t', if b then i :: l else l)
      end
  end.
(** The impacts of the unloaded messages, in order (populations.h:78-80). *)
Definition impacts_of (ms : list message) : list impact :=
  flat_map (fun m => match m with ImpactMsg _ _ _ _ _ l => l | _ => [] end) ms.
(** [calculate_any_population], populations_old.h:104-121: the new states and
    the spike message made (sent iff it is not empty).  Neuron indexes are cut
    to 32 bits when stored in the message. *)
Definition population_step (u : uid) (step : N) (ms : list message) (neurons : list A)
  : outcome (list A * message * option message) :=
  let n0 := pre_part 0 (length neurons) neurons in
  obind (impact_population (impacts_of ms) n0) (fun n1 =>
    let (n2, idx) := post_part 0 0 (length n1) n1 in
    let m := SpikeMsg u step (map (fun i => w32 (N.of_nat i)) idx) in
    Ret (n2, m, if Nat.eqb (length idx) 0 then None else Some m)).
(** The same on the multi-threaded backend, multi-threaded backend.cpp:77-162:
    the parts of the first and of the last phase run in some order; a part of the
    last phase appends its indexes to the common message under a lock. *)
Definition mt_post (order : list (nat * nat)) (neurons : list A) : list A * list nat :=
  fold_left (fun (s : list A * list nat) (part : nat * nat) =>
    let (ns, idx) := s in
    let (ns', l) := post_part 0 (fst part) (snd part - fst part) ns in
    (ns', idx ++ l)) order (neurons, []).
Definition mt_population_step (u : uid) (step : N) (ms : list message)
    (order1 order2 : list (nat * nat)) (neurons : list A) : outcome (list A * message * option message) :=
  let n0 := fold_left (fun ns part => pre_part (fst part) (snd part - fst part) ns) order1 neurons in
  obind (impact_population (impacts_of ms) n0) (fun n1 =>
    let (n2, idx) := mt_post order2 n1 in
    let m := SpikeMsg u step (map (fun i => w32 (N.of_nat i)) idx) in
    Ret (n2, m, if Nat.eqb (length idx) 0 then None else Some m)).
End Step.
