(** Shared vocabulary of all models.  Nothing in this file models code of
    /repo by itself: it only fixes how C++ outcomes, machine integers and
    floating-point numbers are represented. *)
From Coq Require Export List Arith NArith ZArith Lia Bool Permutation.
From Coq Require Export ZifyBool ZifyNat ZifyN.
From Coq Require Export Floats.SpecFloat.
Export ListNotations.

(** Outcome of a C++ call: a value, a thrown exception, or undefined
    behaviour.  Undefined behaviour is never given a normal-looking value. *)
Inductive outcome (A : Type) : Type :=
| Ret (a : A)
| Throw
| UB.
Arguments Ret {A} _.
Arguments Throw {A}.
Arguments UB {A}.

Definition obind {A B} (x : outcome A) (f : A -> outcome B) : outcome B :=
  match x with Ret a => f a | Throw => Throw | UB => UB end.

(** [uint64_t]/[size_t] and [uint32_t] arithmetic wraps around. *)
Definition two64 : N := (2 ^ 64)%N.
Definition two32 : N := (2 ^ 32)%N.
Definition w64 (x : N) : N := (x mod two64)%N.
Definition w32 (x : N) : N := (x mod two32)%N.
Definition add64 (x y : N) : N := w64 (x + y).
(** [x - y] on [uint64_t]. *)
Definition sub64 (x y : N) : N := w64 (x + (two64 - w64 y)).

(** IEEE-754 binary32 ([float]) and binary64 ([double]), round to nearest
    even: the standard library's executable [SpecFloat]. *)
Notation flt := spec_float.
Definition f_add : flt -> flt -> flt := SFadd 24 128.
Definition f_sub : flt -> flt -> flt := SFsub 24 128.
Definition f_mul : flt -> flt -> flt := SFmul 24 128.
Definition f_div : flt -> flt -> flt := SFdiv 24 128.
Definition d_add : flt -> flt -> flt := SFadd 53 1024.
Definition d_sub : flt -> flt -> flt := SFsub 53 1024.
Definition d_mul : flt -> flt -> flt := SFmul 53 1024.
Definition d_div : flt -> flt -> flt := SFdiv 53 1024.
(** [x < y], [x <= y], [x > y], [x >= y]; all false if an operand is NaN. *)
Definition f_lt (x y : flt) : bool := SFltb x y.
Definition f_le (x y : flt) : bool := SFleb x y.
Definition f_gt (x y : flt) : bool := SFltb y x.
Definition f_ge (x y : flt) : bool := SFleb y x.
(** Conversion of an integer to binary32 / binary64, correctly rounded. *)
Definition f_of_Z (z : Z) : flt :=
  match z with
  | Z0 => S754_zero false
  | Zpos p => binary_normalize 24 128 (Zpos p) 0 false
  | Zneg p => binary_normalize 24 128 (Zneg p) 0 false
  end.
Definition d_of_Z (z : Z) : flt :=
  match z with
  | Z0 => S754_zero false
  | Zpos p => binary_normalize 53 1024 (Zpos p) 0 false
  | Zneg p => binary_normalize 53 1024 (Zneg p) 0 false
  end.
(** Rounding a binary64 value to binary32 ([static_cast<float>(double)] or an
    assignment to a [float]). *)
Definition f_of_d (x : flt) : flt :=
  match x with
  | S754_finite s m e =>
      binary_normalize 24 128 (if s then Zneg m else Zpos m) e s
  | _ => x
  end.
(** [static_cast<int64_t>(x)]: truncation; outside the range it is undefined
    behaviour. *)
Definition Z_trunc (x : flt) : option Z :=
  match x with
  | S754_zero _ => Some 0%Z
  | S754_finite s m e =>
      let a := match e with
               | Z0 => Zpos m
               | Zpos p => (Zpos m * 2 ^ Zpos p)%Z
               | Zneg p => (Zpos m / 2 ^ Zpos p)%Z
               end in
      Some (if s then (- a)%Z else a)
  | _ => None
  end.
Definition int64_max : Z := (2 ^ 63 - 1)%Z.
Definition int64_min : Z := (- 2 ^ 63)%Z.
Definition to_int64 (x : flt) : outcome Z :=
  match Z_trunc x with
  | Some z => if ((int64_min <=? z) && (z <=? int64_max))%Z then Ret z else UB
  | None => UB
  end.
Definition is_nan (x : flt) : bool := match x with S754_nan => true | _ => false end.
Definition is_finite (x : flt) : bool :=
  match x with S754_zero _ | S754_finite _ _ _ => true | _ => false end.
Definition sign_bit (x : flt) : bool :=
  match x with
  | S754_zero s => s | S754_infinity s => s | S754_nan => false
  | S754_finite s _ _ => s
  end.

(** Identifiers ([knp::core::UID], a 128-bit number; nil is 0). *)
Definition uid := N.
Bind Scope N_scope with uid.

(** Synapse output types, /repo/knp/synapse-traits-library/include/knp/
    synapse-traits/output_types.h. *)
Inductive output_type :=
| EXCITATORY | INHIBITORY_CURRENT | INHIBITORY_CONDUCTANCE | DOPAMINE | BLOCKING.

(** List helpers. *)
Definition mem (x : uid) (l : list uid) : bool := existsb (N.eqb x) l.

(** [std::vector] pop from the back: all but the last, and the last. *)
Fixpoint pop_back {A} (l : list A) : option (list A * A) :=
  match l with
  | [] => None
  | [x] => Some ([], x)
  | x :: t => match pop_back t with
              | Some (t', y) => Some (x :: t', y)
              | None => None
              end
  end.

(** [std::vector::erase(begin() + i)]; out of range is undefined behaviour. *)
Fixpoint erase_at {A} (i : nat) (l : list A) : option (list A) :=
  match l, i with
  | [], _ => None
  | _ :: t, 0 => Some t
  | x :: t, S i' => match erase_at i' t with
                    | Some t' => Some (x :: t')
                    | None => None
                    end
  end.

(** Keep [simpl]/[cbn] from unfolding arithmetic. *)
Arguments mem : simpl never.
Arguments N.add : simpl never.
Arguments N.sub : simpl never.
Arguments N.mul : simpl never.
Arguments N.modulo : simpl never.
Arguments N.div : simpl never.
Arguments N.pow : simpl never.
Arguments N.eqb : simpl never.
Arguments N.ltb : simpl never.
Arguments N.leb : simpl never.
Arguments Z.add : simpl never.
Arguments Z.sub : simpl never.
Arguments Z.mul : simpl never.
Arguments Z.pow : simpl never.

(** Tactic for concrete examples: conjunctions of evaluable equations under
    existential quantifiers. *)
Ltac ex_compute :=
  cbv zeta;
  repeat match goal with |- ex _ => eexists end;
  repeat match goal with |- _ /\ _ => split; [solve [vm_compute; reflexivity]|] end;
  solve [vm_compute; reflexivity].
