(** Model of identifiers, of the text form of messages and of the binary
    envelope. *)
From Verif Require Import Base Messaging_Model.

(** ** Identifiers *)

(** A [boost::uuids::uuid] is an array of 16 bytes; here the identifier is the
    number whose big-endian base-256 digits are these bytes, so nil is 0. *)
Fixpoint be_bytes (n : nat) (x : N) : list N :=
  match n with
  | 0 => []
  | S n' => be_bytes n' (x / 256)%N ++ [(x mod 256)%N]
  end.
Definition of_be (l : list N) : N := fold_left (fun a d => 256 * a + d)%N l 0%N.
Definition uuid_bytes (u : uid) : list N := be_bytes 16 u.

(** The loop of [continuously_uid_generator::operator()], uid.cpp:46-51: byte i
    is the i-th low byte of the counter value. *)
Fixpoint counter_bytes (n : nat) (c : N) : list N :=
  match n with
  | 0 => []
  | S n' => (c mod 256)%N :: counter_bytes n' (c / 256)%N
  end.
(** uid.cpp:38-54: 8 counter bytes followed by the zero bytes of the nil
    identifier. *)
Definition uid_of_counter (c : N) : uid := of_be (counter_bytes 8 c ++ [0; 0; 0; 0; 0; 0; 0; 0]%N).
(** The [k]-th (from 0) identifier generated after [reset(start)]: the counter
    is a 64-bit atomic, incremented by each call (uid.cpp:34, 41, 57-60). *)
Definition generated (start k : N) : uid := uid_of_counter (w64 (start + k)).

(** [boost::uuids::operator<]: lexicographic comparison of the bytes. *)
Fixpoint lex_ltb (a b : list N) : bool :=
  match a, b with
  | _, [] => false
  | [], _ :: _ => true
  | x :: a', y :: b' => (x <? y)%N || ((x =? y)%N && lex_ltb a' b')
  end.
Fixpoint bytes_eqb (a b : list N) : bool :=
  match a, b with
  | [], [] => true
  | x :: a', y :: b' => (x =? y)%N && bytes_eqb a' b'
  | _, _ => false
  end.
(** [UID::operator<], uid.h:173: the operands are exchanged. *)
Definition uid_lt (a b : uid) : bool := lex_ltb (uuid_bytes b) (uuid_bytes a).
(** [UID::operator==], uid.h:182. *)
Definition uid_eqb (a b : uid) : bool := bytes_eqb (uuid_bytes b) (uuid_bytes a).

(** ** Characters: their codes *)
Definition space : N := 32%N.
Definition dash : N := 45%N.
Definition is_space (c : N) : bool := (c =? 32)%N || ((9 <=? c)%N && (c <=? 13)%N).
Definition is_digit (c : N) : bool := (48 <=? c)%N && (c <=? 57)%N.
(** Hexadecimal digits, as boost prints (lower case) and accepts them. *)
Definition hex_char (d : N) : N := if (d <? 10)%N then (48 + d)%N else (87 + d)%N.
Definition hex_value (c : N) : option N :=
  if is_digit c then Some (c - 48)%N
  else if (97 <=? c)%N && (c <=? 102)%N then Some (c - 87)%N
  else if (65 <=? c)%N && (c <=? 70)%N then Some (c - 55)%N
  else None.

(** ** Output *)

(** [ostream << unsigned]: decimal digits without leading zeros. *)
Fixpoint digits (fuel : nat) (n : N) : list N :=
  match fuel with
  | 0 => []
  | S f => if (n <? 10)%N then [n] else digits f (n / 10)%N ++ [(n mod 10)%N]
  end.
Definition show_N (n : N) : list N := map (fun d => (48 + d)%N) (digits (S (N.size_nat n)) n).
(** [ostream << uuid] (boost/uuid/uuid_io.hpp): 8-4-4-4-12 hexadecimal digits,
    a dash after bytes 3, 5, 7 and 9. *)
Definition show_byte (b : N) : list N := [hex_char (b / 16)%N; hex_char (b mod 16)%N].
Fixpoint show_bytes (i : nat) (l : list N) : list N :=
  match l with
  | [] => []
  | b :: t => show_byte b
              ++ (match i with 3 | 5 | 7 | 9 => [dash] | _ => [] end)
              ++ show_bytes (S i) t
  end.
Definition show_uid (u : uid) : list N := show_bytes 0 (uuid_bytes u).

(** [ostream << float] with the default precision (printf "%g": six
    significant decimal digits), round to nearest, ties to even.  [num / den]
    is the magnitude. *)
Definition round_half_even (num den : Z) : Z :=
  let q := (num / den)%Z in
  let r := (num mod den)%Z in
  if (2 * r <? den)%Z then q
  else if (den <? 2 * r)%Z then (q + 1)%Z
  else if Z.even q then q else (q + 1)%Z.
Definition ten_pow (k : Z) : Z * Z := (* 10^k as a fraction *)
  if (0 <=? k)%Z then ((10 ^ k)%Z, 1%Z) else (1%Z, (10 ^ (- k))%Z).
(** The decimal exponent: the largest k in a range wide enough for binary32
    with 10^k <= num/den. *)
Fixpoint dec_exp (fuel : nat) (k : Z) (num den : Z) : Z :=
  match fuel with
  | 0 => k
  | S f => let (a, b) := ten_pow k in
           if (a * den <=? num * b)%Z then k else dec_exp f (k - 1)%Z num den
  end.
Definition six_digits (n : Z) : list N := map (fun d => (48 + d)%N) (digits 6 (Z.to_N n)).
Definition strip_trailing (l : list N) : list N := (* of characters: drop trailing '0' *)
  rev ((fix go (l : list N) := match l with 48%N :: t => go t | _ => l end) (rev l)).
Definition with_point (a b : list N) : list N :=
  match strip_trailing b with [] => a | b' => a ++ [46%N] ++ b' end.
Definition show_exp (k : Z) : list N :=
  let a := Z.to_N (Z.abs k) in
  [101%N; (if (k <? 0)%Z then 45 else 43)%N] ++ (if (a <? 10)%N then [48%N] else []) ++ show_N a.
Definition show_float (v : flt) : list N :=
  match v with
  | S754_nan => [110; 97; 110]%N
  | S754_infinity s => (if s then [45%N] else []) ++ [105; 110; 102]%N
  | S754_zero s => (if s then [45%N] else []) ++ [48%N]
  | S754_finite s m e =>
      let num := (if (0 <=? e)%Z then Z.pos m * 2 ^ e else Z.pos m)%Z in
      let den := (if (0 <=? e)%Z then 1 else 2 ^ (- e))%Z in
      let k := dec_exp 100 40%Z num den in
      let (a, b) := ten_pow (k - 5) in
      let d0 := round_half_even (num * b) (den * a) in
      let '(d, k) := if (d0 =? 1000000)%Z then (100000%Z, (k + 1)%Z) else (d0, k) in
      let ds := six_digits d in
      (if s then [45%N] else []) ++
      (if ((k <? -4) || (6 <=? k))%Z then
         with_point (firstn 1 ds) (skipn 1 ds) ++ show_exp k
       else if (0 <=? k)%Z then
         with_point (firstn (S (Z.to_nat k)) ds) (skipn (S (Z.to_nat k)) ds)
       else with_point [48%N] (repeat 48%N (Z.to_nat (- k - 1)) ++ ds))
  end.

(** ** Input *)
Fixpoint skip_spaces (l : list N) : list N :=
  match l with c :: t => if is_space c then skip_spaces t else l | [] => [] end.
(** Leading decimal digits and their value. *)
Fixpoint read_digits (acc : N) (l : list N) : N * list N :=
  match l with
  | c :: t => if is_digit c then read_digits (10 * acc + (c - 48))%N t else (acc, l)
  | [] => (acc, [])
  end.
(** [istream >> unsigned] for a type with values below [bound]; [None] is the
    fail state (no digit, or overflow).  A leading sign is not modelled. *)
Definition read_N (bound : N) (l : list N) : option (N * list N) :=
  match skip_spaces l with
  | c :: t => if is_digit c then
                let (v, rest) := read_digits 0 (c :: t) in
                if (v <? bound)%N then Some (v, rest) else None
              else None
  | [] => None
  end.
(** [istream >> uuid] (boost/uuid/uuid_io.hpp): the dashes must stand where the
    output puts them. *)
Fixpoint read_bytes (n i : nat) (l : list N) : option (list N * list N) :=
  match n with
  | 0 => Some ([], l)
  | S n' =>
      match l with
      | c1 :: c2 :: t =>
          match hex_value c1, hex_value c2 with
          | Some a, Some b =>
              let k := fun rest => match read_bytes n' (S i) rest with
                                   | Some (bs, r) => Some ((16 * a + b)%N :: bs, r)
                                   | None => None
                                   end in
              match i with
              | 3 | 5 | 7 | 9 => match t with
                                 | c3 :: t' => if (c3 =? dash)%N then k t' else None
                                 | [] => None
                                 end
              | _ => k t
              end
          | _, _ => None
          end
      | _ => None
      end
  end.
Definition read_uid (l : list N) : option (uid * list N) :=
  match read_bytes 16 0 (skip_spaces l) with
  | Some (bs, r) => Some (of_be bs, r)
  | None => None
  end.
(** [istream >> float]: the characters up to the next space are given to a
    conversion function, which is a parameter (the C library's [strtof]). *)
Fixpoint token (l : list N) : list N * list N :=
  match l with
  | c :: t => if is_space c then ([], l) else let (a, b) := token t in (c :: a, b)
  | [] => ([], [])
  end.
Definition read_float (strtof : list N -> option flt) (l : list N) : option (flt * list N) :=
  let (t, r) := token (skip_spaces l) in
  match strtof t with Some v => Some (v, r) | None => None end.

(** ** Messages as text *)
Definition type_code (t : output_type) : N :=
  match t with
  | EXCITATORY => 0 | INHIBITORY_CURRENT => 1 | INHIBITORY_CONDUCTANCE => 2 | DOPAMINE => 3 | BLOCKING => 4
  end%N.
(** [static_cast<OutputType>(int)]; a value outside the enumerators is kept by
    the cast in C++ but has no counterpart here. *)
Definition type_of_code (n : N) : option output_type :=
  match n with
  | 0 => Some EXCITATORY | 1 => Some INHIBITORY_CURRENT | 2 => Some INHIBITORY_CONDUCTANCE
  | 3 => Some DOPAMINE | 4 => Some BLOCKING | _ => None
  end%N.
Definition two32 : N := 4294967296%N.
Definition two31 : N := 2147483648%N.
Definition two128 : N := (2 ^ 128)%N.

(** [operator<<(ostream, SynapticImpact)], synaptic_impact_message.cpp:60-65. *)
Definition show_impact (i : impact) : list N :=
  show_N (i_conn i) ++ [space] ++ show_float (i_value i) ++ [space] ++ show_N (type_code (i_type i))
  ++ [space] ++ show_N (i_pre i) ++ [space] ++ show_N (i_post i).
(** [operator<<(ostream, SpikeMessage)], spike_message.cpp:48-53;
    [operator<<(ostream, SynapticImpactMessage)],
    synaptic_impact_message.cpp:68-74, with the header of message_header.cpp:33-37. *)
Definition show_message (m : message) : list N :=
  match m with
  | SpikeMsg s t idx =>
      [space] ++ show_uid s ++ [space] ++ show_N t ++ [space] ++ show_N (N.of_nat (length idx))
      ++ flat_map (fun n => [space] ++ show_N n) idx
  | ImpactMsg s t pre post f ims =>
      show_uid s ++ [space] ++ show_N t ++ [space] ++ show_uid post ++ [space] ++ show_uid pre ++ [space]
      ++ show_N (if f then 1 else 0)%N ++ [space] ++ show_N (N.of_nat (length ims))
      ++ flat_map (fun i => [space] ++ show_impact i) ims
  end.

(** Monadic sequencing of reads. *)
Definition rbind {A B} (x : option (A * list N)) (k : A -> list N -> option B) : option B :=
  match x with Some (a, r) => k a r | None => None end.
Fixpoint read_many {A} (rd : list N -> option (A * list N)) (n : nat) (l : list N) : option (list A * list N) :=
  match n with
  | 0 => Some ([], l)
  | S n' => rbind (rd l) (fun a r => rbind (read_many rd n' r) (fun b r' => Some (a :: b, r')))
  end.
(** [operator>>(istream, SpikeMessage)], spike_message.cpp:56-69: [old] is what
    the target object holds; a count of 0 returns early (61). *)
Definition read_spike (old : list N) (l : list N) : option (message * list N) :=
  rbind (read_uid l) (fun s l => rbind (read_N two64 l) (fun t l => rbind (read_N two64 l) (fun c l =>
    if (c =? 0)%N then Some (SpikeMsg s t old, l)
    else rbind (read_many (read_N two32) (N.to_nat c) l) (fun idx l => Some (SpikeMsg s t idx, l))))).
(** [operator>>(istream, SynapticImpact)], synaptic_impact_message.cpp:50-57. *)
Definition read_impact (strtof : list N -> option flt) (l : list N) : option (impact * list N) :=
  rbind (read_N two64 l) (fun c l => rbind (read_float strtof l) (fun v l => rbind (read_N two31 l) (fun ty l =>
  rbind (read_N two32 l) (fun pre l => rbind (read_N two32 l) (fun post l =>
    match type_of_code ty with Some t => Some (mkImpact c v t pre post, l) | None => None end))))).
(** [operator>>(istream, SynapticImpactMessage)], synaptic_impact_message.cpp:77-93. *)
Definition read_impacts (strtof : list N -> option flt) (old : list impact) (l : list N)
  : option (message * list N) :=
  rbind (read_uid l) (fun s l => rbind (read_N two64 l) (fun t l =>
  rbind (read_uid l) (fun post l => rbind (read_uid l) (fun pre l =>
  rbind (read_N two31 l) (fun f l => rbind (read_N two64 l) (fun c l =>
    let fb := negb (f =? 0)%N in
    if (c =? 0)%N then Some (ImpactMsg s t pre post fb old, l)
    else rbind (read_many (read_impact strtof) (N.to_nat c) l)
           (fun ims l => Some (ImpactMsg s t pre post fb ims, l)))))))).

(** ** Binary envelope *)

(** The FlatBuffers tables of message_header.fbs, spike_message.fbs,
    synaptic_impact_message.fbs and message_envelope.fbs, field by field in
    schema order.  The byte layout FlatBuffers gives them is not modelled. *)
Record fb_header := mkFbHeader { fh_sender_uid : list N; fh_send_time : N }.
Record fb_impact := mkFbImpact {
  fi_connection_index : N; fi_impact_value : flt; fi_output_type : N;
  fi_presynaptic_neuron_index : N; fi_postsynaptic_neuron_index : N }.
Inductive fb_message :=
| FbSpike (header : fb_header) (neuron_indexes : list N)
| FbImpact (header : fb_header) (presynaptic_population_uid postsynaptic_population_uid : list N)
           (is_forcing : bool) (impacts : list fb_impact).
Record fb_envelope := mkFbEnvelope { fe_message_type : N; fe_message : fb_message }.

(** [pack_internal], spike_message.cpp:72-79 and
    synaptic_impact_message.cpp:96-121; [get_marshaled_uid], uid_marshal.h. *)
Definition pack_internal (m : message) : fb_message :=
  match m with
  | SpikeMsg s t idx => FbSpike (mkFbHeader (uuid_bytes s) t) idx
  | ImpactMsg s t pre post f ims =>
      FbImpact (mkFbHeader (uuid_bytes s) t) (uuid_bytes pre) (uuid_bytes post) f
        (map (fun i => mkFbImpact (i_conn i) (i_value i) (type_code (i_type i)) (i_pre i) (i_post i)) ims)
  end.
(** [pack_to_envelope], message_envelope.cpp:40-60: type index + 1. *)
Definition pack_to_envelope (m : message) : fb_envelope :=
  mkFbEnvelope (N.of_nat (msg_type m + 1)) (pack_internal m).

(** [unpack], synaptic_impact_message.cpp:154-164. *)
Fixpoint unpack_impacts (l : list fb_impact) : option (list impact) :=
  match l with
  | [] => Some []
  | i :: t => match type_of_code (fi_output_type i), unpack_impacts t with
              | Some ty, Some r => Some (mkImpact (fi_connection_index i) (fi_impact_value i) ty
                                           (fi_presynaptic_neuron_index i) (fi_postsynaptic_neuron_index i) :: r)
              | _, _ => None
              end
  end.
(** [extract_from_envelope], message_envelope.cpp:63-79.  [message_as_X()]
    gives a null pointer when the union holds another table; dereferencing it
    is undefined behaviour, as is an enumerator outside the schema here. *)
Definition extract_from_envelope (e : fb_envelope) : outcome message :=
  if (fe_message_type e =? 1)%N then
    match fe_message e with
    | FbSpike h idx => Ret (SpikeMsg (of_be (fh_sender_uid h)) (fh_send_time h) idx)
    | _ => UB
    end
  else if (fe_message_type e =? 2)%N then
    match fe_message e with
    | FbImpact h pre post f ims =>
        match unpack_impacts ims with
        | Some l => Ret (ImpactMsg (of_be (fh_sender_uid h)) (fh_send_time h) (of_be pre) (of_be post) f l)
        | None => UB
        end
    | _ => UB
    end
  else Throw.
