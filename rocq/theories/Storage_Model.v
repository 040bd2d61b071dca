(** Model of saving spike messages to a data file and loading them back.  Paths are
    relative to /repo/knp/base-framework/impl/storage/native.

    Simplifications, common to the whole file:
    - the JSON text is represented by the value it stands for (rapidjson parses
      it), except for the lists of numbers, whose text is built by the code itself;
    - an HDF5 file is the record of the attributes and data sets the code looks
      at; a data set read back holds what was written;
    - file system errors are left out, and log messages. *)
From Coq Require Import String DecimalString.
From Verif Require Import Base Messaging_Model.
Open Scope list_scope.

(** ** Common part, data_storage_common.cpp *)

(** [static_cast<knp::core::Step>(timestamps[i] / time_per_step)],
    data_storage_common.cpp:42: truncation; a value outside [uint64_t] is
    undefined behaviour. *)
Definition to_step (x time_per_step : flt) : outcome N :=
  match Z_trunc (f_div x time_per_step) with
  | Some z => if ((0 <=? z) && (z <? Z.of_N two64))%Z then Ret (Z.to_N z) else UB
  | None => UB
  end.
(** The buffer [message_map] (data_storage_common.cpp:39): from step to the neuron
    indexes.  A node number ([int64_t]) is cut to [uint32_t] (47, 51). *)
Definition buffer := list (N * list N).
Definition to_index (z : Z) : N := Z.to_N (z mod Z.of_N two32).
Fixpoint add_spike (step index : N) (b : buffer) : buffer :=
  match b with
  | [] => [(step, [index])]
  | (s, l) :: t => if N.eqb step s then (s, l ++ [index]) :: t else (s, l) :: add_spike step index t
  end.
(** data_storage_common.cpp:40-52. *)
Fixpoint fill_buffer (nodes : list Z) (times : list flt) (tps : flt) (b : buffer) : outcome buffer :=
  match nodes, times with
  | n :: nodes', x :: times' => obind (to_step x tps) (fun s => fill_buffer nodes' times' tps (add_spike s (to_index n) b))
  | _, _ => Ret b
  end.
(** [std::sort] by step (data_storage_common.cpp:61-64): the steps are distinct, so
    every sorting algorithm gives the same result as this insertion sort. *)
Fixpoint insert_by_step (e : N * list N) (l : buffer) : buffer :=
  match l with
  | [] => [e]
  | e' :: t => if N.ltb (fst e') (fst e) then e' :: insert_by_step e t else e :: l
  end.
Definition sort_by_step (l : buffer) : buffer := fold_right insert_by_step [] l.
(** [convert_node_time_arrays_to_messages], data_storage_common.cpp:33-66; [order]
    is the order in which the hash map is read (57-59). *)
Definition convert (order : buffer -> buffer) (nodes : list Z) (times : list flt) (u : uid) (tps : flt) : outcome (list message) :=
  if Nat.eqb (length nodes) (length times) then
    obind (fill_buffer nodes times tps []) (fun b =>
    Ret (map (fun e => SpikeMsg u (fst e) (snd e)) (sort_by_step (order b))))
  else Throw.

(** ** JSON, data_storage_json.cpp *)

(** rapidjson values.  [JInt] is a number without fraction and exponent, [JDouble]
    any other. *)
Inductive json :=
| JNull | JBool (b : bool) | JInt (z : Z) | JDouble (d : flt) | JStr (s : string)
| JArr (l : list json) | JObj (l : list (string * json)).
Fixpoint member (name : string) (l : list (string * json)) : option json :=
  match l with
  | [] => None
  | (n, v) :: t => if String.eqb name n then Some v else member name t
  end.
(** [HasMember] and [operator[]]: their precondition is that the value is an
    object; breaking it (or that of the getters below) is undefined behaviour (an
    abort in debug builds). *)
Definition find_member (name : string) (v : json) : outcome (option json) :=
  match v with JObj l => Ret (member name l) | _ => UB end.
Definition get_array (v : json) : outcome (list json) := match v with JArr l => Ret l | _ => UB end.
Definition get_string (v : json) : outcome string := match v with JStr s => Ret s | _ => UB end.
Definition get_int (v : json) : outcome Z :=
  match v with JInt z => if ((- 2 ^ 31 <=? z) && (z <? 2 ^ 31))%Z then Ret z else UB | _ => UB end.
Definition get_double (v : json) : outcome flt :=
  match v with JInt z => Ret (d_of_Z z) | JDouble d => Ret d | _ => UB end.

(** [MAGIC_NUMBER], [VERSION], data_storage_common.h:30-31. *)
Definition magic_number : Z := 2682.
Definition version : list Z := [0; 1]%Z.

(** The loop of [is_json_has_magic], data_storage_json.cpp:141-150. *)
Fixpoint scan_magic (groups : list json) : outcome bool :=
  match groups with
  | [] => Ret false
  | g :: t =>
      obind (find_member "name" g) (fun name =>
      obind (match name with Some n => get_string n | None => Ret ""%string end) (fun s =>
      if (match name with Some _ => String.eqb s "magic" | None => false end) then
        obind (find_member "value" g) (fun v =>
        match v with
        | Some x => obind (get_int x) (fun z => Ret (Z.eqb z magic_number))
        | None => Ret true
        end)
      else scan_magic t))
  end.
(** [is_json_has_magic], data_storage_json.cpp:133-152. *)
Definition has_magic (doc : json) : outcome bool :=
  obind (find_member "attributes" doc) (fun a =>
  match a with None => Ret false | Some v => obind (get_array v) scan_magic end).
(** The numbers of an array through a getter (data_storage_json.cpp:177-181,
    204-208, 228-232). *)
Fixpoint get_all {A} (get : json -> outcome A) (l : list json) : outcome (list A) :=
  match l with
  | [] => Ret []
  | v :: t => obind (get v) (fun x => obind (get_all get t) (fun r => Ret (x :: r)))
  end.
(** [is_correct_version], data_storage_json.cpp:156-186. *)
Fixpoint scan_version (groups : list json) : outcome bool :=
  match groups with
  | [] => Ret false
  | g :: t =>
      obind (find_member "name" g) (fun name =>
      obind (match name with Some n => get_string n | None => Ret ""%string end) (fun s =>
      if (match name with Some _ => String.eqb s "version" | None => false end) then
        obind (find_member "value" g) (fun v =>
        match v with
        | Some (JArr l) => if Nat.eqb (length version) (length l) then
                             obind (get_all get_int l) (fun zs => Ret (if list_eq_dec Z.eq_dec zs version then true else false))
                           else Ret false
        | _ => Ret false
        end)
      else scan_version t))
  end.
Definition correct_version (doc : json) : outcome bool :=
  obind (find_member "attributes" doc) (fun a =>
  match a with None => Ret false | Some v => obind (get_array v) scan_version end).

(** [read_nodes] and [read_timestamps], data_storage_json.cpp:189-235: a member
    that must be an object with an array "value". *)
Definition read_values {A} (get : json -> outcome A) (name : string) (spikes : json) : outcome (list A) :=
  obind (find_member name spikes) (fun o =>
  match o with
  | Some (JObj l) =>
      match member "value" l with
      | Some (JArr vs) => get_all get vs
      | _ => Throw
      end
  | _ => Throw
  end).
(** [load_messages_from_json], data_storage_json.cpp:238-262; [None] is a text that
    is not JSON. *)
Definition load_json (order : buffer -> buffer) (text : option json) (u : uid) (strict : bool) : outcome (list message) :=
  match text with
  | None => Throw
  | Some doc =>
      obind (has_magic doc) (fun m =>
      if negb m && strict then Throw else
      obind (correct_version doc) (fun _ =>
      obind (find_member "spikes" doc) (fun s =>
      match s with
      | Some (JObj l) =>
          obind (read_values get_int "node_ids" (JObj l)) (fun nodes =>
          obind (read_values (fun v => obind (get_double v) (fun d => Ret (f_of_d d))) "timestamps" (JObj l)) (fun times =>
          convert order nodes times u (f_of_Z 1)))
      | _ => Throw
      end)))
  end.

(** The neuron indexes and the times of the messages, spike by spike
    (data_storage_json.cpp:289-297). *)
Definition flat_spikes (ms : list message) : list (N * N) :=
  flat_map (fun m => match m with SpikeMsg _ t idx => map (fun i => (i, t)) idx | _ => [] end) ms.
(** The text between the brackets of "value" (data_storage_json.cpp:293-305): every
    number is followed by ", ", and the last two characters are cut off. *)
Definition decimal (n : N) : string := NilEmpty.string_of_uint (N.to_uint n).
Fixpoint numbers_text (l : list N) : string :=
  match l with [] => ""%string | n :: t => (decimal n ++ ", " ++ numbers_text t)%string end.
Definition value_text (l : list N) : string :=
  let s := numbers_text l in
  if Nat.ltb 2 (String.length s) then substring 0 (String.length s - 2) s else s.
Definition jint (n : N) : json := JInt (Z.of_N n).
(** [save_messages_to_json], data_storage_json.cpp:274-311, with the templates at
    44-129: the value the written text stands for.  [sorted] is the result of
    [partial_sort_copy] (284-286): some sorted order of the messages. *)
Definition save_json (sorted : list message) : json :=
  let s := flat_spikes sorted in
  let ty := JObj [("class", JStr "Integer (unsigned)"); ("size", JInt 32); ("endianness", JStr "little-endian")]%string in
  JObj [("attributes", JArr [JObj [("name", JStr "magic"); ("type", ty); ("value", JInt 2682)];
                             JObj [("name", JStr "version"); ("shape", JArr [JInt 2]); ("type", ty);
                                   ("value", JArr [JInt 0; JInt 1])]]);
        ("spikes", JObj [
           ("attributes", JArr [JObj [("name", JStr "sorting");
                                      ("type", JObj [("class", JStr "Enumeration"); ("mapping", JObj [("by_id", JInt 1); ("by_time", JInt 2); ("none", JInt 0)])]);
                                      ("value", JStr "by_time")]]);
           ("node_ids", JObj [("shape", JArr [JInt (Z.of_nat (length s))]);
                              ("type", JObj [("class", JStr "Integer (unsigned)"); ("size", JInt 64); ("endianness", JStr "little-endian")]);
                              ("value", JArr (map (fun e => jint (fst e)) s))]);
           ("timestamps", JObj [("attributes", JArr [JObj [("name", JStr "units"); ("type", JObj [("class", JStr "String"); ("charSet", JStr "ASCII")]); ("value", JStr "step")]]);
                                ("shape", JArr [JInt (Z.of_nat (length s))]);
                                ("type", JObj [("class", JStr "Float"); ("endianness", JStr "little-endian")]);
                                ("value", JArr (map (fun e => jint (snd e)) s))])])]%string.

(** ** HDF5, data_storage_hdf5.cpp *)

(** A group with the data sets the loader may look at. *)
Record h5_group := mkH5G { hg_node_ids : option (list Z); hg_gids : option (list Z); hg_timestamps : option (list flt) }.
Record h5_file := mkH5 { h_magic : option Z; h_version : option (list Z);
                         h_spikes : option (h5_group * option h5_group) (* and "spikes/internal" *) }.
(** [std::equal(version.begin(), version.end(), VERSION.begin())],
    data_storage_hdf5.cpp:69: the second range has two elements; comparing a third
    one reads outside it. *)
Fixpoint std_equal3 (a b : list Z) : outcome bool :=
  match a, b with
  | [], _ => Ret true
  | x :: a', y :: b' => if Z.eqb x y then std_equal3 a' b' else Ret false
  | _ :: _, [] => UB
  end.
(** [check_magic], [check_version], [check_format], data_storage_hdf5.cpp:38-80. *)
Definition check_format (f : h5_file) (strict : bool) : outcome unit :=
  let magic_ok := match h_magic f with Some z => Z.eqb z magic_number | None => false end in
  if negb magic_ok && strict then Throw else
  match h_version f with
  | None => Ret tt
  | Some v => obind (std_equal3 v version) (fun _ => Ret tt)
  end.
(** [load_messages_from_h5], data_storage_hdf5.cpp:83-131. *)
Definition load_h5 (order : buffer -> buffer) (f : h5_file) (u : uid) (tps : flt) (strict : bool) : outcome (list message) :=
  obind (check_format f strict) (fun _ =>
  match h_spikes f with
  | None => Throw
  | Some (g, internal) =>
      let g := match internal with Some i => i | None => g end in
      match (match hg_node_ids g with Some n => Some n | None => hg_gids g end), hg_timestamps g with
      | Some nodes, Some times =>
          if Nat.eqb (length times) (length nodes) then convert order nodes times u tps else Throw
      | _, _ => Throw
      end
  end).
(** [save_messages_to_h5], data_storage_hdf5.cpp:134-178; [sorted] as above
    (156-163). *)
Definition save_h5 (sorted : list message) (tps : flt) : h5_file :=
  let s := flat_spikes sorted in
  mkH5 (Some magic_number) (Some version)
       (Some (mkH5G (Some (map (fun e => Z.of_N (fst e)) s)) None
                    (Some (map (fun e => f_mul (f_of_Z (Z.of_N (snd e))) tps) s)), None)).
