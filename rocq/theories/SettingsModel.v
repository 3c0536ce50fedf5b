(** Model of the values of settings: conversion of texts to booleans and integers,
    and the settings backed by SFile data.
    Sources: src/Configuration/Setting.cpp, Script/SettingScript.cpp,
    SFile/SettingSFile.cpp. *)
From Verif Require Import Base.
From Coq Require Import ZArith QArith.
Local Open Scope Z_scope.

(** * Booleans *)

(** Setting.cpp:31-41 [StringToBool]. *)
Definition string_to_bool (v : str) : outcome bool :=
  if (str_eqb v (str_of "yes") || str_eqb v (str_of "Yes") || str_eqb v (str_of "YES")
   || str_eqb v (str_of "true") || str_eqb v (str_of "True") || str_eqb v (str_of "TRUE"))%bool
  then Ok true
  else if (str_eqb v (str_of "no") || str_eqb v (str_of "No") || str_eqb v (str_of "NO")
   || str_eqb v (str_of "false") || str_eqb v (str_of "False") || str_eqb v (str_of "FALSE"))%bool
  then Ok false
  else Throw.

(** [values.at(index)]: throws std::out_of_range when the index is too large
    (SettingScript.cpp:47-75). *)
Definition at_index {A} (l : list A) (i : nat) : outcome A :=
  match nth_error l i with Some x => Ok x | None => Throw end.

(** SettingScript.cpp:47-50 [GetBool]. *)
Definition script_get_bool (vals : list str) (i : nat) : outcome bool :=
  obind (at_index vals i) string_to_bool.

(** SettingScript.cpp:143-152 [IsBool(i)]. *)
Definition script_is_bool_at (vals : list str) (i : nat) : outcome bool :=
  obind (at_index vals i) (fun v => Ok
   (str_eqb v (str_of "yes") || str_eqb v (str_of "Yes") || str_eqb v (str_of "YES")
    || str_eqb v (str_of "no") || str_eqb v (str_of "No") || str_eqb v (str_of "NO")
    || str_eqb v (str_of "true") || str_eqb v (str_of "True") || str_eqb v (str_of "TRUE")
    || str_eqb v (str_of "false") || str_eqb v (str_of "False") || str_eqb v (str_of "FALSE"))%bool).

(** SettingScript.cpp:139-142 and the same pattern on 159-162, 177-180, 195-198,
    213-216, 239-242: false unless there is exactly one value. *)
Definition only_value (vals : list str) (f : list str -> nat -> outcome bool) : outcome bool :=
  if Nat.eqb (length vals) 1 then f vals 0%nat else Ok false.
Definition script_is_bool (vals : list str) : outcome bool := only_value vals script_is_bool_at.

(** * Integers *)

(** C library [isspace] in the "C" locale: space and the characters 9 to 13
    (SettingScript.cpp:60-75). *)
Definition is_space (c : ascii) : bool :=
  let n := nat_of_ascii c in (Nat.eqb n 32 || (Nat.leb 9 n && Nat.leb n 13))%bool.
(** SettingScript.cpp:60-75. *)
Definition is_digit (c : ascii) : bool :=
  let n := nat_of_ascii c in (Nat.leb 48 n && Nat.leb n 57)%bool.
(** SettingScript.cpp:60-75. *)
Definition digit_val (c : ascii) : Z := Z.of_nat (nat_of_ascii c) - 48.

(** SettingScript.cpp:60-75. *)
Fixpoint skip_spaces (s : str) : str :=
  match s with
  | c :: r => if is_space c then skip_spaces r else s
  | [] => []
  end.

(** The digits at the front: value so far, whether there was one, and what is left
    (SettingScript.cpp:60-75). *)
Fixpoint take_digits (acc : Z) (any : bool) (s : str) : Z * bool * str :=
  match s with
  | c :: r => if is_digit c then take_digits (acc * 10 + digit_val c) true r else (acc, any, s)
  | [] => (acc, any, [])
  end.

(** C library [strtol]/[strtoul] in base 10, as called by std::stoi, stol, stoll,
    stoul and stoull: white space, optional sign, digits.  Result: sign, magnitude
    and the rest of the text, or nothing when there are no digits
    (std::invalid_argument) (SettingScript.cpp:60-75). *)
Definition strto (s : str) : option (bool * Z * str) :=
  let s1 := skip_spaces s in
  let '(neg, s2) := match s1 with
                    | c :: r => if Ascii.eqb c "-"%char then (true, r)
                                else if Ascii.eqb c "+"%char then (false, r)
                                else (false, s1)
                    | [] => (false, s1)
                    end in
  let '(m, any, rest) := take_digits 0 false s2 in
  if any then Some (neg, m, rest) else None.

(** std::stoi (int has 32 bits) and std::stoll (64 bits); SettingScript.cpp:60-62, 70-72.
    The result is the value and the unread rest; [Throw] is invalid_argument or out_of_range. *)
Definition sto_signed (bits : Z) (s : str) : outcome (Z * str) :=
  match strto s with
  | None => Throw
  | Some (neg, m, rest) =>
      let v := if neg then - m else m in
      if ((- 2 ^ (bits - 1) <=? v) && (v <? 2 ^ (bits - 1)))%bool then Ok (v, rest) else Throw
  end.

(** std::stoul / std::stoull (both 64 bits): the magnitude must fit, a minus sign
    negates modulo 2^64 (SettingScript.cpp:63-65, 73-75). *)
Definition sto_unsigned64 (s : str) : outcome (Z * str) :=
  match strto s with
  | None => Throw
  | Some (neg, m, rest) =>
      if m <? 2 ^ 64 then Ok ((if neg then (- m) mod 2 ^ 64 else m), rest) else Throw
  end.

(** SettingScript.cpp:60-62, 70-72, 63-65, 73-75. *)
Definition get_int32 (vals : list str) (i : nat) : outcome Z :=
  obind (at_index vals i) (fun s => obind (sto_signed 32 s) (fun p => Ok (fst p))).
Definition get_int64 (vals : list str) (i : nat) : outcome Z :=
  obind (at_index vals i) (fun s => obind (sto_signed 64 s) (fun p => Ok (fst p))).
(** The unsigned long is converted to uint32_t by the return statement (SettingScript.cpp:63-65). *)
Definition get_uint32 (vals : list str) (i : nat) : outcome Z :=
  obind (at_index vals i) (fun s => obind (sto_unsigned64 s) (fun p => Ok (fst p mod 2 ^ 32))).
(** SettingScript.cpp:73-75. *)
Definition get_uint64 (vals : list str) (i : nat) : outcome Z :=
  obind (at_index vals i) (fun s => obind (sto_unsigned64 s) (fun p => Ok (fst p))).

(** SettingScript.cpp:163-176, 181-194, 199-212, 217-230: the exceptions of the
    conversion are caught; [end == value.length()]. *)
Definition whole (r : outcome (Z * str)) : bool :=
  match r with Ok (_, []) => true | _ => false end.
Definition is_int32_at (vals : list str) (i : nat) : outcome bool :=
  obind (at_index vals i) (fun s => Ok (whole (sto_signed 32 s))).
Definition is_int64_at (vals : list str) (i : nat) : outcome bool :=
  obind (at_index vals i) (fun s => Ok (whole (sto_signed 64 s))).
Definition is_uint32_at (vals : list str) (i : nat) : outcome bool :=
  obind (at_index vals i) (fun s => Ok (whole (sto_unsigned64 s))).
Definition is_uint64_at (vals : list str) (i : nat) : outcome bool :=
  obind (at_index vals i) (fun s => Ok (whole (sto_unsigned64 s))).
Definition is_int32 (vals : list str) := only_value vals is_int32_at.
Definition is_int64 (vals : list str) := only_value vals is_int64_at.
Definition is_uint32 (vals : list str) := only_value vals is_uint32_at.
Definition is_uint64 (vals : list str) := only_value vals is_uint64_at.

(** * Settings backed by SFile data *)

(** ConfigurationSFile.h:11-31: the tagged union.  Reals are exact rationals. *)
Inductive sfdata : Type :=
| SBool (l : list bool) | SI32 (l : list Z) | SI64 (l : list Z)
| SU32 (l : list Z) | SU64 (l : list Z) | SReal (l : list Q) | SStr (l : list str).

(** SettingSFile.cpp:202-215 [GetNumberOfValues]. *)
Definition sf_count (d : sfdata) : nat :=
  match d with
  | SBool l => length l | SI32 l => length l | SI64 l => length l
  | SU32 l => length l | SU64 l => length l | SReal l => length l | SStr l => length l
  end.

(** Conversion of a double to int64_t: truncation toward zero, undefined out of range
    (SettingSFile.cpp:130-141). *)
Definition real_to_int64 (q : Q) : outcome Z :=
  let z := Z.quot (Qnum q) (Zpos (Qden q)) in
  if ((- 2 ^ 63 <=? z) && (z <? 2 ^ 63))%bool then Ok z else UB.
(** Conversion of an integer to a signed type of [bits] bits, modulo 2^bits
    (SettingSFile.cpp:130-145). *)
Definition wrap_signed (bits : Z) (z : Z) : Z :=
  let m := z mod 2 ^ bits in if m <? 2 ^ (bits - 1) then m else m - 2 ^ bits.

(** SettingSFile.cpp:124-129 [GetBool]. *)
Definition sf_get_bool (d : sfdata) (i : nat) : outcome bool :=
  match d with SBool l => at_index l i | _ => Throw end.
(** SettingSFile.cpp:130-141 [GetInteger]. *)
Definition sf_get_integer (d : sfdata) (i : nat) : outcome Z :=
  match d with
  | SI32 l | SI64 l | SU32 l => at_index l i
  | SU64 l => obind (at_index l i) (fun z => Ok (wrap_signed 64 z))
  | SReal l => obind (at_index l i) real_to_int64
  | _ => Throw
  end.
(** SettingSFile.cpp:142-145. *)
Definition sf_get_int32 (d : sfdata) (i : nat) : outcome Z :=
  obind (sf_get_integer d i) (fun z => Ok (wrap_signed 32 z)).
Definition sf_get_uint32 (d : sfdata) (i : nat) : outcome Z :=
  obind (sf_get_integer d i) (fun z => Ok (z mod 2 ^ 32)).
Definition sf_get_int64 (d : sfdata) (i : nat) : outcome Z := sf_get_integer d i.
Definition sf_get_uint64 (d : sfdata) (i : nat) : outcome Z :=
  obind (sf_get_integer d i) (fun z => Ok (z mod 2 ^ 64)).
(** SettingSFile.cpp:146-157 [GetScalar]; the conversion to floating point is exact here. *)
Definition sf_get_scalar (d : sfdata) (i : nat) : outcome Q :=
  match d with
  | SI32 l | SI64 l | SU32 l | SU64 l => obind (at_index l i) (fun z => Ok (inject_Z z))
  | SReal l => at_index l i
  | _ => Throw
  end.
(** SettingSFile.cpp:158-163 [GetString]. *)
Definition sf_get_string (d : sfdata) (i : nat) : outcome str :=
  match d with SStr l => at_index l i | _ => Throw end.

(** SettingSFile.cpp:164-194 [GetNumericVector]: the vector is constructed with the
    number of values (all zero) and every value is then pushed at its end. *)
Definition sf_numeric_vector (d : sfdata) : outcome (list Q) :=
  let v := repeat 0%Q (sf_count d) in
  match d with
  | SI32 l | SI64 l | SU32 l | SU64 l => Ok (v ++ map inject_Z l)
  | SReal l => Ok (v ++ l)
  | _ => Throw
  end.

(** SettingSFile.cpp:195-200 [GetTextVector]. *)
Definition sf_text_vector (d : sfdata) : outcome (list str) :=
  match d with SStr l => Ok l | _ => Throw end.

(** SettingSFile.cpp:220, 222-231. *)
Definition sf_is_bool (d : sfdata) : bool := match d with SBool _ => true | _ => false end.
Definition sf_is_integer (d : sfdata) : bool :=
  match d with SI32 _ | SI64 _ | SU32 _ | SU64 _ | SReal _ => true | _ => false end.
(** SettingSFile.cpp:233-243 [IsInteger32]: looks at the first value only. *)
Definition sf_is_int32 (d : sfdata) : outcome bool :=
  if sf_is_integer d then
    obind (sf_get_integer d 0) (fun z => Ok ((z <=? 2 ^ 31 - 1) && (- 2 ^ 31 <=? z))%bool)
  else Ok false.
(** SettingSFile.cpp:245. *)
Definition sf_is_int64 (d : sfdata) : bool := match d with SI64 _ => true | _ => false end.
(** SettingSFile.cpp:260-277 [IsUnsignedInteger64]. *)
Definition sf_is_uint64 (d : sfdata) (i : nat) : outcome bool :=
  match d with
  | SI32 l | SI64 l => obind (at_index l i) (fun z => Ok (0 <=? z))
  | SReal l => obind (at_index l i) (fun q => Ok (Qle_bool 0 q))
  | SU32 _ | SU64 _ => Ok true
  | _ => Ok false
  end.
(** SettingSFile.cpp:248-258 [IsUnsignedInteger32]. *)
Definition sf_is_uint32 (d : sfdata) (i : nat) : outcome bool :=
  obind (sf_is_uint64 d i) (fun b =>
    if b then obind (sf_get_integer d i) (fun z => Ok (z <=? 2 ^ 32 - 1)) else Ok false).

(** SettingSFile.cpp:108-119 [Copy]: the data types REAL and STRING are missing. *)
Definition sf_copy (d : sfdata) : outcome sfdata :=
  match d with
  | SReal _ | SStr _ => Throw
  | _ => Ok d
  end.

Definition obind_list {A B} (f : A -> outcome B) : list A -> outcome (list B) :=
  fix go l := match l with
              | [] => Ok []
              | x :: r => obind (f x) (fun y => obind (go r) (fun ys => Ok (y :: ys)))
              end.

(** [for (i = 0; i < n; i++) v->push_back(get(i))] on a vector made with [n] copies of [zero]
    (SettingSFile.cpp:59-101). *)
Definition filled {A} (zero : A) (n : nat) (get : nat -> outcome A) : outcome (list A) :=
  obind (obind_list get (seq 0 n)) (fun l => Ok (repeat zero n ++ l)).

(** SettingSFile.cpp:42-103 [OverwriteValues] with a source that is itself a
    SettingSFile.  [typeid(s)] is the type of the pointer expression, [const Setting *],
    which is never [SettingSFile *]: the first branch (44-58) is dead and the
    conversions of lines 59-101 are used. *)
Definition sf_overwrite (s : sfdata) : outcome sfdata :=
  let n := sf_count s in
  if sf_is_bool s then obind (filled false n (sf_get_bool s)) (fun l => Ok (SBool l))
  else obind (sf_is_int32 s) (fun b1 =>
  if b1 then obind (filled 0 n (sf_get_int32 s)) (fun l => Ok (SI32 l))
  else if sf_is_int64 s then obind (filled 0 n (sf_get_int64 s)) (fun l => Ok (SI64 l))
  else obind (sf_is_uint32 s 0) (fun b2 =>
  if b2 then obind (filled 0 n (sf_get_uint32 s)) (fun l => Ok (SU32 l))
  else obind (sf_is_uint64 s 0) (fun b3 =>
  if b3 then obind (filled 0 n (sf_get_uint64 s)) (fun l => Ok (SU64 l))
  else if sf_is_integer s then obind (filled 0%Q n (sf_get_scalar s)) (fun l => Ok (SReal l))
  else obind (filled [] n (fun _ => sf_get_string s 0)) (fun l => Ok (SStr l))))).
