(** Model of the floating-point readers of script settings.
    Source: src/Configuration/Script/SettingScript.cpp.
    The value of a text is an exact rational; what std::stod makes of it (rounding, or
    std::out_of_range) is the parameter [rnd] ([None]: out of range). *)
From Verif Require Import Base SettingsModel SdtModel.
From Coq Require Import ZArith QArith.
Local Open Scope Z_scope.

(** The longest front part of a text whose characters all satisfy [p], and the rest: the
    way strtod collects digits (SettingScript.cpp:84). *)
Fixpoint span (p : ascii -> bool) (s : str) : str * str :=
  match s with
  | c :: r => if p c then let (a, b) := span p r in (c :: a, b) else ([], s)
  | [] => ([], [])
  end.

(** Hexadecimal digits, as accepted by strtod after "0x" (SettingScript.cpp:84). *)
Definition is_hex (c : ascii) : bool :=
  let n := nat_of_ascii c in
  (is_digit c || (Nat.leb 65 n && Nat.leb n 70) || (Nat.leb 97 n && Nat.leb n 102))%bool.
(** Value of a decimal or hexadecimal digit (SettingScript.cpp:84). *)
Definition dig_val (c : ascii) : Z :=
  let n := Z.of_nat (nat_of_ascii c) in
  if n <=? 57 then n - 48 else if n <=? 70 then n - 55 else n - 87.
(** SettingScript.cpp:84. *)
Definition dig_num (base : Z) (ds : str) : Z := fold_left (fun a c => a * base + dig_val c) ds 0.

(** What strtod reads: a number, an infinity or not-a-number (SettingScript.cpp:84). *)
Inductive dtext : Type := DNum (q : Q) | DInf (neg : bool) | DNan.

(** The digits of a number with an optional point; at least one digit is needed
    (SettingScript.cpp:84). *)
Definition mantissa (p : ascii -> bool) (s : str) : option (str * str * str) :=
  let (ip, s1) := span p s in
  let (fp, s2) := match s1 with
                  | c :: r => if Ascii.eqb c "."%char then span p r else ([], s1)
                  | [] => ([], [])
                  end in
  match ip ++ fp with
  | [] => None
  | _ => Some (ip, fp, s2)
  end.

(** The exponent; an incomplete one is not read at all (SettingScript.cpp:84). *)
Definition exponent (lo up : ascii) (s : str) : Z * str :=
  match s with
  | c :: r =>
      if (Ascii.eqb c lo || Ascii.eqb c up)%bool then
        let (neg, r1) := take_sign r in
        let (ds, r2) := span is_digit r1 in
        match ds with
        | [] => (0, s)
        | _ => ((if neg then - dig_num 10 ds else dig_num 10 ds), r2)
        end
      else (0, s)
  | [] => (0, s)
  end.

(** m * base^e with a sign (SettingScript.cpp:84). *)
Definition pow_value (base : Z) (neg : bool) (m e : Z) : Q :=
  let m' := if neg then - m else m in
  if 0 <=? e then inject_Z (m' * base ^ e) else m' # Z.to_pos (base ^ (- e)).

(** SettingScript.cpp:84. *)
Definition dec_number (neg : bool) (s : str) : option (dtext * str) :=
  match mantissa is_digit s with
  | None => None
  | Some (ip, fp, s1) =>
      let (e, s2) := exponent "e"%char "E"%char s1 in
      Some (DNum (pow_value 10 neg (dig_num 10 (ip ++ fp)) (e - Z.of_nat (length fp))), s2)
  end.
(** After the characters "0x": every hexadecimal digit behind the point is worth four
    binary places (SettingScript.cpp:84). *)
Definition hex_number (neg : bool) (s : str) : option (dtext * str) :=
  match mantissa is_hex s with
  | None => None
  | Some (ip, fp, s1) =>
      let (e, s2) := exponent "p"%char "P"%char s1 in
      Some (DNum (pow_value 2 neg (dig_num 16 (ip ++ fp)) (e - 4 * Z.of_nat (length fp))), s2)
  end.

(** Lower case of an ASCII letter (SettingScript.cpp:84). *)
Definition lower (c : ascii) : ascii :=
  let n := nat_of_ascii c in if (Nat.leb 65 n && Nat.leb n 90)%bool then ascii_of_nat (n + 32) else c.
(** [strip w s]: what follows the word [w] (in lower case) at the front of [s], whatever
    the case of its letters (SettingScript.cpp:84). *)
Fixpoint strip (w s : str) : option str :=
  match w with
  | [] => Some s
  | a :: w' => match s with
               | c :: s' => if Ascii.eqb (lower c) a then strip w' s' else None
               | [] => None
               end
  end.
(** The characters allowed in nan(...) (SettingScript.cpp:84). *)
Definition is_nchar (c : ascii) : bool :=
  let n := nat_of_ascii c in
  (is_digit c || (Nat.leb 65 n && Nat.leb n 90) || (Nat.leb 97 n && Nat.leb n 122) || Ascii.eqb c "_"%char)%bool.
(** SettingScript.cpp:84. *)
Definition nan_tail (s : str) : str :=
  match s with
  | c :: r => if Ascii.eqb c "("%char then
                match span is_nchar r with
                | (_, d :: r') => if Ascii.eqb d ")"%char then r' else s
                | _ => s
                end
              else s
  | [] => s
  end.

(** C library [strtod] in the "C" locale: white space, optional sign, then an infinity,
    not-a-number, a hexadecimal or a decimal number; [None] when nothing can be read
    (SettingScript.cpp:84, called through std::stod). *)
Definition strtod (s : str) : option (dtext * str) :=
  let '(neg, s1) := take_sign (skip_spaces s) in
  match strip (str_of "infinity") s1 with
  | Some r => Some (DInf neg, r)
  | None =>
  match strip (str_of "inf") s1 with
  | Some r => Some (DInf neg, r)
  | None =>
  match strip (str_of "nan") s1 with
  | Some r => Some (DNan, nan_tail r)
  | None =>
  match (match strip (str_of "0x") s1 with Some r => hex_number neg r | None => None end) with
  | Some x => Some x
  | None => dec_number neg s1
  end end end end.

(** A double: a finite number, an infinity or not-a-number (SettingScript.cpp:80-89). *)
Inductive dbl : Type := DFin (q : Q) | DInfinity (neg : bool) | DNotANumber.
(** The two exceptions of std::stod (SettingScript.cpp:243-253). *)
Inductive stodres : Type := StOk (d : dbl) | StInvalid | StRange.
(** std::stod: std::invalid_argument when nothing can be read, std::out_of_range when the
    number is too large or too small; the rest of the text is ignored
    (SettingScript.cpp:84, 104, 247, 264). *)
Definition stod (rnd : Q -> option Q) (s : str) : stodres :=
  match strtod s with
  | None => StInvalid
  | Some (DNum q, _) => match rnd q with Some v => StOk (DFin v) | None => StRange end
  | Some (DInf neg, _) => StOk (DInfinity neg)
  | Some (DNan, _) => StOk DNotANumber
  end.

(** SettingScript.cpp:80-89 [GetScalar], slibreal_t being double. *)
Definition get_scalar_at (rnd : Q -> option Q) (vals : list str) (i : nat) : outcome dbl :=
  obind (at_index vals i) (fun s => match stod rnd s with StOk d => Ok d | _ => Throw end).

(** SettingScript.cpp:99-108 [GetNumericVector]. *)
Definition get_numeric_vector (rnd : Q -> option Q) (vals : list str) : outcome (list dbl) :=
  obind_list (fun s => match stod rnd s with StOk d => Ok d | _ => Throw end) vals.

(** SettingScript.cpp:243-253 [IsScalar(i)]: only invalid_argument is caught. *)
Definition is_scalar_at (rnd : Q -> option Q) (vals : list str) (i : nat) : outcome bool :=
  obind (at_index vals i) (fun s =>
    match stod rnd s with StOk _ => Ok true | StInvalid => Ok false | StRange => Throw end).
(** SettingScript.cpp:239-242 [IsScalar()]. *)
Definition is_scalar (rnd : Q -> option Q) (vals : list str) : outcome bool :=
  only_value vals (is_scalar_at rnd).

(** SettingScript.cpp:260-271 [IsNumericVector()]: only invalid_argument is caught. *)
Fixpoint is_numeric_vector (rnd : Q -> option Q) (vals : list str) : outcome bool :=
  match vals with
  | [] => Ok true
  | s :: r => match stod rnd s with
              | StOk _ => is_numeric_vector rnd r
              | StInvalid => Ok false
              | StRange => Throw
              end
  end.
(** SettingScript.cpp:272-277 [IsNumericVector(n)]. *)
Definition is_numeric_vector_of (rnd : Q -> option Q) (vals : list str) (n : nat) : outcome bool :=
  if negb (Nat.eqb (length vals) n) then Ok false else is_numeric_vector rnd vals.
