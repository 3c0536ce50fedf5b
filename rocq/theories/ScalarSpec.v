(** What a user may write as a number in a configuration script. *)
From Verif Require Import Base SettingsProofs.
From Coq Require Import ZArith QArith.
Local Open Scope Z_scope.

(** A hexadecimal digit. *)
Definition hex (c : ascii) : Prop :=
  digit c \/ (65 <= nat_of_ascii c <= 70)%nat \/ (97 <= nat_of_ascii c <= 102)%nat.
(** The value of one digit. *)
Definition digit_value (c : ascii) : Z :=
  let n := Z.of_nat (nat_of_ascii c) in
  if n <=? 57 then n - 48 else if n <=? 70 then n - 65 + 10 else n - 97 + 10.
(** The value of a list of digits in the positional system. *)
Fixpoint positional (base : Z) (ds : str) : Z :=
  match ds with
  | [] => 0
  | c :: r => digit_value c * base ^ Z.of_nat (length r) + positional base r
  end.

(** Digits with at most one point: [digits_text p s ip fp], the digits [ip] before and [fp]
    behind the point satisfy [p] and there is at least one of them. *)
Inductive digits_text (p : ascii -> Prop) : str -> str -> str -> Prop :=
| dt_plain : forall ip, ip <> [] -> (forall c, In c ip -> p c) -> digits_text p ip ip []
| dt_point : forall ip fp, ip ++ fp <> [] -> (forall c, In c (ip ++ fp) -> p c) ->
    digits_text p (ip ++ "."%char :: fp) ip fp.

(** An exponent: nothing, or one of two letters, an optional sign and decimal digits. *)
Inductive exponent_text (lo up : ascii) : str -> Z -> Prop :=
| et_none : exponent_text lo up [] 0
| et_some : forall c sg neg ds, c = lo \/ c = up -> sign_text sg neg -> ds <> [] ->
    (forall d, In d ds -> digit d) -> exponent_text lo up (c :: sg ++ ds) (signed neg (positional 10 ds)).

(** The same word up to the case of its letters. *)
Inductive same_word : str -> str -> Prop :=
| sw_nil : same_word [] []
| sw_cons : forall c a s w, c = a \/ (nat_of_ascii c + 32 = nat_of_ascii a /\ 65 <= nat_of_ascii c <= 90)%nat ->
    same_word s w -> same_word (c :: s) (a :: w).

(** Letters, digits and underscore. *)
Definition nan_char (c : ascii) : Prop :=
  digit c \/ (65 <= nat_of_ascii c <= 90)%nat \/ (97 <= nat_of_ascii c <= 122)%nat \/ c = "_"%char.

(** What a text means: a rational number, an infinity or not-a-number. *)
Inductive meaning : Type := MNum (q : Q) | MInf (neg : bool) | MNan.
Definition same_meaning (a b : meaning) : Prop :=
  match a, b with
  | MNum p, MNum q => (p == q)%Q
  | MInf x, MInf y => x = y
  | MNan, MNan => True
  | _, _ => False
  end.

(** [literal s m]: the text [s], without white space in front, is a number with the
    meaning [m].  A decimal number is digits * 10^(exponent - digits behind the point), a
    hexadecimal one digits * 2^(exponent - 4 * digits behind the point). *)
Inductive literal : str -> meaning -> Prop :=
| lit_dec : forall sg neg s ip fp x e, sign_text sg neg -> digits_text digit s ip fp ->
    exponent_text "e"%char "E"%char x e ->
    literal (sg ++ s ++ x)
      (MNum (inject_Z (signed neg (positional 10 (ip ++ fp))) * Qpower 10 (e - Z.of_nat (length fp))))
| lit_hex : forall sg neg z s ip fp x e, sign_text sg neg -> same_word z (str_of "0x") -> digits_text hex s ip fp ->
    exponent_text "p"%char "P"%char x e ->
    literal (sg ++ z ++ s ++ x)
      (MNum (inject_Z (signed neg (positional 16 (ip ++ fp))) * Qpower 2 (e - 4 * Z.of_nat (length fp))))
| lit_inf : forall sg neg w, sign_text sg neg -> same_word w (str_of "inf") \/ same_word w (str_of "infinity") ->
    literal (sg ++ w) (MInf neg)
| lit_nan : forall sg neg w, sign_text sg neg -> same_word w (str_of "nan") -> literal (sg ++ w) MNan
| lit_nan_tag : forall sg neg w t, sign_text sg neg -> same_word w (str_of "nan") ->
    (forall c, In c t -> nan_char c) -> literal (sg ++ w ++ "("%char :: t ++ [")"%char]) MNan.

(** [reads_as s p m]: behind its leading white space the text [s] starts with the number
    [p], which means [m], and with no longer number. *)
Definition reads_as (s p : str) (m : meaning) : Prop :=
  exists ws r, s = ws ++ p ++ r /\ (forall c, In c ws -> white c) /\ literal p m /\
    forall p' r' m', p ++ r = p' ++ r' -> literal p' m' -> (length p' <= length p)%nat.
(** The text does not start with a number. *)
Definition no_number (s : str) : Prop :=
  forall ws p r m, s = ws ++ p ++ r -> (forall c, In c ws -> white c) -> ~ literal p m.
