(** Specification: the language of SDT files (C23, C114).  Nothing here refers to the
    loader of the model. *)
From Verif Require Import Base SettingsProofs NumText SdtSpec.
From Coq Require Import ZArith QArith.
Local Open Scope Z_scope.

(** The newline character. *)
Definition newline : ascii := ascii_of_nat 10.
Definition one_line (l : str) : Prop := ~ In newline l.

(** The lines of a text: every line ends with a newline, except that the newline of a
    last line that is not empty may be missing. *)
Definition lines_are (text : str) (lines : list str) : Prop :=
  (forall l, In l lines -> one_line l) /\
  (text = flat_map (fun l => l ++ [newline]) lines \/
   exists first last, lines = first ++ [last] /\ last <> [] /\ text = flat_map (fun l => l ++ [newline]) first ++ last).

(** [s] is white space, the word [w] and then [rest], which is empty or starts with
    white space. *)
Definition next_word (s w rest : str) : Prop :=
  exists ws, s = ws ++ w ++ rest /\ (forall c, In c ws -> white c) /\ plain w /\ ends rest.

(** [s] is white space, an optional sign, all digits of an integer and then [rest]. *)
Definition next_integer (s : str) (neg : bool) (m : Z) (rest : str) : Prop :=
  exists ws sg ds, s = ws ++ sg ++ ds ++ rest /\ (forall c, In c ws -> white c) /\ sign_text sg neg /\ ds <> [] /\
    (forall c, In c ds -> digit c) /\ m = decimal ds /\ (forall c r, rest = c :: r -> ~ digit c).

(** A size: an integer below 2^64; a minus sign negates it modulo 2^64. *)
Definition next_size (s : str) (z : Z) (rest : str) : Prop :=
  exists neg m, next_integer s neg m rest /\ m < 2 ^ 64 /\ z = if neg then (- m) mod 2 ^ 64 else m.

(** The part of a number behind the point, and the exponent. *)
Inductive fraction_text : str -> str -> Prop :=
| ft_none : fraction_text [] []
| ft_some : forall fp, (forall c, In c fp -> digit c) -> fraction_text ("."%char :: fp) fp.
Inductive exponent_text : str -> Z -> Prop :=
| et_none : exponent_text [] 0
| et_some : forall e sg neg ds, e = "e"%char \/ e = "E"%char -> sign_text sg neg -> ds <> [] -> (forall c, In c ds -> digit c) ->
    exponent_text (e :: sg ++ ds) (signed neg (decimal ds)).

(** [s] is white space, a decimal number of the value [q] and then [rest].  The number
    is as long as possible. *)
Definition next_real (s : str) (q : Q) (rest : str) : Prop :=
  exists ws sg neg ip pt fp ex e, s = ws ++ sg ++ ip ++ pt ++ ex ++ rest /\ (forall c, In c ws -> white c) /\
    sign_text sg neg /\ (forall c, In c ip -> digit c) /\ fraction_text pt fp /\ ip ++ fp <> [] /\ exponent_text ex e /\
    (forall c r, rest = c :: r -> ~ digit c /\ (ex = [] -> c <> "e"%char /\ c <> "E"%char /\ (pt = [] -> c <> "."%char))) /\
    (q == inject_Z (signed neg (decimal (ip ++ fp))) * (10 # 1) ^ (e - Z.of_nat (length fp)))%Q.

(** The line announces a matrix of that name and size; what follows is ignored. *)
Definition declares (line name : str) (rows cols : Z) : Prop :=
  exists s1 s2 s3 s4, next_word line (str_of "@matrix") s1 /\ next_word s1 name s2 /\ next_size s2 rows s3 /\ next_size s3 cols s4.
(** The line announces a string of that name; the size must be there but is not used. *)
Definition declares_string (line name : str) : Prop :=
  exists s1 s2 s3 z, next_word line (str_of "@string") s1 /\ next_word s1 name s2 /\ next_size s2 z s3.

(** A row of a matrix: as many numbers as there are columns; what follows is ignored. *)
Inductive row_text (rnd : Q -> option Q) : str -> list Q -> Prop :=
| row_end : forall t, row_text rnd t []
| row_next : forall t q rest v vs, next_real t q rest -> rnd q = Some v -> row_text rnd rest vs -> row_text rnd t (v :: vs).
(** The rows of a matrix with [nc] columns, each on a line of its own.  Behind the end of
    the file lines count as empty. *)
Inductive rows_text (rnd : Q -> option Q) (nc : nat) : list str -> list (list Q) -> list str -> Prop :=
| rows_end : forall ls, rows_text rnd nc ls [] ls
| rows_next : forall l ls vs rows rest, row_text rnd l vs -> length vs = nc -> rows_text rnd nc ls rows rest ->
    rows_text rnd nc (l :: ls) (vs :: rows) rest
| rows_missing : forall rows rest, nc = 0%nat -> rows_text rnd nc [] rows rest -> rows_text rnd nc [] ([] :: rows) rest.

(** The characters of a string, as integers of the type int, up to the first text that is
    not such an integer.  Only the last eight bits count. *)
Definition int32 (z : Z) : Prop := - 2 ^ 31 <= z < 2 ^ 31.
Inductive codes_text : str -> str -> Prop :=
| codes_end : forall t, (forall neg m rest, next_integer t neg m rest -> ~ int32 (signed neg m)) -> codes_text t []
| codes_next : forall t neg m rest c cs, next_integer t neg m rest -> int32 (signed neg m) ->
    Z.of_nat (nat_of_ascii c) = signed neg m mod 256 -> codes_text rest cs -> codes_text t (c :: cs).

(** A definition in the file. *)
Inductive sdt_def : Type :=
| SMat (name : str) (cols : Z) (rows : list (list Q))
| SStr (name value : str).
(** The lines hold these definitions, one after another with empty lines between them,
    and then the lines [rest].  [mem]: number of elements that can be allocated. *)
Inductive sdt_lines (rnd : Q -> option Q) (mem : Z) : list str -> list sdt_def -> list str -> Prop :=
| sl_end : forall ls, sdt_lines rnd mem ls [] ls
| sl_blank : forall ls ds rest, sdt_lines rnd mem ls ds rest -> sdt_lines rnd mem ([] :: ls) ds rest
| sl_matrix : forall line name a b ls rows ls' ds rest, declares line name a b -> 1 <= a <= mem -> a * b <= mem ->
    rows_text rnd (Z.to_nat b) ls rows ls' -> Z.of_nat (length rows) = a ->
    sdt_lines rnd mem ls' ds rest -> sdt_lines rnd mem (line :: ls) (SMat name b rows :: ds) rest
| sl_string : forall line name l v ls ds rest, declares_string line name -> codes_text l v ->
    sdt_lines rnd mem ls ds rest -> sdt_lines rnd mem (line :: l :: ls) (SStr name v :: ds) rest
| sl_string_missing : forall line name ds rest, declares_string line name ->
    sdt_lines rnd mem [] ds rest -> sdt_lines rnd mem [line] (SStr name [] :: ds) rest.

(** The first definition of a name. *)
Fixpoint matrix_of (n : str) (ds : list sdt_def) : option (Z * list (list Q)) :=
  match ds with
  | [] => None
  | SMat n' c rows :: r => if str_eqb n n' then Some (c, rows) else matrix_of n r
  | _ :: r => matrix_of n r
  end.
Fixpoint string_of (n : str) (ds : list sdt_def) : option str :=
  match ds with
  | [] => None
  | SStr n' v :: r => if str_eqb n n' then Some v else string_of n r
  | _ :: r => string_of n r
  end.

(** The integer part of a number: the fraction is dropped. *)
Definition integer_part (q : Q) (z : Z) : Prop :=
  (0 <= q -> inject_Z z <= q < inject_Z (z + 1))%Q /\ (q <= 0 -> inject_Z (z - 1) < q <= inject_Z z)%Q.
