(** Specification vocabulary for SDT files. *)
From Verif Require Import Base SettingsProofs SdtModel DoubleText.
From Coq Require Import ZArith QArith.
Local Open Scope Z_scope.

(** A name without white space. *)
Definition plain (n : str) : Prop := n <> [] /\ forall c, In c n -> ~ white c.

(** What an element becomes when it is written as text and read as a double:
    integers are written in full, doubles with six significant digits. *)
Definition reads_back (rnd : Q -> option Q) (x : snum) (v : Q) : Prop :=
  match x with
  | NInt z => rnd (inject_Z z) = Some v
  | NDbl q => exists q', six_digits q q' /\ rnd q' = Some v
  | NNon _ => False
  end.
(** The text of the element is in the range of the type double. *)
Definition in_range (rnd : Q -> option Q) (x : snum) : Prop :=
  match x with
  | NInt z => rnd (inject_Z z) <> None
  | NDbl q => forall q', six_digits q q' -> rnd q' <> None
  | NNon _ => False
  end.

(** The variable a write call defines. *)
Inductive vardef : Type := DMat (ncols : nat) (rows : list (list snum)) | DStr (s : str).
Definition defines (c : wcall) : option (str * vardef) :=
  match c with
  | WArray n nc rows => Some (n, DMat nc rows)
  | WImage n px rows => Some (n, DMat px rows)
  | WList n l => Some (n, DMat (length l) [l])
  | WScalar n v => Some (n, DMat 1 [[v]])
  | WString n v => Some (n, DStr v)
  | WAttrScalar d n v => Some (d ++ str_of "_" ++ n, DMat 1 [[NDbl v]])
  | WAttrNonfin d n x => Some (d ++ str_of "_" ++ n, DMat 1 [[NNon x]])
  | WAttrString d n v => Some (d ++ str_of "_" ++ n, DStr v)
  | WStruct _ => None
  end.
(** The first definition of a matrix / string of that name. *)
Fixpoint first_matrix (n : str) (cs : list wcall) : option (nat * list (list snum)) :=
  match cs with
  | [] => None
  | c :: r => match defines c with
              | Some (n', DMat nc rows) => if str_eqb n n' then Some (nc, rows) else first_matrix n r
              | _ => first_matrix n r
              end
  end.
Fixpoint first_string (n : str) (cs : list wcall) : option str :=
  match cs with
  | [] => None
  | c :: r => match defines c with
              | Some (n', DStr s) => if str_eqb n n' then Some s else first_string n r
              | _ => first_string n r
              end
  end.

(** Calls the format can represent: plain name, at least one row, all rows of the
    stated length, elements in range, sizes within memory. *)
Definition ok_matrix (rnd : Q -> option Q) (mem : Z) (nc : nat) (rows : list (list snum)) : Prop :=
  rows <> [] /\ (forall r, In r rows -> length r = nc) /\ (forall r x, In r rows -> In x r -> in_range rnd x) /\
  Z.of_nat (length rows) <= mem /\ Z.of_nat (length rows) * Z.of_nat nc <= mem /\ Z.of_nat nc <= mem.
Definition ok_call (rnd : Q -> option Q) (mem : Z) (c : wcall) : Prop :=
  match defines c with
  | None => True
  | Some (n, DMat nc rows) => plain n /\ ok_matrix rnd mem nc rows
  | Some (n, DStr s) => plain n /\ Z.of_nat (length s) <= mem
  end.

(** The same matrix up to [reads_back]. *)
Definition read_matrix (rnd : Q -> option Q) (rows : list (list snum)) (vals : list (list Q)) : Prop :=
  Forall2 (Forall2 (reads_back rnd)) rows vals.

(** The call writes a number that is not finite, in a matrix of the stated shape that
    fits into the address space. *)
Definition writes_nonfinite (c : wcall) : Prop :=
  exists n nc rows r x, defines c = Some (n, DMat nc rows) /\ plain n /\
    (forall r', In r' rows -> length r' = nc) /\ Z.of_nat (length rows) * Z.of_nat nc < 2 ^ 64 /\
    In r rows /\ In (NNon x) r.
