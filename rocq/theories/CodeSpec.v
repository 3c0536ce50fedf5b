(** What is expected of the CODE distribution functions, independently of the code. *)
From Coq Require Import Reals.
From Coquelicot Require Import Coquelicot.
From Verif Require Import Base CodeModel.
Local Open Scope R_scope.

(** Finite sums: [sum n g] is g 0 + ... + g (n-1). *)
Fixpoint sum (n : nat) (g : nat -> R) : R := match n with O => 0 | S k => sum k g + g k end.

(** The Legendre polynomials, by Bonnet's recursion:
    (n+2) P(n+2) = (2n+3) x P(n+1) - (n+1) P(n). *)
Fixpoint legendre2 (n : nat) (x : R) : R * R :=
  match n with
  | O => (1, x)
  | S k => let (a, b) := legendre2 k x in (b, ((2 * INR k + 3) * x * b - (INR k + 1) * a) / (INR k + 2))
  end.
Definition legendre (n : nat) (x : R) : R := fst (legendre2 n x).

(** What makes a function the Legendre polynomial of degree [n]: it is a polynomial of that
    degree, it solves Legendre's equation, and it is one at one. *)
Definition is_legendre (n : nat) (P : R -> R) : Prop :=
  (exists a : nat -> R, forall x, P x = sum (S n) (fun i => a i * x ^ i)) /\
  (exists P' P'', forall x, is_derive P x (P' x) /\ is_derive P' x (P'' x) /\
     (1 - x * x) * P'' x - 2 * x * P' x + INR n * (INR n + 1) * P x = 0) /\
  P 1 = 1.

Section Expected.
  Variable itp : Z -> list R -> list R -> R -> R.
  (** Mode [i] of a table at momentum [p]. *)
  Definition mode (method : Z) (np : nat) (ps f : list R) (i : nat) (p : R) : R :=
    itp method (firstn np ps) (firstn np (skipn (i * np) f)) p.
  (** The distribution of a table: the positive part of the Legendre series, zero outside the
      momentum grid. *)
  Definition code_value (method : Z) (np nleg : nat) (ps f : list R) (p xi : R) : R :=
    let a := nth 0 ps 0 in let b := nth (np - 1) ps 0 in
    if Rlt_dec p (Rmin a b) then 0 else if Rlt_dec (Rmax a b) p then 0 else
    Rmax 0 (sum nleg (fun i => mode method np ps f i p * legendre i (- xi))).
End Expected.

(** The pitch whose Legendre polynomials an object uses to evaluate at [xi]: after
    ToMomentumSpace, whose last pitch is one, that is one for the pitch evaluated last. *)
Fixpoint stale (p0 p1 : R) (h : list call) (last : option R) (tabled : bool) : option R * bool :=
  match h with
  | [] => (last, tabled)
  | CallEval p xi :: rest =>
      if Rlt_dec p p0 then stale p0 p1 rest last tabled
      else if Rlt_dec p1 p then stale p0 p1 rest last tabled
      else match last with
           | Some x => if Req_EM_T xi x then stale p0 p1 rest last tabled else stale p0 p1 rest (Some xi) false
           | None => stale p0 p1 rest (Some xi) false
           end
  | CallTable _ _ _ _ :: rest => stale p0 p1 rest last true
  end.

(** A distribution with at least two modes, newly made. *)
Definition fresh (c : code) : Prop := exists np nleg p f method, code_initialize np nleg p f method = Ok c /\ (2 <= nleg)%nat.
(** Its value at a point. *)
Definition code_at (itp : Z -> list R -> list R -> R -> R) (c : code) : R -> R -> R := code_value itp (c_method c) (c_np c) (c_nleg c) (c_p c) (c_f c).

(** * Files *)
From Verif Require Import NumericModel NumericSpec.
(** A variable of a file that is a vector, as a row or as a column. *)
Definition vector (a : option (marray R)) (l : list R) : Prop :=
  exists m, a = Some m /\ (stored m 1 (length l) (fun _ i => nth i l 0) \/ stored m (length l) 1 (fun i _ => nth i l 0)).
(** A variable that is a single number. *)
Definition number (a : option (marray R)) (x : R) : Prop := exists m, a = Some m /\ stored m 1 1 (fun _ _ => x).
(** A variable that may be missing and then counts as one. *)
Definition number_or_one (a : option (marray R)) (x : R) : Prop := (a = None /\ x = 1) \/ number a x.
(** A CODE file: momenta [ys] in units of [delta], [nt] time slices of [nleg] modes, and the
    reference density and temperature. *)
Definition describes (m : cfile) (ys : list R) (delta nref Tref : R) (nleg nt : nat) (g : nat -> nat -> R) : Prop :=
  vector (cf_y m) ys /\ number (cf_delta m) delta /\ number_or_one (cf_nref m) nref /\ number_or_one (cf_Tref m) Tref /\
  number (cf_Nxi m) (INR nleg) /\ exists f, cf_f m = Some f /\ stored f nt (length ys * nleg) g.
(** Momenta that an interpolation method takes: strictly increasing, and at least two for the
    linear (0) and the periodic cubic spline (3), three for the polynomial (1), the cubic spline
    (2) and the Steffen method (6), and five for the Akima methods (4, 5). *)
Definition takes (method : Z) (p : list R) : Prop :=
  ascending p /\
  (((method = 0 \/ method = 3)%Z /\ (2 <= length p)%nat) \/ ((method = 1 \/ method = 2 \/ method = 6)%Z /\ (3 <= length p)%nat) \/
   ((method = 4 \/ method = 5)%Z /\ (5 <= length p)%nat)).
(** The slice a time index stands for: negative ones count from the end. *)
Definition slice_of (nt : nat) (time : Z) (t : nat) : Prop :=
  (t < nt)%nat /\ (time = Z.of_nat t \/ time = Z.of_nat t - Z.of_nat nt)%Z.
(** [z] is [x] without its digits behind the point. *)
Definition without_fraction (x : R) (z : Z) : Prop :=
  (0 <= x -> IZR z <= x < IZR z + 1) /\ (x <= 0 -> IZR z - 1 < x <= IZR z).
