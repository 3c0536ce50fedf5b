(** Model of the linear interpolations of the GNU Scientific Library that the distribution
    functions call.
    Sources: src/DistributionFunction/NumericMomentumSpaceDistributionFunction.cpp:38-41, 89-97
    [gsl_interp2d_bilinear] and src/DistributionFunction/CODEDistributionFunction.cpp:252,
    309-335 [gsl_interp_linear].  The library is not part of the repository; this is its
    documented behaviour, for points inside the grid.  DistributionModel and CodeModel leave
    the interpolation open. *)
From Coq Require Import Reals.
From Verif Require Import Base DomainModel DistributionModel.
Local Open Scope R_scope.

(** The search of the library, [gsl_interp_bsearch]: the interval that holds [x] between the
    indices [lo] and [hi].  The accelerator objects remember the last interval and give the
    same one (NumericMomentumSpaceDistributionFunction.cpp:38-41,
    CODEDistributionFunction.cpp:252).  Indices stay inside the grid. *)
Fixpoint gsl_bsearch (xs : list R) (x : R) (fuel lo hi : nat) : nat :=
  match fuel with
  | O => lo
  | S f =>
      if (hi <=? lo + 1)%nat then lo
      else let i := ((hi + lo) / 2)%nat in
           if Rltb x (nth i xs 0) then gsl_bsearch xs x f lo i else gsl_bsearch xs x f i hi
  end.
(** The interval of the whole grid (NumericMomentumSpaceDistributionFunction.cpp:38-41,
    CODEDistributionFunction.cpp:252). *)
Definition interval (xs : list R) (x : R) : nat := gsl_bsearch xs x (length xs) 0 (length xs - 1).

(** [gsl_interp_linear] (CODEDistributionFunction.cpp:252, 309-311). *)
Definition gsl_linear (xs ys : list R) (x : R) : R :=
  let i := interval xs x in
  nth i ys 0 + (x - nth i xs 0) / (nth (S i) xs 0 - nth i xs 0) * (nth (S i) ys 0 - nth i ys 0).

(** A finite number times a double: zero times infinity is not a number
    (NumericMomentumSpaceDistributionFunction.cpp:38-41). *)
Definition xscale (c : R) (z : xreal) : xreal :=
  match z with
  | Fin v => Fin (c * v)
  | NaN => NaN
  | PInf => if Rlt_dec 0 c then PInf else if Rlt_dec c 0 then NInf else NaN
  | NInf => if Rlt_dec 0 c then NInf else if Rlt_dec c 0 then PInf else NaN
  end.
(** Addition of doubles without rounding and overflow
    (NumericMomentumSpaceDistributionFunction.cpp:38-41). *)
Definition xadd (a b : xreal) : xreal :=
  match a, b with
  | NaN, _ => NaN | _, NaN => NaN
  | Fin u, Fin v => Fin (u + v)
  | PInf, NInf => NaN | NInf, PInf => NaN
  | PInf, _ => PInf | _, PInf => PInf
  | NInf, _ => NInf | _, NInf => NInf
  end.
(** [gsl_interp2d_bilinear] on the grids [xs] and [ys]; the value at point [i] of the first
    and [j] of the second is number [j * length xs + i] of the table
    (NumericMomentumSpaceDistributionFunction.cpp:38-41, 89-91). *)
Definition gsl_bilinear (xs ys : list R) (z : list xreal) (x y : R) : xreal :=
  let i := interval xs x in let j := interval ys y in
  let t := (x - nth i xs 0) / (nth (S i) xs 0 - nth i xs 0) in
  let u := (y - nth j ys 0) / (nth (S j) ys 0 - nth j ys 0) in
  let at_ (i j : nat) := nth (j * length xs + i) z NaN in
  xadd (xadd (xadd (xscale ((1 - t) * (1 - u)) (at_ i j)) (xscale (t * (1 - u)) (at_ (S i) j)))
             (xscale ((1 - t) * u) (at_ i (S j)))) (xscale (t * u) (at_ (S i) (S j))).
