(** What is expected of the analytical distribution functions, independently of the code. *)
From Coq Require Import Reals.
From Verif Require Import Base LoaderModel CodeModel ProfileModel.
Local Open Scope R_scope.

(** A radius in the interval of a profile. *)
Definition inside (rmin rmax x : R) : Prop := rmin <= x < rmax.
(** Position in the interval, from 0 to 1. *)
Definition normalized (rmin rmax x : R) : R := (x - rmin) / (rmax - rmin).
(** Powers of a number that is not negative, with a positive exponent. *)
Definition power (x b : R) : R := if Req_EM_T x 0 then 0 else exp (b * ln x).
(** The profiles that can be made, and their limits. *)
Inductive constructed : profile -> Prop :=
| made_uniform : constructed Uniform
| made_linear : forall rmin rmax f, make_linear rmin rmax = Ok f -> constructed f
| made_power : forall rmin rmax b f, make_power rmin rmax b = Ok f -> constructed f
| made_gaussian : forall rmin rmax a b c f, make_gaussian rmin rmax a b c = Ok f -> constructed f
| made_bessel : forall rmin rmax f, make_bessel rmin rmax = Ok f -> constructed f.

(** The documented momentum distributions. *)
Definition avalanche (EHat lnLambda Zeff p xi : R) : R :=
  let gamma := sqrt (1 + p ^ 2) in let A := (EHat + 1) / (Zeff + 1) * gamma in let gamma0 := lnLambda * sqrt (Zeff + 5) in
  electron_mass * light_speed * A / (2 * PI * gamma0 * p ^ 2) * exp (- gamma / gamma0 - A * (1 - Rabs xi)) / (1 - exp (- (2 * A))).
(** In terms of the momenta along and across the field. *)
Definition connor_hastie (EHat Zeff ppar pperp2 : R) : R := 1 / ppar * exp (- (EHat + 1) / (2 * (Zeff + 1)) * pperp2 / ppar).
Inductive made_analytic : analytic -> Prop :=
| made_avalanche : forall EHat lnLambda Zeff f, make_avalanche EHat lnLambda Zeff = Some f -> made_analytic f
| made_connor_hastie : forall EHat Zeff pMax deltaP f, make_connor_hastie EHat Zeff pMax deltaP = Some f -> made_analytic f
| made_exp : forall C, made_analytic (ExpPitch C)
| made_unit : made_analytic Unit.
