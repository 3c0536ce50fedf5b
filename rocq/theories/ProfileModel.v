(** Model of the analytical distribution functions: radial profiles, momentum distributions and
    their products.
    Source: src/DistributionFunction/LinearRadialProfile.cpp, PowerRadialProfile.cpp,
    GaussianRadialProfile.cpp, BesselRadialProfile.cpp, AnalyticalAvalanche.cpp,
    ConnorHastieDistribution.cpp, ExponentialPitch.cpp, RadialDistributionFunction.cpp,
    MomentumSpaceDistributionFunction.cpp and the headers of the same names.
    Numbers are real (no rounding); [None] is a result that is infinite or not a number.
    Parameters are numbers, and [abs] is the floating point one.  Objects made without
    parameters and not yet initialized are not modelled. *)
From Coq Require Import Reals.
From Verif Require Import Base DomainModel AnalyticalModel CodeModel LoaderModel.
Local Open Scope R_scope.

(** * Radial profiles *)
(** RadialProfile.h:1-10 and its implementations. *)
Inductive profile : Type :=
| Uniform                                          (* UniformRadialProfile.h *)
| Linear (rmin rmax delr : R)                      (* LinearRadialProfile.h *)
| Power (rmin rmax delr b : R)                     (* PowerRadialProfile.h *)
| Gaussian (rmin rmax a b c : R)                   (* GaussianRadialProfile.h *)
| Bessel (rmin rmax : R).                          (* BesselRadialProfile.h *)
(** LinearRadialProfile.cpp:18-25. *)
Definition make_linear (rmin rmax : R) : outcome profile :=
  if Rle_dec rmax rmin then Throw else Ok (Linear rmin rmax (1 / (rmax - rmin))).
(** PowerRadialProfile.cpp:25-33. *)
Definition make_power (rmin rmax b : R) : outcome profile :=
  if Rle_dec rmax rmin then Throw else Ok (Power rmin rmax (1 / (rmax - rmin)) b).
(** GaussianRadialProfile.cpp:21-36. *)
Definition make_gaussian (rmin rmax a b c : R) : outcome profile :=
  if Rle_dec rmax rmin then Throw else if Rle_dec a 0 then Throw else if Rle_dec b 0 then Throw else if Rle_dec c 0 then Throw else
  Ok (Gaussian rmin rmax a b c).
(** BesselRadialProfile.cpp:24-30. *)
Definition make_bessel (rmin rmax : R) : outcome profile :=
  if Rle_dec rmax rmin then Throw else Ok (Bessel rmin rmax).
(** The test that the profiles begin with (LinearRadialProfile.cpp:18-25). *)
Definition outside (rmin rmax rho : R) : bool := if Rle_dec rmax rho then true else if Rlt_dec rho rmin then true else false.
(** BesselRadialProfile.h:15. *)
Definition j0_zero1 : R := 240482555769577 / 10 ^ 14.

Section Bessel.
  (** [gsl_sf_bessel_J0]. *)
  Variable j0 : R -> R.
  (** [Eval]: UniformRadialProfile.h:9, LinearRadialProfile.cpp:33-40, PowerRadialProfile.cpp:41-48,
      GaussianRadialProfile.cpp:44-51, BesselRadialProfile.cpp:38-47. *)
  Definition profile_eval (f : profile) (r drift_shift : R) : option R :=
    let rho := r - drift_shift in
    match f with
    | Uniform => Some 1
    | Linear rmin rmax delr => if outside rmin rmax rho then Some 0 else Some (1 - (rho - rmin) * delr)
    | Power rmin rmax delr b => if outside rmin rmax rho then Some 0 else cpow ((rho - rmin) * delr) b (fun v => Some (1 - v))
    | Gaussian rmin rmax a b c =>
        if outside rmin rmax rho then Some 0 else ediv (- (rho - b) * (rho - b)) (c * c) (fun e => Some (a * exp e))
    | Bessel rmin rmax => if outside rmin rmax rho then Some 0 else ediv (rho - rmin) (rmax - rmin) (fun x => Some (j0 (x * j0_zero1)))
    end.
End Bessel.
(** [MinClone]: UniformRadialProfile.h:10, LinearRadialProfile.cpp:45-47, PowerRadialProfile.cpp:53-55,
    GaussianRadialProfile.cpp:56-58, BesselRadialProfile.cpp:52-54. *)
Definition profile_clone (f : profile) : outcome profile :=
  match f with
  | Uniform => Ok Uniform
  | Linear rmin rmax _ => make_linear rmin rmax
  | Power rmin rmax _ b => make_power rmin rmax b
  | Gaussian rmin rmax a b c => make_gaussian rmin rmax a b c
  | Bessel rmin rmax => make_bessel rmin rmax
  end.

(** * Momentum distributions *)
(** MomentumSpaceDistributionFunction.h and its implementations. *)
Inductive analytic : Type :=
| Avalanche (EHat lnLambda Zeff Ac gmm0 : R)       (* AnalyticalAvalanche.h *)
| ConnorHastie (EHat Zeff pMax deltaP D : R)       (* ConnorHastieDistribution.h *)
| ExpPitch (C : R)                                 (* ExponentialPitch.h *)
| Unit.                                            (* UnitDistributionFunction.h *)
(** AnalyticalAvalanche.cpp:70-79; [None]: a parameter that is not finite. *)
Definition make_avalanche (EHat lnLambda Zeff : R) : option analytic :=
  ediv (EHat + 1) (Zeff + 1) (fun Ac => if Rlt_dec (Zeff + 5) 0 then None else Some (Avalanche EHat lnLambda Zeff Ac (lnLambda * sqrt (Zeff + 5)))).
(** ConnorHastieDistribution.cpp:58-67. *)
Definition make_connor_hastie (EHat Zeff pMax deltaP : R) : option analytic :=
  ediv (EHat + 1) (2 * (Zeff + 1)) (fun D => Some (ConnorHastie EHat Zeff pMax deltaP D)).
(** [Eval]: AnalyticalAvalanche.cpp:47-58, ConnorHastieDistribution.cpp:38-45,
    ExponentialPitch.cpp:33-35, UnitDistributionFunction.h:9-12. *)
Definition analytic_eval (f : analytic) (p xi : R) : option R :=
  match f with
  | Avalanche _ _ _ Ac gmm0 =>
      let p2 := p * p in let gmm := sqrt (p2 + 1) in let A := Ac * gmm in
      ediv (electron_mass * light_speed * A) (2 * PI * gmm0 * p2) (fun f =>
      ediv gmm gmm0 (fun g => ediv (exp (- g - A * (1 - Rabs xi))) (1 - exp (- 2 * A)) (fun e => Some (f * e))))
  | ConnorHastie _ _ pMax deltaP D =>
      ediv 1 (p * Rabs xi) (fun f => ediv (- D * p * (1 - xi * xi)) (Rabs xi) (fun e =>
      if Req_EM_T deltaP 0 then Some (f * exp e) else if Rlt_dec p pMax then Some (f * exp e)
      else let del := (p - pMax) / deltaP in Some (f * exp (e - del * del))))
  | ExpPitch C => Some (exp (C * Rabs xi))
  | Unit => Some 1
  end.
(** [MinClone]: AnalyticalAvalanche.cpp:84-89, ConnorHastieDistribution.cpp:72-74,
    ExponentialPitch.cpp:47-52, UnitDistributionFunction.cpp:10-12. *)
Definition analytic_clone (f : analytic) : option analytic :=
  match f with
  | Avalanche EHat lnLambda Zeff _ _ => make_avalanche EHat lnLambda Zeff
  | ConnorHastie EHat Zeff pMax deltaP _ => make_connor_hastie EHat Zeff pMax deltaP
  | ExpPitch C => Some (ExpPitch C)
  | Unit => Some Unit
  end.

(** * Products *)
Section Product.
  (** Any kind of radial profile and any kind of momentum distribution. *)
  Context {P M : Type}.
  Variable eval_profile : P -> R -> R -> option R.
  Variable eval_momentum : M -> R -> R -> option R.
  Variable clone_profile : P -> outcome P.
  Variable clone_momentum : M -> outcome M.
  (** RadialDistributionFunction.h. *)
  Record product : Type := Product { pr_profile : P; pr_momentum : M }.
  (** RadialDistributionFunction.cpp:28-30. *)
  Definition product_eval (f : product) (rho p xi drift_shift : R) : option R :=
    match eval_profile (pr_profile f) rho drift_shift, eval_momentum (pr_momentum f) p xi with
    | Some a, Some b => Some (a * b)
    | _, _ => None
    end.
  (** RadialDistributionFunction.cpp:49-56. *)
  Definition product_clone (f : product) : outcome product :=
    obind (clone_profile (pr_profile f)) (fun r => obind (clone_momentum (pr_momentum f)) (fun m => Ok (Product r m))).
  (** MomentumSpaceDistributionFunction.cpp:29-41 [ToRadialDistribution] with the profile given
      or with a uniform one. *)
  Definition to_radial (rp : P) (m : M) : product := Product rp m.
  (** MomentumSpaceDistributionFunction.h:20-23: a momentum distribution as a distribution. *)
  Definition momentum_everywhere (m : M) (rho p xi drift_shift : R) : option R := eval_momentum m p xi.
End Product.
Arguments product : clear implicits.
