(** Model of the analytical magnetic field.
    Source: src/MagneticField/MagneticFieldAnalytical2D.cpp, MagneticFieldAnalytical2D.q.cpp,
    include/softlib/MagneticField/MagneticFieldAnalytical2D.h.
    [slibreal_t] is taken to be the real numbers (no rounding).  [None]: some intermediate
    result is not a finite number (a division by zero, a power that is infinite or NaN). *)
From Coq Require Import Reals.
From Verif Require Import Base DomainModel.
Local Open Scope R_scope.

(** MagneticFieldAnalytical2D.h:9-15. *)
Inductive qtype : Type := QConstant | QLinear | QQuadratic | QExponential | QCurrent.
(** MagneticFieldAnalytical2D.h:17-20. *)
Inductive fsign : Type := CW | CCW.
(** MagneticFieldAnalytical2D.h:31-36.  The second profile parameter may be infinite
    ([None]). *)
Record afield : Type := AField
  { a_B0 : R; a_Rm : R; a_zax : R; a_rminor : R; a_sB : R; a_sI : R; a_qt : qtype; a_q1 : R; a_q2 : option R }.

(** Division of doubles, passing on the quotient
    (MagneticFieldAnalytical2D.cpp:117-119, 150-156). *)
Definition ediv {A : Type} (x y : R) (k : R -> option A) : option A := if Req_EM_T y 0 then None else k (x / y).
(** [pow] of the C library; powers of negative numbers are left out
    (MagneticFieldAnalytical2D.q.cpp:33, 59). *)
Definition cpow {A : Type} (x a : R) (k : R -> option A) : option A :=
  if Rlt_dec 0 x then k (Rpower x a)
  else if Req_EM_T x 0 then (if Rlt_dec 0 a then k 0 else if Req_EM_T a 0 then k 1 else None)
  else None.

(** MagneticFieldAnalytical2D.q.cpp:16-36 [__GetSafetyFactor]. *)
Definition safety_factor (f : afield) (r : R) : option R :=
  ediv r (a_rminor f) (fun rn =>
  match a_qt f, a_q2 f with
  | QConstant, _ => Some (a_q1 f)
  | QLinear, Some q2 => Some (a_q1 f * rn + q2)
  | QQuadratic, Some q2 => Some (a_q1 f * rn * rn + q2)
  | QExponential, Some q2 => Some (exp (rn * a_q1 f) + q2)
  | QCurrent, None => Some (a_q1 f)
  | QCurrent, Some q2 =>
      ediv 2 (q2 + 2) (fun c => cpow rn q2 (fun an => ediv (a_q1 f) (1 - c * an) Some))
  | _, None => None
  end).
(** MagneticFieldAnalytical2D.q.cpp:43-69 [__GetrDqDr]. *)
Definition r_dq_dr (f : afield) (r : R) : option R :=
  ediv r (a_rminor f) (fun rn =>
  match a_qt f, a_q2 f with
  | QConstant, _ => Some 0
  | QLinear, _ => Some (a_q1 f * rn)
  | QQuadratic, _ => Some (2 * a_q1 f * rn * rn)
  | QExponential, _ => Some (exp (rn * a_q1 f) * a_q1 f * rn)
  | QCurrent, None => Some 0
  | QCurrent, Some q2 =>
      cpow rn q2 (fun an => ediv 2 (q2 + 2) (fun c =>
      let den := 1 - c * an in
      ediv (2 * q2) (q2 + 2) (fun c2 => ediv (c2 * a_q1 f) (den * den) (fun v => Some (v * an)))))
  end).

(** MagneticFieldAnalytical2D.cpp:40-61, without the domain. *)
Definition sign_of (s : fsign) : R := match s with CW => -1 | CCW => 1 end.
Definition new_afield (B0 Rm zax rminor : R) (sB sI : fsign) (qt : qtype) (q1 : R) (q2 : option R) : afield :=
  AField B0 Rm zax rminor (sign_of sB) (sign_of sI) qt q1 q2.
(** MagneticFieldAnalytical2D.cpp:67-75 [Clone], without the domain. *)
Definition clone_afield (f : afield) : afield :=
  new_afield (a_B0 f) (a_Rm f) (a_zax f) (a_rminor f) (if Rlt_dec 0 (a_sB f) then CCW else CW)
    (if Rlt_dec 0 (a_sI f) then CCW else CW) (a_qt f) (a_q1 f) (a_q2 f).
(** MagneticFieldAnalytical2D.h:64 [SetB0]. *)
Definition set_B0 (f : afield) (B0 : R) : afield :=
  AField B0 (a_Rm f) (a_zax f) (a_rminor f) (a_sB f) (a_sI f) (a_qt f) (a_q1 f) (a_q2 f).

(** MagneticFieldAnalytical2D.cpp:86-101: the points of the domain. *)
Definition domain_point (f : afield) (i : nat) : point :=
  let theta := 2 * PI * (INR i / INR 49) in
  (a_Rm f + a_rminor f * cos theta, a_zax f + a_rminor f * sin theta).
Definition domain_points (f : afield) : list point := map (domain_point f) (seq 0 49) ++ [domain_point f 0].
(** MagneticFieldAnalytical2D.cpp:36-62: the whole constructor, as far as the domain is
    concerned (lines 49-50, 61 and 103). *)
Definition construct (f : afield) : outcome unit * field :=
  set_domain (new_field (a_Rm f, a_zax f)) (domain_points f) (domain_points f).

Notation vec3 := (R * R * R)%type.
(** MagneticFieldAnalytical2D.cpp:114-121 and 147-156: R, r, sin and cos of the poloidal
    angle, sin and cos of the toroidal angle. *)
Definition geometry {A : Type} (f : afield) (x y z : R) (k : R -> R -> R -> R -> R -> R -> R -> option A) : option A :=
  let R := hypot x y in
  let Z := z - a_zax f in
  let r := hypot (a_Rm f - R) Z in
  ediv 1 R (fun iR =>
  if Req_EM_T r 0 then k R Z r 0 0 (y * iR) (x * iR)
  else k R Z r (Z / r) ((a_Rm f - R) / r) (y * iR) (x * iR)).
(** MagneticFieldAnalytical2D.cpp:113-130 [Eval]. *)
Definition eval (f : afield) (x y z : R) : option vec3 :=
  geometry f x y z (fun R Z r sintheta costheta sinphi cosphi =>
  let iR := 1 / R in
  let pf := a_B0 f * a_Rm f * iR in
  match safety_factor f r with
  | None => None
  | Some q =>
      ediv r (a_Rm f * q) (fun t1 =>
      Some (pf * (a_sI f * t1 * (sintheta * cosphi) - a_sB f * sinphi),
            pf * (a_sI f * t1 * (sintheta * sinphi) + a_sB f * cosphi),
            pf * (a_sI f * t1 * costheta)))
  end).

(** MagneticField2D.h:9-15. *)
Record magdata : Type := MagData
  { m_B : vec3; m_gradB : vec3; m_curlB : vec3; m_Babs : R; m_J0 : vec3; m_J1 : vec3; m_J2 : vec3 }.
(** MagneticFieldAnalytical2D.cpp:144-194 [EvalDerivatives]. *)
Definition eval_derivatives (f : afield) (x y z : R) : option magdata :=
  geometry f x y z (fun R Z r sintheta costheta sinphi cosphi =>
  let iR := 1 / R in
  let B0 := a_B0 f in let Rm := a_Rm f in let sigmaB := a_sB f in let sigmaI := a_sI f in
  match safety_factor f r, r_dq_dr f r with
  | Some q, Some rdq_dr =>
      ediv r (Rm * q) (fun r_qRm =>
      let sqr := sqrt (r_qRm * r_qRm + 1) in
      let DBr := B0 * Rm * iR * (r_qRm / (Rm * q) * (1 - rdq_dr) / sqr + costheta * iR * sqr) in
      let DB0 := - B0 * Rm * sintheta * iR * iR * sqr in
      let ddr_rB0 := sigmaI * B0 * iR / q * (Rm * iR + 1 - rdq_dr / q) in
      Some (MagData
        (B0 * Rm * iR * (sigmaI * r_qRm * (sintheta * cosphi) - sigmaB * sinphi),
         B0 * Rm * iR * (sigmaI * r_qRm * (sintheta * sinphi) + sigmaB * cosphi),
         B0 * Rm * iR * (sigmaI * r_qRm * costheta))
        (- DBr * costheta * cosphi + DB0 * sintheta * cosphi,
         - DBr * costheta * sinphi + DB0 * sintheta * sinphi,
         DBr * sintheta + DB0 * costheta)
        (- ddr_rB0 * sinphi, ddr_rB0 * cosphi, 0)
        (B0 * Rm * iR * sqr)
        (B0 * Rm * (sigmaI * Z / (q * Rm * R * R) * (1 - 2 * cosphi * cosphi) + 2 * sigmaB / (R * R) * sinphi * cosphi
           + sigmaI * rdq_dr / (q * q * Rm * R) * cosphi * cosphi * sintheta * costheta),
         B0 * Rm * (2 * sigmaB / (R * R) * sinphi * sinphi - sigmaB / (R * R) - 2 * sigmaI * Z / (q * Rm * R * R) * sinphi * cosphi
           + sigmaI * rdq_dr / (q * q * Rm * R) * sinphi * cosphi * sintheta * costheta),
         sigmaI * B0 / (q * R) * cosphi * (1 - rdq_dr / q * sintheta * sintheta))
        (B0 * Rm * (sigmaB / (R * R) - 2 * sigmaB / (R * R) * cosphi * cosphi - 2 * sigmaI * Z / (q * Rm * R * R) * sinphi * cosphi
           + sigmaI * rdq_dr / (q * q * Rm * R) * sinphi * cosphi * sintheta * costheta),
         B0 * Rm * (sigmaI * Z / (q * Rm * R * R) * (1 - 2 * sinphi * sinphi) - 2 * sigmaB / (R * R) * sinphi * cosphi
           + sigmaI * rdq_dr / (q * q * Rm * R) * sinphi * sinphi * sintheta * costheta),
         sigmaI * B0 / (q * R) * sinphi * (1 - rdq_dr / q * sintheta * sintheta))
        (sigmaI * B0 / (q * R) * cosphi * (rdq_dr / q * costheta * costheta - Rm / R),
         sigmaI * B0 / (q * R) * sinphi * (rdq_dr / q * costheta * costheta - Rm / R),
         - sigmaI * B0 / (q * q * R) * rdq_dr * sintheta * costheta)))
  | _, _ => None
  end).

(** MagneticFieldAnalytical2D.cpp:205-216 [EvalFlux]. *)
Definition eval_flux (f : afield) (x y z : R) : option R :=
  let R := sqrt (x * x + y * y) in
  let Z := z - a_zax f in
  let r2 := Z * Z + (a_Rm f - R) * (a_Rm f - R) in
  match safety_factor f (sqrt r2) with
  | None => None
  | Some q => ediv (a_sI f * PI * a_B0 f * r2) q Some
  end.
(** MagneticFieldAnalytical2D.cpp:231-253 [EvalFluxDerivatives]: psi and its derivatives with
    respect to R and Z. *)
Definition eval_flux_derivatives (f : afield) (x y z : R) : option vec3 :=
  let R := sqrt (x * x + y * y) in
  let Z := z - a_zax f in
  let r2 := Z * Z + (a_Rm f - R) * (a_Rm f - R) in
  let r := sqrt r2 in
  match safety_factor f r, r_dq_dr f r with
  | Some q, Some rdqdr =>
      ediv (a_sI f * PI * a_B0 f * r2) q (fun psi =>
      Some (psi, a_sI f * PI * a_B0 f * (R - a_Rm f) / q * (2 - rdqdr / q), a_sI f * PI * a_B0 f * Z / q * (2 - rdqdr / q)))
  | _, _ => None
  end.

(** MagneticFieldAnalytical2D.cpp:262-314 [ToNumeric2D]: the grid of [nr] radii and [nz]
    heights, and the field at node (i, j), which is stored in element [i + j*nr]. *)
Definition node {A : Type} (lo hi : R) (n i : nat) (k : R -> option A) : option A :=
  ediv ((hi - lo) * INR i) (INR n - 1) (fun v => k (lo + v)).
Definition node_R {A : Type} (f : afield) (nr i : nat) (k : R -> option A) : option A :=
  node (a_Rm f - a_rminor f) (a_Rm f + a_rminor f) nr i k.
Definition node_Z {A : Type} (f : afield) (nz j : nat) (k : R -> option A) : option A :=
  node (a_zax f - a_rminor f) (a_zax f + a_rminor f) nz j k.
Definition node_field (f : afield) (nr nz i j : nat) : option vec3 :=
  node_R f nr i (fun R => node_Z f nz j (fun Z => eval f R 0 Z)).
(** The three arrays, as lists of [nr*nz] elements (line 288-296); [None] if some element is
    not finite.  The flux array is allocated (line 280) but never filled
    (MagneticFieldAnalytical2D.cpp:286-295). *)
Definition to_numeric (f : afield) (nr nz : nat) : list (option vec3) :=
  flat_map (fun j => map (fun i => node_field f nr nz i j) (seq 0 nr)) (seq 0 nz).
