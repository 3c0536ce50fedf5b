(** One step of the integrator with a rounding after every operation.
    Sources: include/softlib/Integrator/RKDP45.tcc, include/softlib/RKDP45.h,
    include/softlib/Integrator/RungeKutta.tcc, include/softlib/General/Vector.tcc.

    The rounding [rnd] is a parameter; overflow is not modelled, nor are contractions of a
    product and a sum into one operation.  [rf] is the right-hand side as the program of the
    user computes it. *)
From Coq Require Import Reals List.
From Verif Require Import Base AlgebraModel IntegratorModel.
Import ListNotations.
Local Open Scope R_scope.

Section RoundedStep.
Variable rnd : R -> R.
(** One component of (h*a)*k (RKDP45.tcc:20-36, Vector.tcc:139-144 and 278-279); the coefficient
    is the rounded quotient (RKDP45.h:16-23). *)
Definition r_term (h a x : R) : R := rnd (rnd (h * rnd a) * x).
(** One component of s + (h*a)*k + ..., summed from left to right (Vector.tcc:97-102 and
    229-234). *)
Fixpoint r_sum (h s : R) (l : list (R * R)) : R :=
  match l with [] => s | (a, x) :: r => r_sum h (rnd (s + r_term h a x)) r end.
(** RKDP45.tcc:22, 25, 28, 31: the times T+c*h. *)
Definition r_node (T h c : R) : R := rnd (T + rnd (rnd c * h)).

(** RKDP45.tcc:16-41 [InnerStep]. *)
Definition r_inner_step (rf : R -> vec -> vec) (T h : R) (y dydx : vec) : attempt :=
  let k2 := rf (r_node T h c2) (fun i => r_sum h (y i) [(a21, dydx i)]) in
  let k3 := rf (r_node T h c3) (fun i => r_sum h (y i) [(a31, dydx i); (a32, k2 i)]) in
  let k4 := rf (r_node T h c4) (fun i => r_sum h (y i) [(a41, dydx i); (a42, k2 i); (a43, k3 i)]) in
  let k5 := rf (r_node T h c5) (fun i => r_sum h (y i) [(a51, dydx i); (a52, k2 i); (a53, k3 i); (a54, k4 i)]) in
  let k6 := rf (rnd (T + h)) (fun i => r_sum h (y i) [(a61, dydx i); (a62, k2 i); (a63, k3 i); (a64, k4 i); (a65, k5 i)]) in
  let yout := fun i => r_sum h (y i) [(a71, dydx i); (a73, k3 i); (a74, k4 i); (a75, k5 i); (a76, k6 i)] in
  let dydxout := rf (rnd (T + h)) yout in
  let yerr := fun i => r_sum h (r_term h e1 (dydx i)) [(e3, k3 i); (e4, k4 i); (e5, k5 i); (e6, k6 i); (e7, dydxout i)] in
  Attempt yout dydxout yerr k3 k4 k5 k6.

(** The points that are stored (RungeKutta.tcc:71-78 and 86-113) when the step size control
    accepts the steps [hs]; the last point comes first.  How the steps are chosen is left
    open. *)
Fixpoint r_points (rf : R -> vec -> vec) (y0 : vec) (hs : list R) : (R * vec * vec) * list (R * vec * vec) :=
  match hs with
  | [] => ((0, y0, rf 0 y0), [])
  | h :: r =>
      let '((t, y, yp), l) := r_points rf y0 r in
      let a := r_inner_step rf t h y yp in
      ((rnd (t + h), a_yout a, a_dydxout a), (t, y, yp) :: l)
  end.
End RoundedStep.
