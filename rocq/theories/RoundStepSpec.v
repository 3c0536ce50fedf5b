(** Vocabulary for the accuracy of the integrator with rounding (C121). *)
From Coq Require Import Reals List.
From Verif Require Import AlgebraModel IntegratorModel ConvergeSpec.
Local Open Scope R_scope.

(** The right-hand side [rf] of the program is within [phi] of [f], for times up to [Tend] and
    components of at most [Bs]. *)
Definition near_rhs (N : nat) (Tend Bs phi : R) (f rf : R -> vec -> vec) : Prop :=
  forall t y, 0 <= t <= Tend -> (forall j, (j < N)%nat -> Rabs (y j) <= Bs) -> close N phi (rf t y) (f t y).
(** What rounding adds to one step of size [h] from the time [T], from components of at most
    [B] with derivatives of at most [G]. *)
Definition step_rounding (u phi B G T h : R) : R := 7 * h * phi + u * (T + 12 * B + h * (1200 * G + 55)).
(** What rounding adds to the error per unit of time, for steps of at least [hmin]. *)
Definition round_rate (u phi L F B Tend hmin : R) : R :=
  7 * phi + u * (1200 * (F + L) + F + 55) + u * ((1 + F) * Tend + 12 * (B + 1)) / hmin.
(** The bound of the global error, if a step adds at most [c0] times its size without rounding. *)
Definition rounded_error (u phi L F B Tend hmin c0 delta t : R) : R :=
  (delta + 2 * (c0 + round_rate u phi L F B Tend hmin) * t) * exp (8 * L * t).
