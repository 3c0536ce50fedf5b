(** Vocabulary for the order of the integrator (C122). *)
From Coq Require Import Reals.
From Verif Require Import Base AlgebraModel IntegratorModel IntegratorSpec ConvergeSpec.
Local Open Scope R_scope.

(** [D 0], [D 1], ..., [D m] are a function of time and its first [m] derivatives on [0, Tend],
    all bounded by [M]. *)
Definition derivatives (N : nat) (Tend : R) (m : nat) (M : R) (D : nat -> R -> vec) : Prop :=
  (forall k t j, (k < m)%nat -> 0 <= t <= Tend -> (j < N)%nat -> derivable_pt_lim (fun s => D k s j) t (D (S k) t j)) /\
  (forall k t j, (k <= m)%nat -> 0 <= t <= Tend -> (j < N)%nat -> Rabs (D k t j) <= M).
(** [J] is the Jacobian of [f] along [Y]: the remainder is quadratic in the distance from
    [Y], up to the distance [rho]. *)
Definition jacobian (N : nat) (Tend rho K : R) (f : R -> vec -> vec) (Y : R -> vec) (J : R -> nat -> vec) : Prop :=
  forall t y m, 0 <= t <= Tend -> m <= rho -> close N m y (Y t) ->
  close N (K * m ^ 2) (f t y) (fun j => f t (Y t) j + rsum N (fun i => J t j i * (y i - Y t i))).
(** The entries of [J 0] have two derivatives [J 1] and [J 2] on [0, Tend], bounded by [M]. *)
Definition smooth_matrix (N : nat) (Tend M : R) (J : nat -> R -> nat -> vec) : Prop :=
  forall j, (j < N)%nat -> derivatives N Tend 2 M (fun k t => J k t j).
(** The bound of the global error at time [t] for steps of at most [H]: of fifth order. *)
Definition order_error (C L H delta t : R) : R := (delta + C * H ^ 5 * t) * exp (4 * L * t).
