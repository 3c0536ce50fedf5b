(** Vocabulary for convergence of the integrator (C115). *)
From Coq Require Import ZArith Reals.
From Verif Require Import Base AlgebraModel IntegratorModel IntegratorSpec.
Local Open Scope R_scope.

(** The first [N] components differ by at most [D]. *)
Definition close (N : nat) (D : R) (y z : vec) : Prop := forall j, (j < N)%nat -> Rabs (y j - z j) <= D.
(** [f] is Lipschitz in time and in the components, for times in [0, Tend]. *)
Definition lipschitz (N : nat) (Tend L : R) (f : R -> vec -> vec) : Prop :=
  forall t s y z D, 0 <= t <= Tend -> 0 <= s <= Tend -> close N D y z -> close N (L * (Rabs (t - s) + D)) (f t y) (f s z).
(** [Y] satisfies the differential equation on [0, Tend] ... *)
Definition solves (N : nat) (Tend : R) (f : R -> vec -> vec) (Y : R -> vec) : Prop :=
  forall t j, 0 <= t <= Tend -> (j < N)%nat -> derivable_pt_lim (fun s => Y s j) t (f t (Y t) j).
(** ... with derivatives of at most [F]. *)
Definition speed_at_most (N : nat) (Tend F : R) (f : R -> vec -> vec) (Y : R -> vec) : Prop :=
  forall t j, 0 <= t <= Tend -> (j < N)%nat -> Rabs (f t (Y t) j) <= F.
(** Up to the time [Tend], the times of consecutive points differ by at most [H]. *)
Definition steps_at_most (Tend H : R) (l : list point) : Prop :=
  forall i p q, nth_error l i = Some p -> nth_error l (S i) = Some q -> time_of q <= Tend -> time_of q - time_of p <= H.
(** The first point of [l] is within [delta] of [Y 0]. *)
Definition starts_near (N : nat) (delta : R) (Y : R -> vec) (l : list point) : Prop :=
  forall p, nth_error l 0 = Some p -> close N delta (snd (fst p)) (Y 0).
(** The bound of the global error at time [t], for steps of at most [H]. *)
Definition global_error (L F H delta t : R) : R := (delta + L * (5 + 101 * F) * H * t) * exp (4 * L * t).

(** The linear system y' = A y with [N] unknowns, and a bound of the row sums of |A|. *)
Definition linear_system (N : nat) (A : nat -> nat -> R) : R -> vec -> vec := fun _ y j => rsum N (fun i => A j i * y i).
Definition rows_at_most (N : nat) (A : nat -> nat -> R) (L : R) : Prop := forall j, (j < N)%nat -> rsum N (fun i => Rabs (A j i)) <= L.
(** The solution stays within [B]. *)
Definition size_at_most (N : nat) (Tend B : R) (Y : R -> vec) : Prop := forall t j, 0 <= t <= Tend -> (j < N)%nat -> Rabs (Y t j) <= B.
(** The bound of the global error for linear systems: of fifth order in the step size. *)
Definition linear_error (L B H delta t : R) : R := (delta + 2 * L * (L * H) ^ 5 * B * t) * exp (4 * L * t).
