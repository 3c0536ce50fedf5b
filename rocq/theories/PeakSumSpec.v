(** What is expected of the integral of a peaked function (C116), independently of the code. *)
From Coq Require Import Reals.
Local Open Scope R_scope.

(** [f] increases from [lo] to [top] and decreases from there to [hi]. *)
Definition peaked (f : R -> R) (lo top hi : R) : Prop :=
  (forall x y, lo <= x -> x < y -> y <= top -> f x < f y) /\ (forall x y, top <= x -> x < y -> y <= hi -> f y < f x).
(** Nowhere negative, and changing by at most [K] per unit length. *)
Definition nonnegative (f : R -> R) (lo hi : R) : Prop := forall x, lo <= x <= hi -> 0 <= f x.
Definition slope_at_most (K : R) (f : R -> R) (lo hi : R) : Prop :=
  forall x y, lo <= x <= hi -> lo <= y <= hi -> Rabs (f x - f y) <= K * Rabs (x - y).
(** [Phi] is an antiderivative: the integral of [f] from [a] to [b] is Phi b - Phi a. *)
Definition antiderivative_of (Phi f : R -> R) (lo hi : R) : Prop := forall x, lo <= x <= hi -> derivable_pt_lim Phi x (f x).
(** The bound of the error: the steps, the part of the function that is cut off, and the
    limits of the interval, which are not multiples of the step away from the peak. *)
Definition sum_error (a b w cutoff K height : R) : R := (K * w + cutoff * height) * (b - a + 4 * w) + 5 * w * height.
