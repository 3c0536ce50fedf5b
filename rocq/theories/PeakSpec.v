(** What is expected of the integration of peaked functions, independently of the code. *)
From Coq Require Import Reals ZArith List.
From Verif Require Import Base.
Local Open Scope R_scope.

(** A function that increases up to [m] and decreases from there, in [0, 2 PI]. *)
Definition unimodal (f : R -> R) (m : R) : Prop :=
  0 <= m <= 2 * PI /\ (forall x y, 0 <= x -> x < y -> y <= m -> f x < f y) /\ (forall x y, m <= x -> x < y -> y <= 2 * PI -> f y < f x).
(** The golden ratio less one, the number between 0 and 1 whose square is its complement. *)
Definition is_golden (g : R) : Prop := 0 < g < 1 /\ g * g = 1 - g.

(** The k-th sample to the right and to the left of a peak at [m]. From the second on there is
    none outside the limits [a] and [b]. *)
Definition right_sample (f : R -> R) (b w m : R) (k : nat) : R :=
  match k with S (S _) => if Rlt_dec (m + INR k * w) b then f (m + INR k * w) else 0 | _ => f (m + INR k * w) end.
Definition left_sample (f : R -> R) (a w m : R) (k : nat) : R :=
  match k with S (S _) => if Rlt_dec a (m - INR k * w) then f (m - INR k * w) else 0 | _ => f (m - INR k * w) end.
(** Sum of both samples from the first to the n-th. *)
Fixpoint sample_sum (f : R -> R) (a b w m : R) (n : nat) : R :=
  match n with O => 0 | S k => sample_sum f a b w m k + (right_sample f b w m n + left_sample f a w m n) end.
(** Trapezoidal rule with steps [w] over the n+1 intervals on either side of a peak. *)
Definition trapezoid (f : R -> R) (a b w m peak : R) (n : nat) : R :=
  w * (peak + sample_sum f a b w m n + 1 / 2 * (right_sample f b w m (S n) + left_sample f a w m (S n))).
