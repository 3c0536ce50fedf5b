(** Vocabulary for vectors and matrices with rounding. *)
From Coq Require Import Reals ZArith.
From Flocq Require Import Core.
From Verif Require Import AlgebraModel RoundSpec.
Local Open Scope R_scope.

(** A rounding with relative error at most [u], and absolute error [eta] where numbers underflow. *)
Definition accurate (rnd : R -> R) (u eta : R) : Prop :=
  0 <= u /\ 0 <= eta /\ forall x, Rabs (rnd x - x) <= u * Rabs x + eta.
(** g 0 + ... + g (n-1). *)
Fixpoint total (n : nat) (g : nat -> R) : R := match n with O => 0 | S k => total k g + g k end.
(** What [n] products and [n] sums add to the error. *)
Definition growth (u : R) (n : nat) : R := (1 + u) ^ n - 1.
Definition lost (u eta : R) (n : nat) : R := 2 * INR n * (1 + u) ^ n * eta.
(** The distance of a computed sum of products from the exact one. *)
Definition near_sum (u eta : R) (n : nat) (g : nat -> R) (x : R) : Prop :=
  Rabs (x - total n g) <= growth u (S n) * total n (fun i => Rabs (g i)) + lost u eta n.
(** Unit roundoff and half of the smallest number of binary64. *)
Definition u64 : R := bpow radix2 (-53).
Definition eta64 : R := bpow radix2 (-1075).
(** Binary64 numbers without bounds on the exponent: no overflow and no underflow. *)
Definition x64 : R -> R := round radix2 (FLX_exp 53) ZnearestE.
(** The exact Euclidean norm. *)
Definition euclid (n : nat) (v : cells) : R := sqrt (total n (fun i => v i * v i)).
(** A vector of integers. *)
Definition integers (n : nat) (v : cells) (z : nat -> Z) : Prop := forall i, (i < n)%nat -> v i = IZR (z i).
