(** Vocabulary for colours computed with rounding. *)
From Coq Require Import Reals.
From Verif Require Import Base ImageModel.
Local Open Scope R_scope.

(** A component [c] is the integer part of a number within [eps] of the number a fraction [f]
    of the way from [a] to [b]. *)
Definition near_mix (eps f : R) (a b c : Z) : Prop :=
  exists r, Rabs (r - ((1 - f) * IZR a + f * IZR b)) <= eps /\ IZR c <= r < IZR c + 1.
Definition near_blend (eps f : R) (p q c : color) : Prop :=
  near_mix eps f (red p) (red q) (red c) /\ near_mix eps f (green p) (green q) (green c) /\
  near_mix eps f (blue p) (blue q) (blue c).
(** Each component of [c] lies between those of [p] and [q]. *)
Definition between (p q c : color) : Prop :=
  (Z.min (red p) (red q) <= red c <= Z.max (red p) (red q))%Z /\
  (Z.min (green p) (green q) <= green c <= Z.max (green p) (green q))%Z /\
  (Z.min (blue p) (blue q) <= blue c <= Z.max (blue p) (blue q))%Z.
