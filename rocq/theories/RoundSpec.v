(** Vocabulary for the times of the integrator with rounding (RoundModel). *)
Require Import Reals List ZArith.
From Flocq Require Import Core.
From Verif Require Import RoundModel.
Import ListNotations.
Local Open Scope R_scope.

(** A rounding: monotone, idempotent, and zero is a number. *)
Definition rounding (rnd : R -> R) : Prop :=
  (forall x y, x <= y -> rnd x <= rnd y) /\ (forall x, rnd (rnd x) = rnd x) /\ rnd 0 = 0.

(** IEEE 754 binary64, round to nearest even, with the exponent not bounded above. *)
Definition b64 : R -> R := round radix2 (FLT_exp (-1074) 53) ZnearestE.
(** DBL_EPSILON. *)
Definition eps64 : R := bpow radix2 (-52).

(** The times that were stored. *)
Fixpoint stored_times (es : list revent) : list R :=
  match es with
  | [] => []
  | Stored t :: r => t :: stored_times r
  | _ :: r => stored_times r
  end.

(** An accepted attempt after which the step shrinks. *)
Definition shrinks (a : rattempt) : Prop := match a with AOk w => w <= 15/16 | _ => False end.
(** A rejected attempt. *)
Definition refused (a : rattempt) : Prop := match a with ANaN => True | ABad w => w <= 15/16 | _ => False end.
