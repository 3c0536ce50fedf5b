(** The times of the Runge-Kutta integrator with rounding (include/softlib/Integrator/RungeKutta.tcc).

    [IntegratorModel] computes over the real numbers.  Here the operations that make the step
    sizes and the times are followed by a rounding, and everything else - the equation, the
    error estimate, pow - is an input: each attempt of [Step] comes with the outcome of
    its error estimate. *)
Require Import Reals List.
Import ListNotations.
Local Open Scope R_scope.

(** How the estimated error of one attempt compares (RungeKutta.tcc 146-151, 170): it is NaN,
    zero, in (0, 1], or larger than 1.  The number is the value of [safe*pow(err, -alpha) *
    pow(errold, beta)] (RungeKutta.tcc 154) or [safe*pow(err, -alpha)] (RungeKutta.tcc 171), as
    computed; an infinite value is represented by any number above [maxscale] in the first
    case.  Not modelled: these expressions being NaN, and in the second case infinite, which
    takes a NaN or negative [alpha], [beta] or [safe]. *)
Inductive rattempt : Type := ANaN | AZero | AOk (w : R) | ABad (w : R).

(** What becomes of an attempt: its result is stored at a time, it is done again with
    another step size, or the exception is thrown (RungeKutta.tcc 97-110). *)
Inductive revent : Type := Stored (t : R) | Retry | Thrown.

(** The last time stored, the step size of the next attempt and [previous_step_rejected]
    (RungeKutta.h:11, 19, 30). Between the attempts [h] and [optimal_step] agree, since
    [h = optimal_step] is executed before each of them (RungeKutta.tcc 91, 99). *)
Record rstate : Type := RState { r_time : R; r_step : R; r_rej : bool }.

Section Rounded.
(** The rounding of the result of an operation; overflow is not modelled. *)
Variable rnd : R -> R.
(** The literal [1e-1] (RungeKutta.tcc 147), REAL_EPSILON (RungeKutta.tcc 100), [minscale] and
    [maxscale] (RungeKutta.h:27-28). *)
Variables tenth eps minscale maxscale : R.

(** RungeKutta.tcc 151-158: the factor after an accepted step. *)
Definition accept_scale (w : R) : R :=
  let s := if Rlt_dec w minscale then minscale else w in
  if Rlt_dec maxscale s then maxscale else s.
(** RungeKutta.tcc 160-169 and 107-110 with 91 of the next call: the step is stored. *)
Definition accepted (s : rstate) (scale : R) : revent * rstate :=
  let t := rnd (r_time s + r_step s) in
  (Stored t, RState t (rnd (r_step s * (if r_rej s then Rmin scale 1 else scale))) false).
(** RungeKutta.tcc 99-101 after a rejected attempt. *)
Definition rejected (s : rstate) (scale : R) : revent * rstate :=
  let h := rnd (r_step s * scale) in
  (if Rle_dec (Rabs h) (rnd (Rabs (r_time s) * eps)) then Thrown else Retry, RState (r_time s) h true).
(** RungeKutta.tcc 94-110 with 144-176: one attempt. *)
Definition attempt_step (s : rstate) (a : rattempt) : revent * rstate :=
  match a with
  | ANaN => rejected s tenth
  | AZero => accepted s maxscale
  | AOk w => accepted s (accept_scale w)
  | ABad w => rejected s (Rmax w minscale)
  end.
(** Any number of attempts, over as many calls of [Step] as it takes; when the exception has
    been thrown, the next attempt belongs to another call of [Step] (RungeKutta.tcc 86-113). *)
Fixpoint run_attempts (s : rstate) (l : list rattempt) : list revent * rstate :=
  match l with
  | [] => ([], s)
  | a :: r => let (e, s1) := attempt_step s a in let (es, s2) := run_attempts s1 r in (e :: es, s2)
  end.
End Rounded.

(** RungeKutta.tcc 22-27 and 71-78: the state after the initial value has been set. *)
Definition rstart : rstate := RState 0 1 false.
