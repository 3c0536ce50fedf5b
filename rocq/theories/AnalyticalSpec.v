(** Derivatives of functions that need not be defined everywhere, and vectors. *)
From Coq Require Import Reals.
From Verif Require Import Base DomainModel AnalyticalModel.
Local Open Scope R_scope.

(** [F] is defined around [x] and [l] is its derivative there. *)
Definition deriv_at (F : R -> option R) (x l : R) : Prop :=
  exists v0, F x = Some v0 /\ forall eps, 0 < eps -> exists delta, 0 < delta /\
  forall h, h <> 0 -> Rabs h < delta -> exists v, F (x + h) = Some v /\ Rabs ((v - v0) / h - l) < eps.
(** The derivative of [F] in the direction (u, v, w). *)
Definition deriv_along (F : R -> R -> R -> option R) (x y z u v w l : R) : Prop :=
  deriv_at (fun t => F (x + t * u) (y + t * v) (z + t * w)) 0 l.
Definition c0 (v : vec3) : R := fst (fst v).
Definition c1 (v : vec3) : R := snd (fst v).
Definition c2 (v : vec3) : R := snd v.
Definition dot3 (a b : vec3) : R := c0 a * c0 b + c1 a * c1 b + c2 a * c2 b.
(** Components of a vector field. *)
Definition component (c : vec3 -> R) (F : R -> R -> R -> option vec3) (x y z : R) : option R :=
  match F x y z with Some v => Some (c v) | None => None end.
(** Distance from the symmetry axis and from the magnetic axis. *)
Definition major (x y : R) : R := sqrt (x * x + y * y).
Definition minor (f : afield) (x y z : R) : R :=
  sqrt ((a_Rm f - major x y) * (a_Rm f - major x y) + (z - a_zax f) * (z - a_zax f)).
(** The Euclidean norm of a vector field. *)
Definition magnitude (F : R -> R -> R -> option vec3) (x y z : R) : option R :=
  match F x y z with Some b => Some (sqrt (dot3 b b)) | None => None end.
(** A field orientation. *)
Definition is_sign (s : R) : Prop := s = 1 \/ s = -1.
(** A vector turned about the z axis by the angle [phi]. *)
Definition turn (phi : R) (b : vec3) : vec3 := (c0 b * cos phi - c1 b * sin phi, c0 b * sin phi + c1 b * cos phi, c2 b).
Definition scale3 (k : R) (b : vec3) : vec3 := (k * c0 b, k * c1 b, k * c2 b).
