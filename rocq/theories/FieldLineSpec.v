(** Field lines of the analytical magnetic field. *)
From Coq Require Import Reals.
From Verif Require Import Base DomainModel AnalyticalModel AnalyticalSpec.
Local Open Scope R_scope.

(** Between [s0] and [s1] the curve (x, y, z) goes along the field: at each of its points the field is
    defined and the velocity of the curve is a multiple of it (in any parametrisation). *)
Definition field_line (f : afield) (x y z : R -> R) (s0 s1 : R) : Prop :=
  forall s, s0 <= s <= s1 -> exists b k, eval f (x s) (y s) (z s) = Some b /\
    derivable_pt_lim x s (k * c0 b) /\ derivable_pt_lim y s (k * c1 b) /\ derivable_pt_lim z s (k * c2 b).
(** The curve lies on the torus of minor radius [r] about the magnetic axis; [theta] is its poloidal
    angle and [phi] its toroidal angle, both without jumps. *)
Definition on_torus (f : afield) (r : R) (theta phi x y z : R -> R) : Prop :=
  forall s,
    x s = (a_Rm f + r * cos (theta s)) * cos (phi s) /\ y s = (a_Rm f + r * cos (theta s)) * sin (phi s) /\
    z s = a_zax f + r * sin (theta s) /\
    (exists t', derivable_pt_lim theta s t') /\ (exists p', derivable_pt_lim phi s p').
(** Toroidal turns per poloidal turn of a field line on the surface of minor radius [r] where the profile has
    the value [q]. *)
Definition turns (f : afield) (r q : R) : R := q / sqrt (1 - (r / a_Rm f) * (r / a_Rm f)).
