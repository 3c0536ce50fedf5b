(** What is expected of the numeric distribution functions, independently of the code. *)
From Coq Require Import Reals Permutation.
From Verif Require Import Base NumericSpec DistributionModel.
Local Open Scope R_scope.

(** The straight line through two points. *)
Definition through (r0 f0 r1 f1 x : R) : R := f0 + (x - r0) * ((f1 - f0) / (r1 - r0)).

(** The momentum distributions of [o] have the finite values [vals] at a point. *)
Definition values {D : Type} (ev : D -> R -> R -> outcome (option R)) (o : radial D) (p xi : R) (vals : list R) : Prop :=
  Forall2 (fun d v => ev d p xi = Ok (Some v)) (rd_ms o) vals.

(** [o] holds exactly the distributions of [l], each at its own radius, the radii increasing. *)
Definition holds {D : Type} (o : radial D) (l : list (R * D)) : Prop :=
  ascending (rd_r o) /\ length (rd_ms o) = length (rd_r o) /\ Permutation (combine (rd_r o) (rd_ms o)) l.

(** The limits of [o] are its first and last radius. *)
Definition limits {D : Type} (o : radial D) : Prop :=
  match rd_r o with
  | [] => True
  | a :: _ => exists b, nth_error (rd_r o) (length (rd_r o) - 1) = Some b /\ rd_lim o = Some (a, b)
  end.

(** Strictly decreasing numbers. *)
Definition descending (l : list R) : Prop :=
  forall i j a b, (i < j)%nat -> nth_error l i = Some a -> nth_error l j = Some b -> b < a.

(** Two distributions agree at every point, for every permitted radius. *)
Definition same_values {D : Type} (ev : D -> R -> R -> outcome (option R)) (o o' : radial D) : Prop :=
  forall r p xi s, rd_eval ev o r p xi s = rd_eval ev o' r p xi s.

(** A grid that the interpolation [it] takes: strictly increasing, with at least two points for
    the linear one (0) and four for the others. *)
Definition mesh (it : Z) (l : list R) : Prop := ascending l /\ ((if (it =? 0)%Z then 2 else 4) <= length l)%nat.
