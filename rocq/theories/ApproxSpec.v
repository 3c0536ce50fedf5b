(** What it means that a table approximates a function, independently of the code. *)
From Coq Require Import Reals.
From Verif Require Import Base NumericSpec DistributionModel DistributionSpec ApproxModel.
Local Open Scope R_scope.

(** The interpolation with method "linear" is the bilinear one; nothing is said about others. *)
Definition bilinear (spline : bool -> list R -> list R -> list xreal -> R -> R -> xreal) : Prop :=
  forall xs ys z x y, spline false xs ys z x y = gsl_bilinear xs ys z x y.
(** The same in one dimension, method 0. *)
Definition linear (itp : Z -> list R -> list R -> R -> R) : Prop :=
  forall xs ys x, itp 0%Z xs ys x = gsl_linear xs ys x.

(** [g] is twice differentiable between [a] and [b], its second derivative at most [M]. *)
Definition bends (M a b : R) (g : R -> R) : Prop :=
  exists g' g'' : R -> R, forall x, a <= x <= b ->
    derivable_pt_lim g x (g' x) /\ derivable_pt_lim g' x (g'' x) /\ Rabs (g'' x) <= M.

(** Neighbours on the grid are at most [h] apart. *)
Definition spacing (h : R) (l : list R) : Prop :=
  forall i a b, nth_error l i = Some a -> nth_error l (S i) = Some b -> b - a <= h.
(** The points that lie within the grid. *)
Definition within (l : list R) (x : R) : Prop :=
  exists a b, nth_error l 0 = Some a /\ nth_error l (length l - 1) = Some b /\ a <= x <= b.

(** The table holds the values of [F] on the grid, momenta running fastest. *)
Definition samples {A : Type} (ps xs : list R) (f : list A) (F : R -> R -> A) : Prop :=
  forall i j p x, nth_error ps i = Some p -> nth_error xs j = Some x -> nth_error f (j * length ps + i) = Some (F p x).

(** [F] bends at most [Mp] with the momentum and [Mx] with the pitch, inside the grids. *)
Definition smooth (Mp Mx : R) (ps xs : list R) (F : R -> R -> R) : Prop :=
  (forall a b x, nth_error ps 0 = Some a -> nth_error ps (length ps - 1) = Some b -> within xs x -> bends Mp a b (fun p => F p x)) /\
  (forall a b p, nth_error xs 0 = Some a -> nth_error xs (length xs - 1) = Some b -> within ps p -> bends Mx a b (F p)).
