(** What the properties of the numeric field say, without reference to the code. *)
From Coq Require Import Reals.
From Verif Require Import Base DomainModel AnalyticalModel AnalyticalSpec NumericModel.
Local Open Scope R_scope.

(** [lr], [lz]: the partial derivatives of [F] in (r, z), where it is (totally) differentiable. *)
Definition total_derivative (F : R -> R -> R) (r z lr lz : R) : Prop :=
  forall eps, 0 < eps -> exists d, 0 < d /\ forall h k, Rabs h < d -> Rabs k < d ->
  Rabs (F (r + h) (z + k) - F r z - (lr * h + lz * k)) <= eps * Rmax (Rabs h) (Rabs k).
(** Points of the grid, and points in its interior. *)
Definition on_grid (f : nfield) (x y z : R) : Prop := n_rmin f <= major x y <= n_rmax f /\ n_zmin f <= z <= n_zmax f.
Definition interior (f : nfield) (x y z : R) : Prop := n_rmin f < major x y < n_rmax f /\ n_zmin f < z < n_zmax f.
(** A spline whose derivatives are those of its values, in the interior of the grid. *)
Definition smooth (f : nfield) (s : surface) : Prop :=
  forall r z, n_rmin f < r < n_rmax f -> n_zmin f < z < n_zmax f -> total_derivative (s_val s) r z (s_dr s r z) (s_dz s r z).
Definition smooth_field (f : nfield) : Prop := smooth f (n_Br f) /\ smooth f (n_Bphi f) /\ smooth f (n_Bz f).
(** The field as a function that is defined everywhere. *)
Definition field_of (f : nfield) (x y z : R) : option vec3 := Some (eval_num f x y z).
(** A vector of which the parts along the radial, toroidal and vertical directions at (x, y) are given. *)
Definition cylindrical (x y : R) (b : vec3) (br bphi bz : R) : Prop :=
  c0 b = br * (x / major x y) - bphi * (y / major x y) /\ c1 b = br * (y / major x y) + bphi * (x / major x y) /\ c2 b = bz.

(** An array as it is stored: [rows*cols] elements; element of row j and column i. *)
Definition stored {A : Type} (a : marray A) (rows cols : nat) (g : nat -> nat -> A) : Prop :=
  ma_rows a = rows /\ ma_cols a = cols /\ length (ma_data a) = (rows * cols)%nat /\
  forall j i, (j < rows)%nat -> (i < cols)%nat -> nth_error (ma_data a) (j * cols + i) = Some (g j i).
(** The table of a field component: element [i + j*nr] belongs to radius i and height j. *)
Definition tabulates {A : Type} (l : list A) (nr nz : nat) (g : nat -> nat -> A) : Prop :=
  length l = (nr * nz)%nat /\ forall i j, (i < nr)%nat -> (j < nz)%nat -> nth_error l (i + j * nr) = Some (g i j).
(** An array of a file that contains a table, with rows for the heights or with rows for the
    radii (if that can be told from its size). *)
Definition represents {A : Type} (nr nz : nat) (a : marray A) (l : list A) : Prop :=
  exists g, tabulates l nr nz g /\ (stored a nz nr (fun j i => g i j) \/ nr <> nz /\ nr <> O /\ stored a nr nz g).
(** An array that contains the points of a contour, with two rows or with two columns. *)
Definition coordinate (k : nat) (p : point) : R := match k with O => fst p | _ => snd p end.
Definition outlines (a : marray R) (l : list point) : Prop :=
  stored a 2 (length l) (fun k i => coordinate k (nth i l (0, 0))) \/
  length l <> 2%nat /\ l <> [] /\ stored a (length l) 2 (fun i k => coordinate k (nth i l (0, 0))).
(** The same for variables that need not be there. *)
Definition both {A B : Type} (P : A -> B -> Prop) (x : option A) (y : option B) : Prop :=
  match x, y with None, None => True | Some a, Some b => P a b | _, _ => False end.
(** A verification vector that agrees with the first row of a table. *)
Definition agrees {V : Type} (same : V -> V -> bool) (nr : nat) (l : list V) (ver : option (list V)) : Prop :=
  match ver with
  | None => True
  | Some v => (length v <= nr)%nat /\ forall i w, nth_error v i = Some w -> exists u, nth_error l i = Some u /\ same u w = true
  end.
(** Strictly increasing numbers. *)
Definition ascending (l : list R) : Prop := forall i j a b, (i < j)%nat -> nth_error l i = Some a -> nth_error l j = Some b -> a < b.
(** Points that a bicubic interpolation accepts: at least four, each below the next. *)
Definition usable {V : Type} (below : V -> V -> bool) (l : list V) : Prop :=
  (4 <= length l)%nat /\ forall i a b, nth_error l i = Some a -> nth_error l (S i) = Some b -> below a b = true.
