(** Plane geometry used to state the properties of the domain, without reference to the code. *)
From Coq Require Import Reals.
From Verif Require Import Base DomainModel.
Local Open Scope R_scope.

(** [p] and [q] are consecutive points of the contour. *)
Definition edge (pts : list point) (p q : point) : Prop := exists l r, pts = l ++ p :: q :: r.
(** The point a fraction [t] of the way from [p] to [q]. *)
Definition along (p q : point) (t : R) : point := (fst p + t * (fst q - fst p), snd p + t * (snd q - snd p)).
Definition unit_interval (t : R) : Prop := 0 <= t <= 1.
(** The closed segments [p q] and [a b] have a point in common. *)
Definition segments_meet (p q a b : point) : Prop :=
  exists t s, unit_interval t /\ unit_interval s /\ along p q t = along a b s.
Definition parallel (p q a b : point) : Prop :=
  (fst q - fst p) * (snd b - snd a) = (snd q - snd p) * (fst b - fst a).
(** Cylindrical coordinates. *)
Definition to_rz (x y z : R) : point := (sqrt (x * x + y * y), z).

(** [r] is the radius of a point of the contour at height [a]. *)
Definition at_level (a : R) (pts : list point) (r : R) : Prop :=
  exists p q t, edge pts p q /\ unit_interval t /\ along p q t = (r, a).
(** The edges of the contour that reach height [a]. *)
Fixpoint edges_of (pts : list point) : list (point * point) :=
  match pts with p :: ((q :: _) as rest) => (p, q) :: edges_of rest | _ => [] end.
Definition reaches (a : R) (e : point * point) : Prop :=
  exists t, unit_interval t /\ snd (along (fst e) (snd e) t) = a.

(** [b] is the smallest box around the axis and the points. *)
Definition inside (b : box) (p : point) : Prop := b_rmin b <= fst p <= b_rmax b /\ b_zmin b <= snd p <= b_zmax b.
Definition smallest_box (l : list point) (b : box) : Prop :=
  (forall p, In p l -> inside b p) /\
  (exists p, In p l /\ fst p = b_rmin b) /\ (exists p, In p l /\ fst p = b_rmax b) /\
  (exists p, In p l /\ snd p = b_zmin b) /\ (exists p, In p l /\ snd p = b_zmax b).

(** The point (x, y, z) lies on the surface that the edge [p q] describes when it is rotated
    about the z axis. *)
Definition on_surface (p q : point) (x y z : R) : Prop :=
  exists s, unit_interval s /\ to_rz x y z = along p q s.
(** The same for the whole line through [p] and [q], and its mirror image (a double cone). *)
Definition on_cone (p q : point) (x y z : R) : Prop :=
  exists s, snd p + s * (snd q - snd p) = z /\ x * x + y * y = (fst p + s * (fst q - fst p)) ^ 2.
(** The segment in space from (x1,y1,z1) to (x0,y0,z0). *)
Definition along3 (x1 y1 z1 x0 y0 z0 t : R) : R * R * R :=
  (x1 + t * (x0 - x1), y1 + t * (y0 - y1), z1 + t * (z0 - z1)).
(** [p q] is an edge of the closed contour. *)
Definition closed_edge (pts : list point) (p q : point) : Prop :=
  edge pts p q \/ (exists l, pts = l ++ [p]) /\ (exists r, pts = q :: r).
(** The segment from (x1,y1,z1) to (x0,y0,z0) makes the same angle with the z axis as [p q]. *)
Definition same_slope (p q : point) (x1 y1 z1 x0 y0 z0 : R) : Prop :=
  ((x0 - x1) * (x0 - x1) + (y0 - y1) * (y0 - y1)) * (snd q - snd p) ^ 2 = ((fst q - fst p) * (z0 - z1)) ^ 2.
(** No three edges of the contour reach height [a]. *)
Definition at_most_two_reach (a : R) (pts : list point) : Prop :=
  forall l e1 l1 e2 l2 e3 l3, edges_of pts = l ++ e1 :: l1 ++ e2 :: l2 ++ e3 :: l3 ->
  ~ (reaches a e1 /\ reaches a e2 /\ reaches a e3).

(** Histories of calls on one field object; exceptions are caught by the caller.  For every
    GetDomainBounds the domain set at that time and the box that was returned are listed. *)
Inductive call : Type := SetDomain (pts : list point) | GetDomainBounds | GetMaxRadius | GetMinRadius.
Definition current (f : field) : list point := match d_pts f with Some l => l | None => [] end.
Fixpoint history (f : field) (cs : list call) : outcome (list (option (list point) * box)) :=
  match cs with
  | [] => Ok []
  | SetDomain pts :: r =>
      match set_domain f pts pts with (UB, _) => UB | (_, f') => history f' r end
  | GetDomainBounds :: r =>
      match get_bounds f with
      | Ok (b, f') => obind (history f' r) (fun l => Ok ((d_pts f, b) :: l))
      | Throw => history f r
      | UB => UB
      end
  | GetMaxRadius :: r =>
      match get_max_radius f (current f) with Ok (_, f') => history f' r | Throw => history f r | UB => UB end
  | GetMinRadius :: r =>
      match get_min_radius f (current f) with Ok (_, f') => history f' r | Throw => history f r | UB => UB end
  end.
