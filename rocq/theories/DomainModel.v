(** Model of the domain (wall) computations of magnetic fields.
    Source: src/MagneticField/MagneticField2D.cpp, include/softlib/MagneticField/MagneticField2D.h.
    [slibreal_t] is taken to be the real numbers (no rounding). *)
From Coq Require Import Reals.
From Verif Require Import Base.
Local Open Scope R_scope.

(** The arrays [rdomain] and [zdomain] of [ndomain] elements, as a list of points (r, z). *)
Notation point := (R * R)%type.

(** Comparisons of doubles (MagneticField2D.cpp:53-69). *)
Definition Rleb (x y : R) : bool := if Rle_dec x y then true else false.
(** MagneticField2D.cpp:53-69. *)
Definition Rltb (x y : R) : bool := if Rlt_dec x y then true else false.
(** MagneticField2D.cpp:53-69. *)
Definition Reqb (x y : R) : bool := if Req_EM_T x y then true else false.
(** [hypot] of the C library (MagneticField2D.cpp:46-47). *)
Definition hypot (x y : R) : R := sqrt (x * x + y * y).

(** * CrossesDomain *)
(** MagneticField2D.cpp:53-69: one edge, from [p] to [q]; [None]: the next edge is examined. *)
Definition edge_crossed (x00 y00 x01 y01 : R) (p q : point) : option bool :=
  let x10 := fst p in let x11 := fst q - x10 in
  let y10 := snd p in let y11 := snd q - y10 in
  if (Reqb (x00 - x10) 0 && Reqb (y00 - y10) 0)%bool then None else
  let det := x11 * y01 - x01 * y11 in
  if Reqb det 0 then Some true else
  let s := (1 / det) * ((x00 - x10) * y01 - (y00 - y10) * x01) in
  let t := - (1 / det) * ((y00 - y10) * x11 - (x00 - x10) * y11) in
  if (Rleb 0 s && Rleb s 1 && Rleb 0 t && Rleb t 1)%bool then Some true else None.
(** MagneticField2D.cpp:51-72: edges from each point to the next. *)
Fixpoint edges_crossed (x00 y00 x01 y01 : R) (pts : list point) : bool :=
  match pts with
  | p :: ((q :: _) as rest) =>
      match edge_crossed x00 y00 x01 y01 p q with Some b => b | None => edges_crossed x00 y00 x01 y01 rest end
  | _ => false
  end.
(** MagneticField2D.cpp:42-73.  With no points [ndomain-1] wraps around and the arrays are
    read beyond their end. *)
Definition crosses_domain (pts : list point) (x1 y1 z1 x2 y2 z2 : R) : outcome bool :=
  match pts with
  | [] => UB
  | _ => let r := hypot x2 y2 in let x00 := hypot x1 y1 in
         Ok (edges_crossed x00 z1 (r - x00) (z2 - z1) pts)
  end.
(** MagneticField2D.cpp:33-35 and 39-41: from the magnetic axis. *)
Definition crosses_domain_axis (axis : point) (pts : list point) (x y z : R) : outcome bool :=
  crosses_domain pts (fst axis) 0 (snd axis) x y z.

(** * Radial extent at the height of the magnetic axis *)
(** MagneticField2D.cpp:217-218. *)
Definition straddles (a : R) (y y' : R) : bool :=
  ((Rleb a y && Rleb y' a) || (Rleb y a && Rleb a y'))%bool.
(** MagneticField2D.cpp:219-222. *)
Definition level_value (a : R) (x x' y y' : R) : R :=
  if Reqb y' y then Rmax x x' else x + (x' - x) * (a - y) / (y' - y).
(** MagneticField2D.cpp:216-224: the loop; [i] counts the edges examined, [acc] holds
    rpoints[0..ir-1].  At most two values are collected. *)
Fixpoint scan (a : R) (pts : list point) (i : nat) (acc : list R) : nat * list R :=
  if (2 <=? length acc)%nat then (i, acc) else
  match pts with
  | p :: ((q :: _) as rest) =>
      scan a rest (S i) (if straddles a (snd p) (snd q) then acc ++ [level_value a (fst p) (fst q) (snd p) (snd q)] else acc)
  | _ => (i, acc)
  end.
(** Array element [i] of the contour (MagneticField2D.cpp:51-60). *)
Definition pt (pts : list point) (i : nat) : outcome point :=
  match nth_error pts i with Some p => Ok p | None => UB end.
(** [rpoints[ir++] = v] in an array of two elements (MagneticField2D.cpp:216-233). *)
Definition push (acc : list R) (v : R) : outcome (list R) :=
  if (length acc <? 2)%nat then Ok (acc ++ [v]) else UB.
(** MagneticField2D.cpp:227-233: the edge from the last point to the first; the values are
    those of the points [i] and [i+1], where [i] is left over from the loop. *)
Definition closing_edge (a : R) (pts : list point) (i : nat) (acc : list R) : outcome (list R) :=
  obind (pt pts (length pts - 1)) (fun l => obind (pt pts 0) (fun f =>
  if straddles a (snd l) (snd f) then
    obind (pt pts i) (fun p => obind (pt pts (i + 1)) (fun q =>
    push acc (if Reqb (snd f) (snd l) then Rmax (fst p) (fst q)
              else fst p + (fst q - fst p) * (a - snd p) / (snd q - snd p))))
  else Ok acc)).
(** MagneticField2D.cpp:239-246 and 315-322: largest and smallest, in this order. *)
Definition extremes (v0 : R) (l : list R) : R * R :=
  fold_left (fun mm v => if Rlt_dec (fst mm) v then (v, snd mm) else if Rlt_dec v (snd mm) then (fst mm, v) else mm)
            l (v0, v0).
(** MagneticField2D.cpp:210-249 [FindMaxRadius]: maxradius and minradius.  With no points
    [n-1] wraps around. *)
Definition find_max_radius (za : R) (pts : list point) : outcome (R * R) :=
  match pts with
  | [] => UB
  | _ => let (i, acc) := scan za pts 0 [] in
         obind (closing_edge za pts i acc) (fun acc =>
         match acc with [] => Throw | v0 :: r => Ok (extremes v0 r) end)
  end.
(** MagneticField2D.cpp:293-323 [FindMaxMin]: largest and smallest x at y = a, where the
    points are (x, y). *)
Definition find_max_min (a : R) (pts : list point) : outcome (R * R) :=
  match pts with
  | [] => UB
  | _ => match snd (scan a pts 0 []) with [] => Throw | v0 :: r => Ok (extremes v0 r) end
  end.
(** MagneticField2D.cpp:274-279 [FindMaxZ] at radius [R0]: largest and smallest z. *)
Definition find_max_z (R0 : R) (pts : list point) : outcome (R * R) :=
  find_max_min R0 (map (fun p => (snd p, fst p)) pts).

(** * The object *)
(** MagneticField2D.h:22-32 and 40; [d_pts = None]: no domain was set, the pointers are not
    initialised. *)
Record box : Type := Box { b_rmin : R; b_rmax : R; b_zmin : R; b_zmax : R }.
Record field : Type := Field
  { d_axis : point; d_pts : option (list point); d_max : R; d_min : R; d_bounds : option box }.
(** The state before the first [SetDomain] (MagneticField2D.h:22-40). *)
Definition new_field (axis : point) : field := Field axis None (-1) (-1) None.

(** MagneticField2D.cpp:154-162: one point. *)
Definition grow (b : box) (p : point) : box :=
  let (rmin, rmax) := if Rlt_dec (fst p) (b_rmin b) then (fst p, b_rmax b)
                      else if Rlt_dec (b_rmax b) (fst p) then (b_rmin b, fst p) else (b_rmin b, b_rmax b) in
  let (zmin, zmax) := if Rlt_dec (snd p) (b_zmin b) then (snd p, b_zmax b)
                      else if Rlt_dec (b_zmax b) (snd p) then (b_zmin b, snd p) else (b_zmin b, b_zmax b) in
  Box rmin rmax zmin zmax.
(** MagneticField2D.cpp:141-170 [GetDomainBounds]. *)
Definition get_bounds (f : field) : outcome (box * field) :=
  match d_bounds f with
  | Some b => Ok (b, f)
  | None =>
      match d_pts f with
      | None => UB
      | Some pts =>
          let b := fold_left grow pts (Box (fst (d_axis f)) (fst (d_axis f)) (snd (d_axis f)) (snd (d_axis f))) in
          Ok (b, Field (d_axis f) (d_pts f) (d_max f) (d_min f) (Some b))
      end
  end.
(** MagneticField2D.cpp:459-465 [SetDomain]; [FindMaxRadius] is virtual: [contour] is the
    contour that it examines (the domain itself, unless a subclass overrides it).
    The state is returned with the outcome, because the domain is set even if the search
    for the radii throws. *)
Definition set_domain (f : field) (pts contour : list point) : outcome unit * field :=
  let f1 := Field (d_axis f) (Some pts) (d_max f) (d_min f) (d_bounds f) in
  match find_max_radius (snd (d_axis f)) contour with
  | Ok (mx, mn) => (Ok tt, Field (d_axis f) (Some pts) mx mn (d_bounds f))
  | Throw => (Throw, f1)
  | UB => (UB, f1)
  end.
(** MagneticField2D.cpp:179-184 and 188-193; 337-340. *)
Definition get_max_radius (f : field) (contour : list point) : outcome (R * field) :=
  if Rlt_dec 0 (d_max f) then Ok (d_max f, f)
  else obind (find_max_radius (snd (d_axis f)) contour) (fun mm =>
       Ok (fst mm, Field (d_axis f) (d_pts f) (fst mm) (snd mm) (d_bounds f))).
Definition get_min_radius (f : field) (contour : list point) : outcome (R * field) :=
  if Rle_dec 0 (d_min f) then Ok (d_min f, f)
  else obind (find_max_radius (snd (d_axis f)) contour) (fun mm =>
       Ok (snd mm, Field (d_axis f) (d_pts f) (fst mm) (snd mm) (d_bounds f))).

(** * Lines in space and the surface of revolution of the domain *)
(** MagneticField2D.cpp:406-457 [__IntersectsDomain3D].  1/0 is infinite: then s1 and s2 are
    infinite or NaN and not between 0 and 1. *)
Definition edge_hit (xnp znp xn zn xp yp zp xc yc zc : R) : bool :=
  if Reqb znp zn then
    if Reqb zc zp then false else
    let t := (zn - zp) / (zc - zp) in
    if Reqb (xn - xnp) 0 then false else
    let ic := 1 / (xn - xnp) in
    let term1 := xp + (xc - xp) * t in let term2 := yp + (yc - yp) * t in
    let sqr := sqrt (term1 * term1 + term2 * term2) in
    let s1 := ic * (xn + sqr) in
    let s2 := ic * (xn + sqr) in
    ((Rleb 0 s1 && Rleb s1 1) || (Rleb 0 s2 && Rleb s2 1))%bool
  else
    let izn := 1 / (znp - zn) in
    let kz := (zc - zp) * izn in
    let mz := (zp - zn) * izn in
    let a := xc - xp in let b := yc - yp in let c := (xnp - xn) * kz in
    let m := xn + mz * (xnp - xn) in
    let abc := a * a + b * b - c * c in
    if Reqb abc 0 then true else
    let iabc := 1 / abc in
    let term := (c * m - a * xp - b * yp) * iabc in
    let q := (m * m - xp * xp - yp * yp) * iabc in
    let square := term * term + q in
    if Rltb square 0 then false else
    let sqr := sqrt square in
    let t1 := term + sqr in let t2 := term - sqr in
    ((Rleb 0 t1 && Rleb t1 1) || (Rleb 0 t2 && Rleb t2 1))%bool.
(** MagneticField2D.cpp:376-396: the edge from [p] to [q]; [ra] is the radius of the axis. *)
Definition edge_counts (ra : R) (outer : bool) (p q : point) (x0 y0 z0 x1 y1 z1 : R) : bool :=
  let dr := fst p in let drp := fst q in let dz := snd p in let dzp := snd q in
  if (negb outer && Rltb ra dr && Rltb ra drp)%bool then false
  else if ((Rltb dz z1 && Rltb dzp z1 && Rltb dz z0 && Rltb dzp z0)
        || (Rltb z1 dz && Rltb z1 dzp && Rltb z0 dz && Rltb z0 dzp))%bool then false
  else edge_hit drp dzp dr dz x1 y1 z1 x0 y0 z0.
(** MagneticField2D.cpp:375-397; after the last point comes the first one. *)
Fixpoint edges_hit (ra : R) (outer : bool) (first : point) (pts : list point) (x0 y0 z0 x1 y1 z1 : R) : bool :=
  match pts with
  | [] => false
  | p :: rest =>
      let q := match rest with [] => first | q :: _ => q end in
      let b := edge_counts ra outer p q x0 y0 z0 x1 y1 z1 in
      let r := edges_hit ra outer first rest x0 y0 z0 x1 y1 z1 in
      (b || r)%bool
  end.
(** MagneticField2D.cpp:367-400. *)
Definition intersects_domain (ra : R) (pts : list point) (x0 y0 z0 x1 y1 z1 : R) (outer : bool) : bool :=
  match pts with
  | [] => false
  | first :: _ => edges_hit ra outer first pts x0 y0 z0 x1 y1 z1
  end.
(** MagneticField2D.cpp:360-366: the form with pointers. *)
Definition intersects_domain_ptr (ra : R) (pts : list point) (p0 p1 : R * R * R) (outer : bool) : bool :=
  let '(x0, y0, z0) := p0 in let '(x1, y1, z1) := p1 in
  intersects_domain ra pts x0 y0 y0 x1 y1 z1 outer.
