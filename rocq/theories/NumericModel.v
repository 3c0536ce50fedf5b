(** Model of the numeric magnetic field.
    Source: src/MagneticField/MagneticFieldNumeric2D.cpp, MagneticFieldLUKE.cpp,
    include/softlib/MagneticField/MagneticFieldNumeric2D.h.
    Fields are evaluated over the real numbers (no rounding). *)
From Coq Require Import Reals.
From Verif Require Import Base DomainModel AnalyticalModel.
Local Open Scope R_scope.

(** * Evaluation *)
(** A spline of the GSL: its value and its two partial derivatives.  The interpolation itself
    is not modelled (MagneticFieldNumeric2D.cpp:268-287). *)
Record surface : Type := Surface { s_val : R -> R -> R; s_dr : R -> R -> R; s_dz : R -> R -> R }.
(** MagneticFieldNumeric2D.h:30-40. *)
Record nfield : Type := NField
  { n_rmin : R; n_rmax : R; n_zmin : R; n_zmax : R; n_Br : surface; n_Bphi : surface; n_Bz : surface; n_Psi : option surface }.

(** MagneticFieldNumeric2D.cpp:304-308. *)
Definition clamp (lo hi x : R) : R := if Rlt_dec x lo then lo else if Rlt_dec hi x then hi else x.
(** MagneticFieldNumeric2D.cpp:314-315. *)
Definition angle_sin (r y : R) : R := if Req_EM_T r 0 then 0 else y / r.
Definition angle_cos (r x : R) : R := if Req_EM_T r 0 then 1 else x / r.
(** MagneticFieldNumeric2D.cpp:300-321 [Eval]. *)
Definition eval_num (f : nfield) (x y z : R) : vec3 :=
  let r := clamp (n_rmin f) (n_rmax f) (hypot x y) in
  let z := clamp (n_zmin f) (n_zmax f) z in
  let br := s_val (n_Br f) r z in let bphi := s_val (n_Bphi f) r z in let bz := s_val (n_Bz f) r z in
  let sin0 := angle_sin r y in let cos0 := angle_cos r x in
  (br * cos0 - bphi * sin0, br * sin0 + bphi * cos0, bz).
(** MagneticFieldNumeric2D.cpp:333-395 [__EvalJacobian]: the three rows. *)
Definition jacobian_num (f : nfield) (x y z : R) : vec3 * vec3 * vec3 :=
  let r := clamp (n_rmin f) (n_rmax f) (hypot x y) in
  let z := clamp (n_zmin f) (n_zmax f) z in
  let dBr_dr := s_dr (n_Br f) r z in let dBr_dz := s_dz (n_Br f) r z in
  let dB0_dr := s_dr (n_Bphi f) r z in let dB0_dz := s_dz (n_Bphi f) r z in
  let dBz_dr := s_dr (n_Bz f) r z in let dBz_dz := s_dz (n_Bz f) r z in
  let br := s_val (n_Br f) r z in let b0 := s_val (n_Bphi f) r z in
  let sin0 := angle_sin r y in let cos0 := angle_cos r x in
  let sin20 := if Req_EM_T r 0 then 0 else sin0 * sin0 in
  let cos20 := if Req_EM_T r 0 then 1 else cos0 * cos0 in
  let sc0 := if Req_EM_T r 0 then 0 else sin0 * cos0 in
  let dsin0_dx := if Req_EM_T r 0 then 0 else - sc0 / r in
  let dcos0_dx := if Req_EM_T r 0 then 0 else sin20 / r in
  let dsin0_dy := if Req_EM_T r 0 then 0 else cos20 / r in
  let dcos0_dy := if Req_EM_T r 0 then 0 else - sc0 / r in
  ((cos20 * dBr_dr + br * dcos0_dx - sc0 * dB0_dr - b0 * dsin0_dx,
    sc0 * dBr_dr + br * dcos0_dy - sin20 * dB0_dr - b0 * dsin0_dy,
    cos0 * dBr_dz - sin0 * dB0_dz),
   (sc0 * dBr_dr + br * dsin0_dx + cos20 * dB0_dr + b0 * dcos0_dx,
    sin20 * dBr_dr + br * dsin0_dy + sc0 * dB0_dr + b0 * dcos0_dy,
    sin0 * dBr_dz + cos0 * dB0_dz),
   (cos0 * dBz_dr, sin0 * dBz_dr, dBz_dz)).
(** MagneticFieldNumeric2D.cpp:404-415: the length of a vector; [None]: 0/0. *)
Definition scaled_norm (b : vec3) : option R :=
  let ax := Rabs (fst (fst b)) in let ay := Rabs (snd (fst b)) in let az := Rabs (snd b) in
  let go m p q := ediv p m (fun r1 => ediv q m (fun r2 => Some (m * sqrt (1 + r1 * r1 + r2 * r2)))) in
  if (Rltb ay ax && Rltb az ax)%bool then go ax ay az
  else if Rltb az ay then go ay ax az
  else go az ax ay.
(** MagneticFieldNumeric2D.cpp:397-431 [EvalDerivatives]. *)
Definition derivatives_num (f : nfield) (x y z : R) : option magdata :=
  let b := eval_num f x y z in
  let '(j0, j1, j2) := jacobian_num f x y z in
  let '(dBx_dx, dBx_dy, dBx_dz) := j0 in
  let '(dBy_dx, dBy_dy, dBy_dz) := j1 in
  let '(dBz_dx, dBz_dy, dBz_dz) := j2 in
  let '(Bx, By, Bz) := b in
  match scaled_norm b with
  | None => None
  | Some Babs =>
      ediv (Bx * dBx_dx + By * dBy_dx + Bz * dBz_dx) Babs (fun g0 =>
      ediv (Bx * dBx_dy + By * dBy_dy + Bz * dBz_dy) Babs (fun g1 =>
      ediv (Bx * dBx_dz + By * dBy_dz + Bz * dBz_dz) Babs (fun g2 =>
      Some (MagData b (g0, g1, g2) (dBz_dy - dBy_dz, dBx_dz - dBz_dx, dBy_dx - dBx_dy) Babs j0 j1 j2))))
  end.
(** A spline evaluated outside its grid calls the error handler of the GSL, which ends the
    program (MagneticFieldNumeric2D.cpp:446, 471-473). *)
Definition in_grid (f : nfield) (r z : R) : bool :=
  (Rleb (n_rmin f) r && Rleb r (n_rmax f) && Rleb (n_zmin f) z && Rleb z (n_zmax f))%bool.
(** MagneticFieldNumeric2D.cpp:439-447 [EvalFlux]. *)
Definition flux_num (f : nfield) (x y z : R) : outcome R :=
  match n_Psi f with
  | None => Throw
  | Some p => let r := hypot x y in if in_grid f r z then Ok (s_val p r z) else UB
  end.
(** MagneticFieldNumeric2D.cpp:463-476 [EvalFluxDerivatives]. *)
Definition flux_derivatives_num (f : nfield) (x y z : R) : outcome vec3 :=
  match n_Psi f with
  | None => Throw
  | Some p => let r := hypot x y in if in_grid f r z then Ok (s_val p r z, s_dr p r z, s_dz p r z) else UB
  end.

(** * Arrays read from files *)
(** The two-dimensional arrays of SFile: row pointers into one block of [rows*cols] elements
    (MagneticFieldNumeric2D.cpp:510-522). *)
Record marray (A : Type) : Type := MArray { ma_rows : nat; ma_cols : nat; ma_data : list A }.
Arguments MArray {A}. Arguments ma_rows {A}. Arguments ma_cols {A}. Arguments ma_data {A}.
(** [a[j][i]]: there are [rows] row pointers; the element is read from the block
    (MagneticFieldNumeric2D.cpp:640, 718). *)
Definition aget {A : Type} (a : marray A) (j i : nat) : outcome A :=
  if (j <? ma_rows a)%nat then match nth_error (ma_data a) (j * ma_cols a + i) with Some v => Ok v | None => UB end else UB.
(** An array of [n] elements, each computed from its index (MagneticFieldNumeric2D.cpp:638-648). *)
Fixpoint fill_from {A : Type} (k n : nat) (g : nat -> outcome A) : outcome (list A) :=
  match n with
  | O => Ok []
  | S n' => obind (g k) (fun v => obind (fill_from (S k) n' g) (fun l => Ok (v :: l)))
  end.
(** MagneticFieldNumeric2D.cpp:638-648. *)
Definition fill {A : Type} (n : nat) (g : nat -> outcome A) : outcome (list A) := fill_from 0 n g.
(** [delete [] a[0]]: the first row pointer is read (MagneticFieldNumeric2D.cpp:584, 610, 663,
    722, MagneticFieldLUKE.cpp:274, 334). *)
Definition release {A : Type} (a : marray A) : outcome unit := if (ma_rows a =? 0)%nat then UB else Ok tt.
(** MagneticFieldNumeric2D.cpp:710-726 [Transpose]: element [i*rows + j] of the new block; the
    given array is deleted. *)
Definition transpose {A : Type} (a : marray A) : outcome (marray A) :=
  obind (fill (ma_rows a * ma_cols a) (fun k => aget a (k mod ma_rows a) (k / ma_rows a)))
    (fun d => obind (release a) (fun _ => Ok (MArray (ma_cols a) (ma_rows a) d))).
(** MagneticFieldNumeric2D.cpp:511-512. *)
Definition orient {A : Type} (nz : nat) (a : marray A) : outcome (marray A) :=
  if (ma_rows a =? nz)%nat then Ok a else transpose a.
(** MagneticFieldNumeric2D.cpp:638-640: element [i + j*nr]. *)
Definition relayout {A : Type} (nr nz : nat) (a : marray A) : outcome (list A) :=
  fill (nr * nz) (fun k => aget a (k / nr) (k mod nr)).

(** A contour; [None]: null pointers (then the number of points is 0). *)
Notation contour := (option (list point)).
(** MagneticFieldNumeric2D.cpp:567-617. *)
Definition points (c : contour) : list point := match c with Some l => l | None => [] end.
(** MagneticFieldNumeric2D.cpp:567-586: a contour from an array with two rows or with two
    columns. *)
Definition contour_of (a : marray R) : outcome (list point) :=
  if (ma_rows a =? 2)%nat then fill (ma_cols a) (fun i => obind (aget a 0 i) (fun r => obind (aget a 1 i) (fun z => Ok (r, z))))
  else obind (fill (ma_rows a) (fun i => obind (aget a i 0) (fun r => obind (aget a i 1) (fun z => Ok (r, z)))))
    (fun l => obind (release a) (fun _ => Ok l)).

Section Files.
  (** [V]: doubles; [T]: strings; [same]: == of doubles (false for NaN); [below x y]: not x >= y. *)
  Variables (V T : Type) (same below : V -> V -> bool).
  (** What the GSL requires of the points of a bicubic interpolation: at least four, strictly
      increasing; otherwise it ends the program (MagneticFieldNumeric2D.cpp:271-282). *)
  Fixpoint rising (l : list V) : bool :=
    match l with x :: ((y :: _) as rest) => (below x y && rising rest)%bool | _ => true end.
  (** MagneticFieldNumeric2D.cpp:271-282. *)
  Definition bicubic (l : list V) : bool := ((4 <=? length l)%nat && rising l)%bool.
  (** The object, with the domain of the base class (MagneticFieldNumeric2D.h:14-32). *)
  Record numeric : Type := Numeric
    { nm_name : T; nm_desc : T; nm_axis : point; nm_R : list V; nm_Z : list V; nm_Br : list V; nm_Bphi : list V; nm_Bz : list V;
      nm_Psi : option (list V); nm_sep : contour; nm_wall : contour; nm_dom : field }.
  (** MagneticFieldNumeric2D.cpp:176-181: the contour that determines the radii. *)
  Definition radius_contour (sep wall : contour) : list point :=
    if (0 <? length (points sep))%nat then points sep else points wall.
  (** MagneticFieldNumeric2D.cpp:246-255: the domain is the wall, if there is one. *)
  Definition domain_of (axis : point) (sep wall : contour) : outcome field :=
    let d := match wall with Some w => w | None => points sep end in
    let (r, f) := set_domain (new_field axis) d (radius_contour sep wall) in
    obind r (fun _ => Ok f).
  (** MagneticFieldNumeric2D.cpp:90-108 and 213-289: the constructor from data, with
      [InitInterpolation]. *)
  Definition init (name desc : T) (R Z Br Bphi Bz : list V) (Psi : option (list V)) (axis : point) (sep wall : contour) : outcome numeric :=
    match sep, wall with
    | None, None => Throw
    | _, _ => obind (domain_of axis sep wall) (fun d =>
        if (bicubic R && bicubic Z)%bool then Ok (Numeric name desc axis R Z Br Bphi Bz Psi sep wall d) else UB)
    end.
  (** MagneticFieldNumeric2D.cpp:115-165 [Clone]: every contour is copied to a new array, even if
      there is none. *)
  Definition clone_num (f : numeric) : outcome numeric :=
    init (nm_name f) (nm_desc f) (nm_R f) (nm_Z f) (nm_Br f) (nm_Bphi f) (nm_Bz f) (nm_Psi f) (nm_axis f)
      (Some (points (nm_sep f))) (Some (points (nm_wall f))).

  (** The variables of a file; [None]: missing (reading it throws)
      (MagneticFieldNumeric2D.cpp:498-617). *)
  Record mfile : Type := MFile
    { f_name : option T; f_desc : option T; f_maxis : option (list R); f_r : option (list V); f_z : option (list V);
      f_Br : option (marray V); f_Bphi : option (marray V); f_Bz : option (marray V); f_Psi : option (marray V);
      f_verBr : option (list V); f_verBphi : option (list V); f_verBz : option (list V);
      f_wall : option (marray R); f_sep : option (marray R) }.
  (** MagneticFieldNumeric2D.cpp:498-522. *)
  Definition need {A : Type} (x : option A) : outcome A := match x with Some v => Ok v | None => Throw end.
  (** MagneticFieldNumeric2D.cpp:542-547: one verification vector; [i] counts its elements. *)
  Fixpoint verify_from (a : marray V) (i : nat) (ver : list V) : outcome unit :=
    match ver with
    | [] => Ok tt
    | v :: rest => obind (aget a 0 i) (fun w => if same w v then verify_from a (S i) rest else Throw)
    end.
  Definition verify (nr : nat) (a : marray V) (ver : option (list V)) : outcome unit :=
    match ver with
    | None => Ok tt
    | Some l => if (nr <? length l)%nat then Throw else verify_from a 0 l
    end.
  Definition optional {A B : Type} (x : option A) (g : A -> outcome B) : outcome (option B) :=
    match x with None => Ok None | Some a => obind (g a) (fun b => Ok (Some b)) end.
  (** MagneticFieldNumeric2D.cpp:29-40 and 488-700: the constructor from a file, with [Load]. *)
  Definition load (m : mfile) : outcome numeric :=
    obind (need (f_name m)) (fun name => obind (need (f_desc m)) (fun desc => obind (need (f_maxis m)) (fun ax =>
    match ax with
    | [ra; za] =>
        obind (need (f_r m)) (fun R => obind (need (f_z m)) (fun Z =>
        let nr := length R in let nz := length Z in
        obind (need (f_Br m)) (fun br => obind (orient nz br) (fun br =>
        obind (need (f_Bphi m)) (fun bphi => obind (orient nz bphi) (fun bphi =>
        obind (need (f_Bz m)) (fun bz => obind (orient nz bz) (fun bz =>
        obind (optional (f_Psi m) (orient nz)) (fun psi =>
        obind (verify nr br (f_verBr m)) (fun _ => obind (verify nr bphi (f_verBphi m)) (fun _ => obind (verify nr bz (f_verBz m)) (fun _ =>
        obind (optional (f_wall m) contour_of) (fun wall => obind (optional (f_sep m) contour_of) (fun sep =>
        obind (relayout nr nz br) (fun Br => obind (relayout nr nz bphi) (fun Bphi => obind (relayout nr nz bz) (fun Bz =>
        obind (optional psi (relayout nr nz)) (fun Psi =>
        obind (release br) (fun _ => obind (release bphi) (fun _ => obind (release bz) (fun _ =>
        init name desc R Z Br Bphi Bz Psi (ra, za) sep wall)))))))))))))))))))))
    | _ => Throw
    end))).
  (** MagneticFieldNumeric2D.cpp:759-773: a contour as an array with two rows; empty contours are
      not written. *)
  Definition contour_array (c : contour) : option (marray R) :=
    match points c with [] => None | l => Some (MArray 2 (length l) (map fst l ++ map snd l)) end.
  (** The first [n] elements of an array (MagneticFieldNumeric2D.cpp:741-757). *)
  Definition prefix (n : nat) (l : list V) : outcome (list V) := if (n <=? length l)%nat then Ok (firstn n l) else UB.
  (** MagneticFieldNumeric2D.cpp:737-792 [Save]: the variables written.  Without flux a null
      pointer is passed to WriteMultiArray. *)
  Definition save (f : numeric) : outcome mfile :=
    let nr := length (nm_R f) in let nz := length (nm_Z f) in
    match nm_Psi f with
    | None => UB
    | Some psi =>
        obind (prefix nr (nm_Bphi f)) (fun vphi => obind (prefix nr (nm_Br f)) (fun vr => obind (prefix nr (nm_Bz f)) (fun vz =>
        Ok (MFile (Some (nm_name f)) (Some (nm_desc f)) (Some [fst (nm_axis f); snd (nm_axis f)]) (Some (nm_R f)) (Some (nm_Z f))
              (Some (MArray nz nr (nm_Br f))) (Some (MArray nz nr (nm_Bphi f))) (Some (MArray nz nr (nm_Bz f))) (Some (MArray nz nr psi))
              (Some vr) (Some vphi) (Some vz) (contour_array (nm_wall f)) (contour_array (nm_sep f))))))
    end.
End Files.

(** * LUKE equilibria *)
(** [atan2] of the C library; atan2(0, 0) = 0 (the sign of zero is not modelled)
    (MagneticFieldLUKE.cpp:133). *)
Definition atan2 (y x : R) : R :=
  if Rlt_dec 0 x then atan (y / x)
  else if Rlt_dec x 0 then (if Rle_dec 0 y then atan (y / x) + PI else atan (y / x) - PI)
  else if Rlt_dec 0 y then PI / 2 else if Rlt_dec y 0 then - (PI / 2) else 0.
(** MagneticFieldLUKE.cpp:131-138: the poloidal angle. *)
Definition luke_theta (x y : R) : R := let t := atan2 y x in if Rlt_dec t 0 then 2 * PI + t else t.
(** MagneticFieldLUKE.cpp:162-163: the loop normalises the array in place; the divisor is the
    last element at the time it is used. *)
Fixpoint normalise_from (k n : nat) (l : list R) : option (list R) :=
  match n with
  | O => Some l
  | S n' => ediv (nth k l 0) (last l 0) (fun v => normalise_from (S k) n' (firstn k l ++ Rabs v :: skipn (S k) l))
  end.
Definition normalise (l : list R) : option (list R) := normalise_from 0 (length l) l.
(** MagneticFieldLUKE.cpp:146-149: a grid. *)
Definition luke_grid (x : list R) (axis : R) : list R := map (fun v => v + axis) x.
(** MagneticFieldLUKE.cpp:219-228: element [i + j*nr] of a table; [interp] is the bilinear
    interpolation of the GSL in the table of a component. *)
Definition luke_value (interp : R -> R -> R) (xs ys : list R) (psi : marray R) (i j : nat) : outcome R :=
  match nth_error xs i, nth_error ys j with
  | Some x, Some y => obind (aget psi j i) (fun p => Ok (interp (Rabs p) (luke_theta x y)))
  | _, _ => UB
  end.
Definition luke_table (interp : R -> R -> R) (xs ys : list R) (psi : marray R) : outcome (list R) :=
  fill (length xs * length ys) (fun k => luke_value interp xs ys psi (k mod length xs) (k / length xs)).
(** MagneticFieldLUKE.cpp:221-222: the table of the flux. *)
Definition luke_flux (psia : R) (nr nz : nat) (psi : marray R) : outcome (list R) :=
  fill (nr * nz) (fun k => obind (aget psi (k / nr) (k mod nr)) (fun p => Ok (p * psia))).
(** MagneticFieldLUKE.cpp:116-120, 170-188 and 234-245: the dimensions of a table. *)
Definition luke_check (rows cols : nat) (a : marray R) : outcome unit :=
  if ((ma_rows a =? rows)%nat && (ma_cols a =? cols)%nat)%bool then Ok tt else Throw.
(** MagneticFieldLUKE.cpp:247-255: the separatrix is the last flux surface. *)
Definition luke_separatrix (axis : point) (ntheta npsi : nat) (ptx pty : marray R) : outcome (list point) :=
  fill ntheta (fun i => obind (aget ptx i (npsi - 1)) (fun x => obind (aget pty i (npsi - 1)) (fun y => Ok (x + fst axis, y + snd axis)))).
(** MagneticFieldLUKE.cpp:303-336 [LoadWall]: the wall; an array with neither two rows nor two
    columns is rejected. *)
Definition luke_wall (a : marray R) : outcome (list point) :=
  if (ma_rows a =? 2)%nat then fill (ma_cols a) (fun i => obind (aget a 0 i) (fun r => obind (aget a 1 i) (fun z => Ok (r, z))))
  else if (ma_cols a =? 2)%nat then
    obind (fill (ma_rows a) (fun i => obind (aget a i 0) (fun r => obind (aget a i 1) (fun z => Ok (r, z)))))
      (fun l => obind (release a) (fun _ => Ok l))
  else Throw.
(** What the GSL requires of the points of an interpolation: at least two, strictly increasing
    (MagneticFieldNumeric2D.cpp:275-281, MagneticFieldLUKE.cpp:201-203). *)
Fixpoint increasing (l : list R) : bool :=
  match l with x :: ((y :: _) as rest) => (Rltb x y && increasing rest)%bool | _ => true end.
(** MagneticFieldNumeric2D.cpp:275-281, MagneticFieldLUKE.cpp:201-203. *)
Definition interpolable (l : list R) : bool := ((2 <=? length l)%nat && increasing l)%bool.
Section Luke.
  (** [T]: strings; [interp p t a]: the interpolation in table [a], with points [p] and [t]. *)
  Variables (T : Type) (interp : list R -> list R -> marray R -> R -> R -> R).
  (** The variables of an equilibrium file, and of a wall file
      (MagneticFieldLUKE.cpp:104-123, 153-183, 233-240, 307). *)
  Record lfile : Type := LFile
    { l_id : option T; l_Rp : option R; l_Zp : option R; l_x : option (list R); l_y : option (list R); l_psin : option (marray R);
      l_psia : option R; l_psi : option (list R); l_theta : option (list R); l_Bx : option (marray R); l_By : option (marray R);
      l_Bphi : option (marray R); l_ptx : option (marray R); l_pty : option (marray R) }.
  (** MagneticFieldLUKE.cpp:50-93 and 95-344: the constructors, with [Load] and [LoadWall] (the
      table of the angles needs a row, 127, as does the table of the flux); [wall]: [None] if no wall file is named,
      [Some None] if it lacks the variable.  Interpolation points that the GSL does not accept end
      the program; a vanishing flux at the last surface (all points infinite or NaN) counts as the
      same. *)
  Definition luke_load (m : lfile) (wall : option (option (marray R))) : outcome (numeric R T) :=
    obind (need (l_id m)) (fun id => obind (need (l_Rp m)) (fun Rp => obind (need (l_Zp m)) (fun Zp =>
    obind (need (l_x m)) (fun xs => obind (need (l_y m)) (fun ys =>
    obind (need (l_psin m)) (fun psin => obind (luke_check (length ys) (length xs) psin) (fun _ =>
    obind (need (l_psia m)) (fun psia => obind (release psin) (fun _ => obind (need (l_psi m)) (fun psi => obind (need (l_theta m)) (fun th =>
    obind (need (l_Bx m)) (fun bx => obind (luke_check (length th) (length psi) bx) (fun _ =>
    obind (need (l_By m)) (fun by_ => obind (luke_check (length th) (length psi) by_) (fun _ =>
    obind (need (l_Bphi m)) (fun bt => obind (luke_check (length th) (length psi) bt) (fun _ =>
    match normalise psi with
    | None => UB
    | Some ps =>
        if (interpolable ps && interpolable th)%bool then
          obind (luke_table (interp ps th bx) xs ys psin) (fun Br => obind (luke_table (interp ps th bt) xs ys psin) (fun Bphi =>
          obind (luke_table (interp ps th by_) xs ys psin) (fun Bz => obind (luke_flux psia (length xs) (length ys) psin) (fun Psi =>
          obind (need (l_ptx m)) (fun ptx => obind (luke_check (length th) (length psi) ptx) (fun _ =>
          obind (need (l_pty m)) (fun pty => obind (luke_check (length th) (length psi) pty) (fun _ =>
          obind (luke_separatrix (Rp, Zp) (length th) (length psi) ptx pty) (fun sep =>
          obind (optional wall (fun w => obind (need w) luke_wall)) (fun wall =>
          init R T Rltb id id (luke_grid xs Rp) (luke_grid ys Zp) Br Bphi Bz (Some Psi) (Rp, Zp) (Some sep) wall))))))))))
        else UB
    end))))))))))))))))).
End Luke.
