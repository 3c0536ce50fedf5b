(** Model of the CODE and GO+CODE distribution functions.
    Source: src/DistributionFunction/CODEDistributionFunction.cpp, GOCODEDistributionFunction.cpp
    and their headers.  Values are real numbers (no rounding, no overflow).  Array sizes are
    taken to fit into 32 bits. *)
From Coq Require Import Reals.
From Verif Require Import Base DomainModel AnalyticalModel NumericModel DistributionModel.
Local Open Scope R_scope.

(** * Arrays *)
(** Element [i] of an array whose elements may be uninitialized
    (CODEDistributionFunction.cpp:190-196). *)
Definition aread (l : list (option R)) (i : nat) : outcome R :=
  match nth_error l i with Some (Some v) => Ok v | _ => UB end.
(** CODEDistributionFunction.cpp:190-196. *)
Definition awrite (l : list (option R)) (i : nat) (v : R) : outcome (list (option R)) :=
  if (i <? length l)%nat then Ok (update l i (Some v)) else UB.

(** CODEDistributionFunction.cpp:194-197: the loop, [k] more rounds. *)
Fixpoint legendre_loop (k i : nat) (xi : R) (l : list (option R)) : outcome (list (option R)) :=
  match k with
  | O => Ok l
  | S k' =>
      let n := INR (i + 1) in
      obind (aread l (i + 1)) (fun a => obind (aread l i) (fun b =>
      obind (awrite l (i + 2) ((2 * n + 1) / (n + 1) * xi * a - n / (n + 1) * b)) (fun l' =>
      legendre_loop k' (i + 1) xi l')))
  end.
(** CODEDistributionFunction.cpp:184-198 [ComputeLegendrePolynomials] into the array [l]. *)
Definition compute_legendre (l : list (option R)) (xi : R) (nleg : nat) : outcome (list (option R)) :=
  obind (awrite l 0 1) (fun l =>
  obind (if (1 <=? nleg)%nat then awrite l 1 xi else Ok l) (fun l =>
  legendre_loop (nleg - 2) 0 xi l)).

(** CODEDistributionFunction.cpp:241: [sgn[i%2]]. *)
Definition sgn (i : nat) : R := if Nat.even i then 1 else -1.

(** * Time slices *)
(** CODEDistributionFunction.cpp:144-150, GOCODEDistributionFunction.cpp:181-186. *)
Definition slice (ntimes time : Z) : outcome Z :=
  let t := (if time <? 0 then ntimes + time else time)%Z in
  (if (ntimes <=? t) || (t <? 0) then Throw else Ok t)%Z%bool.

Section Code.
  (** The one-dimensional interpolation of the GSL: method, points, values, point.  It is not
      modelled; its values are taken to be finite. *)
  Variable itp : Z -> list R -> list R -> R -> R.

  (** CODEDistributionFunction.h:16-28.  [c_xileg]: [None] is NaN. *)
  Record code : Type := Code
    { c_method : Z; c_np : nat; c_nleg : nat; c_p : list R; c_f : list R; c_leg : list (option R); c_xileg : option R }.

  (** The number of points that the GSL requires for a method: linear, polynomial, cubic spline,
      periodic cubic spline, Akima, periodic Akima, Steffen (CODEDistributionFunction.cpp:309-333). *)
  Definition least_points (method : Z) : nat := nth (Z.to_nat method) [2; 3; 3; 2; 5; 5; 3]%nat 0%nat.
  (** CODEDistributionFunction.cpp:278-337 [Initialize] and [InitInterpolation] of a new object:
      the array of interpolation objects has [np] elements, of which [nleg] are written.  The
      GSL ends the program if there are too few points (lines 309-333) or they do not increase
      (line 335); this is undefined here. *)
  Definition code_initialize (np nleg : nat) (p f : list R) (method : Z) : outcome code :=
    if (nleg =? 0)%nat then Ok (Code method np nleg p f [] None)
    else if negb ((0 <=? method) && (method <=? 6))%Z then Throw
    else if (np <? nleg)%nat then UB
    else if (length p <? np)%nat then UB
    else if (length f <? nleg * np)%nat then UB
    else if negb ((least_points method <=? np)%nat && monotone true (firstn np p)) then UB
    else Ok (Code method np nleg p f (repeat None nleg) None).
  (** CODEDistributionFunction.cpp:342-348 [MinClone]. *)
  Definition code_clone (o : code) : outcome code := code_initialize (c_np o) (c_nleg o) (c_p o) (c_f o) (c_method o).

  (** CODEDistributionFunction.cpp:264-272 [GetPMin] and [GetPMax].  (For [np = 0] the index
      [np-1] is far outside the array.) *)
  Definition code_limits (o : code) : outcome (R * R) :=
    if (c_np o =? 0)%nat then UB else
    obind (dget (c_p o) (c_np o - 1)) (fun b => obind (dget (c_p o) 0) (fun a => Ok (if Rltb a b then (a, b) else (b, a)))).

  (** CODEDistributionFunction.cpp:251-254: the sum, mode [i] first, [k] modes to go. *)
  Fixpoint code_sum (o : code) (leg : list (option R)) (p : R) (k i : nat) (s : R) : outcome R :=
    match k with
    | O => Ok s
    | S k' =>
        if (length (c_f o) <? (i + 1) * c_np o)%nat then UB else
        obind (aread leg i) (fun l =>
        code_sum o leg p k' (S i)
          (s + itp (c_method o) (firstn (c_np o) (c_p o)) (firstn (c_np o) (skipn (i * c_np o) (c_f o))) p * l * sgn i))
    end.
  (** CODEDistributionFunction.cpp:238-259 [Eval]: the object afterwards and the value. *)
  Definition code_eval (o : code) (p xi : R) : outcome (code * R) :=
    obind (code_limits o) (fun lim =>
    if (Rltb (snd lim) p || Rltb p (fst lim))%bool then Ok (o, 0) else
    obind (match c_xileg o with
           | Some x => if Req_EM_T xi x then Ok (c_leg o) else compute_legendre (c_leg o) xi (c_nleg o)
           | None => compute_legendre (c_leg o) xi (c_nleg o)
           end) (fun leg =>
    obind (code_sum o leg p (c_nleg o) 0 0) (fun s =>
    Ok (Code (c_method o) (c_np o) (c_nleg o) (c_p o) (c_f o) leg (Some xi), if Rleb s 0 then 0 else s)))).

  (** CODEDistributionFunction.cpp:372-377: pitch number [i] of [n]. *)
  Definition pitch (uniform : bool) (n i : nat) : R :=
    if uniform then cos (PI * INR (n - i - 1) / (INR n - 1)) else -1 + 2 * INR i / (INR n - 1).
  (** CODEDistributionFunction.cpp:387-389: the sum at momentum number [j]. *)
  Fixpoint table_sum (o : code) (leg : list (option R)) (j k i : nat) (s : R) : outcome R :=
    match k with
    | O => Ok s
    | S k' => obind (dget (c_f o) (i * c_np o + j)) (fun v => obind (aread leg i) (fun l =>
              table_sum o leg j k' (S i) (s + v * l * sgn i)))
    end.
  (** CODEDistributionFunction.cpp:382-396: the rows of the table from pitch [i] on, [k] of
      them, and the array of Legendre polynomials afterwards. *)
  Fixpoint table_rows (o : code) (lg uniform : bool) (n k i : nat) (leg : list (option R)) : outcome (list R * list (option R)) :=
    match k with
    | O => Ok ([], leg)
    | S k' =>
        obind (compute_legendre leg (pitch uniform n i) (c_nleg o)) (fun leg =>
        obind (fill (c_np o) (fun j => obind (table_sum o leg j (c_nleg o) 0 0) (fun s =>
               Ok (if (lg && Rltb s 0)%bool then 0 else s)))) (fun row =>
        obind (table_rows o lg uniform n k' (S i) leg) (fun r => Ok (row ++ fst r, snd r))))
    end.
  (** CODEDistributionFunction.cpp:362-404 [ToMomentumSpace] with [n] pitches, at least two
      (with one pitch the pitch itself is 0/0; this call is not modelled).  The first result
      is the object afterwards, the second what the call returns or throws. *)
  Definition to_momentum (o : code) (lg uniform : bool) (n : nat) (method : Z) : outcome (code * outcome msdf) :=
    obind (table_rows o lg uniform n n 0 (c_leg o)) (fun r =>
    let xs := map (pitch uniform n) (seq 0 n) in
    let ps := firstn (c_np o) (c_p o) in
    Ok (Code (c_method o) (c_np o) (c_nleg o) (c_p o) (c_f o) (snd r) (c_xileg o),
        if lg then ms_initialize_log ps xs (fst r) method else ms_initialize false false ps xs (map Fin (fst r)) method)).

  (** Calls on an object (CODEDistributionFunction.cpp:238-259, 362-404). *)
  Inductive call : Type :=
  | CallEval (p xi : R)
  | CallTable (lg uniform : bool) (n : nat) (method : Z).
  (** CODEDistributionFunction.cpp:238-259, 362-404. *)
  Definition code_call (o : code) (c : call) : outcome code :=
    match c with
    | CallEval p xi => obind (code_eval o p xi) (fun r => Ok (fst r))
    | CallTable lg uniform n method => obind (to_momentum o lg uniform n method) (fun r => Ok (fst r))
    end.
  (** CODEDistributionFunction.cpp:238-259, 362-404. *)
  Fixpoint code_calls (o : code) (l : list call) : outcome code :=
    match l with
    | [] => Ok o
    | c :: rest => obind (code_call o c) (fun o' => code_calls o' rest)
    end.

  (** * Loading *)
  (** Conversion of a double to [int]: truncation; out of range it is undefined
      (CODEDistributionFunction.cpp:127, GOCODEDistributionFunction.cpp:177). *)
  Definition int_of (x : R) : outcome Z :=
    if Rlt_dec x 0 then (if Rle_dec x (-2147483649) then UB else Ok (- Int_part (- x))%Z)
    else if Rle_dec 2147483648 x then UB else Ok (Int_part x).
  (** constants.h:7. *)
  Definition electron_mass : R := 910938356 / 10 ^ 39.
  (** A variable that must be a single number (CODEDistributionFunction.cpp:94-95 and others). *)
  Definition scalar (a : marray R) : outcome R :=
    if ((ma_rows a =? 1) && (ma_cols a =? 1))%nat%bool then aget a 0 0 else Throw.
  (** A variable that must be a vector (CODEDistributionFunction.cpp:89-91): its length. *)
  Definition vector_length (a : marray R) : outcome nat :=
    (if (ma_rows a =? 1)%nat then Ok (ma_cols a) else if (ma_cols a =? 1)%nat then Ok (ma_rows a) else Throw).
  (** The variables of a CODE file; [None]: missing (CODEDistributionFunction.cpp:88-125). *)
  Record cfile : Type := CFile
    { cf_y : option (marray R); cf_delta : option (marray R); cf_nref : option (marray R); cf_Tref : option (marray R);
      cf_Nxi : option (marray R); cf_f : option (marray R) }.
  (** CODEDistributionFunction.cpp:98-121. *)
  Definition scalar_or_one (a : option (marray R)) : outcome R := match a with Some a => scalar a | None => Ok 1 end.
  (** CODEDistributionFunction.cpp:153-154: the normalization. *)
  Definition code_norm (nref Tref : R) : R :=
    let d := 2 * PI * electron_mass * Tref in nref / (sqrt d * d).
  (** CODEDistributionFunction.cpp:75-174 [Load] into a new object.  Only without
      momenta can a negative number of modes match the size of [f]; it then becomes a huge one.
      The first row of each array is released (lines 160-171), so that there must be one.  Files with a temperature that is not positive, where all
      values become infinite or NaN, are not modelled; the model calls them undefined. *)
  Definition code_load (m : cfile) (time : Z) (method : Z) : outcome code :=
    obind (need (cf_y m)) (fun y => obind (vector_length y) (fun np =>
    obind (need (cf_delta m)) (fun d => obind (scalar d) (fun delta =>
    obind (scalar_or_one (cf_nref m)) (fun nref =>
    obind (scalar_or_one (cf_Tref m)) (fun Tref =>
    obind (need (cf_Nxi m)) (fun nx => obind (scalar nx) (fun nxi => obind (int_of nxi) (fun nleg =>
    obind (fill np (fun i => obind (aget y 0 i) (fun v => Ok (v * delta)))) (fun p =>
    obind (need (cf_f m)) (fun f =>
    if negb (Z.of_nat (ma_cols f) =? Z.of_nat np * nleg)%Z then Throw else
    obind (slice (Z.of_nat (ma_rows f)) time) (fun t =>
    if ((nleg <? 0)%Z || (ma_rows y =? 0)%nat)%bool then UB else
    if Rle_dec Tref 0 then UB else
    obind (fill (np * Z.to_nat nleg) (fun i => obind (aget f (Z.to_nat t) i) (fun v => Ok (v * code_norm nref Tref)))) (fun ff =>
    code_initialize np (Z.to_nat nleg) p ff method))))))))))))).

  (** * GO+CODE *)
  (** GOCODEDistributionFunction.h:10-20.  Extrapolation is always permitted: the flag is
      private and never changed, so the limits are never used and not modelled. *)
  Record gocode : Type := Gocode { g_rho : list R; g_code : list code }.
  (** Evaluating distribution number [i] (GOCODEDistributionFunction.cpp:61-68). *)
  Definition gocode_at (cs : list code) (i : nat) (p xi : R) : outcome (list code * R) :=
    obind (dget cs i) (fun c => obind (code_eval c p xi) (fun r => Ok (update cs i (fst r), snd r))).
  (** GOCODEDistributionFunction.cpp:35-72 [Eval], the search in lines 84-109 being that of the
      numeric distribution function except for an empty grid.  The index is converted to
      unsigned, so that -1 becomes the largest number. *)
  Definition gocode_eval (g : gocode) (r p xi shift : R) : outcome (gocode * option R) :=
    let rho := r - shift in
    let nr := length (g_rho g) in
    if (nr =? 0)%nat then UB else
    obind (find_nearest (g_rho g) rho) (fun ir =>
    if (ir =? 0)%Z then
      obind (dget (g_rho g) 0) (fun r1 => obind (dget (g_rho g) 1) (fun r2 =>
      obind (gocode_at (g_code g) 0 p xi) (fun e1 => obind (gocode_at (fst e1) 1 p xi) (fun e2 =>
      Ok (Gocode (g_rho g) (fst e2),
          line 0 r1 rho (ediv (r2 * snd e1 - r1 * snd e2) (r2 - r1) Some) (Some (snd e1)))))))
    else if ((ir <? 0) || (Z.of_nat (nr - 1) <=? ir))%Z%bool then
      obind (dget (g_rho g) (nr - 1)) (fun r0 => obind (dget (g_rho g) (nr - 2)) (fun rb =>
      obind (gocode_at (g_code g) (nr - 1) p xi) (fun e0 => obind (gocode_at (fst e0) (nr - 2) p xi) (fun eb =>
      Ok (Gocode (g_rho g) (fst eb), line r0 (r0 + (2 * r0 - rb)) rho (Some (snd e0)) (Some (2 * snd e0 - snd eb)))))))
    else
      let i := Z.to_nat ir in
      obind (dget (g_rho g) i) (fun r0 => obind (dget (g_rho g) (i + 1)) (fun r1 =>
      obind (gocode_at (g_code g) i p xi) (fun e0 => obind (gocode_at (fst e0) (i + 1) p xi) (fun e1 =>
      Ok (Gocode (g_rho g) (fst e1), line r0 r1 rho (Some (snd e0)) (Some (snd e1)))))))).
  (** A sequence of evaluations (GOCODEDistributionFunction.cpp:35-72). *)
  Fixpoint gocode_evals (g : gocode) (h : list (R * R * R * R)) : outcome gocode :=
    match h with
    | [] => Ok g
    | (r, p, xi, s) :: h => obind (gocode_eval g r p xi s) (fun e => gocode_evals (fst e) h)
    end.
  (** GOCODEDistributionFunction.cpp:207-221 [MinClone]. *)
  Definition gocode_clone (g : gocode) : outcome gocode :=
    obind (fill (length (g_rho g)) (fun i => obind (dget (g_code g) i) code_clone)) (fun cs => Ok (Gocode (g_rho g) cs)).
  (** GOCODEDistributionFunction.cpp:133-202 [Load]: [magic] tells whether the variable [type],
      if there is one, has the right value; [files t i] is the group "t[t]/r[i]/"; [axis] is
      the major radius of the magnetic axis. *)
  Definition gocode_load (magic : option bool) (r : option (marray R)) (nt : option R) (files : Z -> nat -> cfile) (axis : R) (time method : Z) : outcome gocode :=
    match magic with Some false => Throw | _ =>
    obind (need r) (fun a => obind (vector_length a) (fun nr =>
    obind (fill nr (fun i => obind (aget a 0 i) (fun v => Ok (v + axis)))) (fun rho =>
    if negb (monotone true rho) then Throw else
    obind (dget rho 0) (fun _ => obind (need nt) (fun n => obind (int_of n) (fun ntimes =>
    obind (slice ntimes time) (fun t =>
    obind (fill nr (fun i => code_load (files t i) 0 method)) (fun cs => Ok (Gocode rho cs)))))))))
    end.
End Code.
