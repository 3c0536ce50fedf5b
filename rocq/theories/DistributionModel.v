(** Model of the numeric distribution functions.
    Source: src/DistributionFunction/NumericDistributionFunction.cpp,
    NumericMomentumSpaceDistributionFunction.cpp and their headers.
    Values are real numbers (no rounding, no overflow); [None] as a value means that the C++
    code returns an infinity or NaN. *)
From Coq Require Import Reals.
From Verif Require Import Base DomainModel AnalyticalModel.
Local Open Scope R_scope.

(** * The radial grid *)
(** Reading element [i] of an array (NumericDistributionFunction.cpp:64-68). *)
Definition dget {A : Type} (l : list A) (i : nat) : outcome A :=
  match nth_error l i with Some x => Ok x | None => UB end.

(** NumericDistributionFunction.cpp:94-100: bisection between [il] and [iu].  [None]: the loop
    has not ended after [fuel] rounds. *)
Fixpoint bisect (grid : list R) (x : R) (asc : bool) (fuel il iu : nat) : option (outcome nat) :=
  if (iu - il <=? 1)%nat then Some (Ok il) else
  match fuel with
  | O => None
  | S k =>
      let im := Nat.div (iu + il) 2 in
      match nth_error grid im with
      | None => Some UB
      | Some v => if Bool.eqb (Rleb v x) asc then bisect grid x asc k im iu else bisect grid x asc k il im
      end
  end.

(** NumericDistributionFunction.cpp:84-110 [__FindNearestR].  The bisection is given as many
    rounds as there are grid points; [bisect_ends] in DistributionProofs.v shows that it never
    needs more. *)
Definition find_nearest (grid : list R) (x : R) : outcome Z :=
  let n := length grid in
  match grid with
  | [] => Ok (-1)%Z
  | [_] => Ok 0%Z
  | a :: b :: _ =>
      match bisect grid x (Rltb a b) n 0 (n - 1) with
      | Some (Ok il) =>
          if (n - 1 <? il)%nat then Ok (Z.of_nat (n - 1))
          else if Rltb x a then Ok (-1)%Z
          else obind (dget grid (n - 1)) (fun c => Ok (if Rltb c x then Z.of_nat (n - 1) else Z.of_nat il))
      | Some Throw => Throw
      | Some UB => UB
      | None => UB
      end
  end.

(** Arithmetic on values that may be infinite or NaN: once a term is not finite the result
    is not finite either (NumericDistributionFunction.cpp:71). *)
Definition olift (f g : option R) (k : R -> R -> option R) : option R :=
  match f, g with Some a, Some b => k a b | _, _ => None end.
(** NumericDistributionFunction.cpp:71. *)
Definition line (r0 r1 rho : R) (f0 f1 : option R) : option R :=
  olift f0 f1 (fun a b => ediv ((r1 - rho) * a + (rho - r0) * b) (r1 - r0) Some).

(** [std::vector::insert] at position [k] (NumericDistributionFunction.cpp:238, 249). *)
Definition insert_at {A : Type} (l : list A) (k : nat) (x : A) : outcome (list A) :=
  if (length l <? k)%nat then UB else Ok (firstn k l ++ x :: skipn k l).

(** The distribution functions at the single radii, [D], are known by their values [ev]. *)
Section Radial.
  Variable D : Type.
  Variable ev : D -> R -> R -> outcome (option R).

  (** NumericDistributionFunction.h:22-48.  [rd_lim] is [rmin] and [rmax], [None] before they
      are first set. *)
  Record radial : Type := Radial { rd_r : list R; rd_ms : list D; rd_lim : option (R * R); rd_extra : bool }.
  (** NumericDistributionFunction.h:46. *)
  Definition rd_new : radial := Radial [] [] None true.

  (** NumericDistributionFunction.cpp:28-72 [Eval], from line 39. *)
  Definition rd_at (o : radial) (rho p xi : R) : outcome (option R) :=
    let nr := length (rd_r o) in
    let m i := obind (dget (rd_ms o) i) (fun d => ev d p xi) in
    obind (find_nearest (rd_r o) rho) (fun ir =>
    if (nr =? 1)%nat then obind (m 0%nat) (fun f0 => Ok (line rho 0 rho f0 (Some 0)))
    else if (ir <=? 0)%Z then
      obind (dget (rd_r o) 0) (fun r1 => obind (dget (rd_r o) 1) (fun r2 =>
      obind (m 0%nat) (fun f1 => obind (m 1%nat) (fun f2 =>
      Ok (line 0 r1 rho (olift f1 f2 (fun a b => ediv (r2 * a - r1 * b) (r2 - r1) Some)) f1)))))
    else if (Z.of_nat (nr - 1) <=? ir)%Z then
      obind (dget (rd_r o) (nr - 1)) (fun r0 => obind (dget (rd_r o) (nr - 2)) (fun rb =>
      obind (m (nr - 1)%nat) (fun f0 => obind (m (nr - 2)%nat) (fun fb =>
      Ok (line r0 (r0 + (2 * r0 - rb)) rho f0 (olift f0 fb (fun a b => Some (2 * a - b))))))))
    else
      let i := Z.to_nat ir in
      obind (dget (rd_r o) i) (fun r0 => obind (dget (rd_r o) (i + 1)) (fun r1 =>
      obind (m i) (fun f0 => obind (m (i + 1)%nat) (fun f1 => Ok (line r0 r1 rho f0 f1)))))).
  (** NumericDistributionFunction.cpp:28-37 [Eval]: the refusal to extrapolate. *)
  Definition rd_eval (o : radial) (r p xi shift : R) : outcome (option R) :=
    let rho := r - shift in
    if rd_extra o then rd_at o rho p xi
    else match rd_lim o with
         | None => UB
         | Some (lo, hi) => if (Rltb rho lo || Rltb hi rho)%bool then Throw else rd_at o rho p xi
         end.

  (** NumericDistributionFunction.cpp:141-147: every neighbouring pair must be ordered. *)
  Fixpoint monotone (asc : bool) (l : list R) : bool :=
    match l with
    | a :: ((b :: _) as rest) => (if asc then negb (Rleb b a) else negb (Rleb a b)) && monotone asc rest
    | _ => true
    end%bool.
  (** Running [n] computations in turn, number [i] first (NumericDistributionFunction.cpp:159-166). *)
  Fixpoint collect (mk : nat -> outcome D) (n i : nat) : outcome (list D) :=
    match n with
    | O => Ok []
    | S k => obind (mk i) (fun d => obind (collect mk k (S i)) (fun l => Ok (d :: l)))
    end.
  (** NumericDistributionFunction.cpp:130-167 [Initialize] of a new object: the loop copies the
      radii from the second on.  [mk i] initializes the distribution at radius [i]. *)
  Definition rd_initialize (rs : list R) (mk : nat -> outcome D) : outcome radial :=
    let nr := length rs in
    let asc := match rs with a :: b :: _ :: _ => Rleb a b | _ => true end in
    if negb (monotone asc rs) then Throw else
    obind (dget rs 0) (fun lo => obind (dget rs (nr - 1)) (fun hi =>
    obind (collect mk nr 0) (fun ms =>
    Ok (Radial (tl rs) ms (Some (if Rltb hi lo then (hi, lo) else (lo, hi))) true)))).

  (** NumericDistributionFunction.cpp:231-252 [InsertMomentumSpaceDistribution]. *)
  Definition rd_insert (o : radial) (x : R) (d : D) : outcome (radial * Z) :=
    obind (find_nearest (rd_r o) x) (fun ir =>
    obind (if (ir =? -1)%Z then Ok (rd_r o ++ [x]) else insert_at (rd_r o) (Z.to_nat (ir + 1)) x) (fun rs =>
    obind (if (length rs =? 1)%nat then Ok (x, x) else
           match rd_lim o with
           | None => UB
           | Some (lo, hi) => Ok (if Rltb hi x then (lo, x) else if Rltb x lo then (x, hi) else (lo, hi))
           end) (fun lim =>
    obind (insert_at (rd_ms o) (Z.to_nat (ir + 1)) d) (fun ms =>
    Ok (Radial rs ms (Some lim) (rd_extra o), (ir + 1)%Z))))).
  (** A sequence of insertions (NumericDistributionFunction.cpp:231-252). *)
  Fixpoint rd_build (o : radial) (l : list (R * D)) : outcome radial :=
    match l with
    | [] => Ok o
    | (x, d) :: rest => obind (rd_insert o x d) (fun r => rd_build (fst r) rest)
    end.
  (** NumericDistributionFunction.h:75 [SetExtrapolationPermission]. *)
  Definition rd_permit (o : radial) (e : bool) : radial := Radial (rd_r o) (rd_ms o) (rd_lim o) e.

  (** NumericDistributionFunction.cpp:311-315: [cl] clones one distribution, [i] counts the radii. *)
  Fixpoint rd_clone_from (cl : D -> outcome D) (o : radial) (i : nat) (rs : list R) (df : radial) : outcome radial :=
    match rs with
    | [] => Ok df
    | x :: rest =>
        obind (dget (rd_ms o) i) (fun d => obind (cl d) (fun d' =>
        obind (rd_insert df x d') (fun r => rd_clone_from cl o (S i) rest (fst r))))
    end.
  (** NumericDistributionFunction.cpp:308-318 [MinClone]. *)
  Definition rd_clone (cl : D -> outcome D) (o : radial) : outcome radial := rd_clone_from cl o 0 (rd_r o) rd_new.
End Radial.
Arguments Radial {D}. Arguments rd_r {D}. Arguments rd_ms {D}. Arguments rd_lim {D}. Arguments rd_extra {D}.
Arguments rd_new {D}. Arguments rd_at {D}. Arguments rd_eval {D}. Arguments rd_initialize {D}.
Arguments collect {D}. Arguments rd_insert {D}. Arguments rd_build {D}. Arguments rd_permit {D}. Arguments rd_clone_from {D}. Arguments rd_clone {D}.

(** * Momentum space *)
(** Double precision numbers as far as logarithms need them
    (NumericMomentumSpaceDistributionFunction.cpp:42-48, 125). *)
Inductive xreal : Type := Fin (x : R) | PInf | NInf | NaN.
(** [log] of a finite number (NumericMomentumSpaceDistributionFunction.cpp:125). *)
Definition xlog (x : R) : xreal := if Rlt_dec 0 x then Fin (ln x) else if Req_EM_T x 0 then NInf else NaN.
(** A value as the caller sees it (NumericMomentumSpaceDistributionFunction.cpp:48). *)
Definition xval (x : xreal) : option R := match x with Fin r => Some r | _ => None end.
(** [exp] (NumericMomentumSpaceDistributionFunction.cpp:46). *)
Definition xexp (x : xreal) : option R :=
  match x with Fin r => Some (exp r) | NInf => Some 0 | PInf => None | NaN => None end.

Section Momentum.
  (** The interpolation of the GSL, bilinear or bicubic, through a table of values on a grid.
      It is not modelled here; ApproxModel has the bilinear one. *)
  Variable spline : bool -> list R -> list R -> list xreal -> R -> R -> xreal.

  (** NumericMomentumSpaceDistributionFunction.h:21-37.  [ms_cubic]: [interptype]. *)
  Record msdf : Type := MSDF
    { ms_p : list R; ms_xi : list R; ms_f : list xreal; ms_pmin : R; ms_pmax : R; ms_ximin : R; ms_ximax : R;
      ms_cubic : bool; ms_log : bool; ms_flip : bool }.

  (** NumericMomentumSpaceDistributionFunction.cpp:26-49 [Eval]. *)
  Definition ms_eval (m : msdf) (p xi : R) : option R :=
    if (Rltb p (ms_pmin m) || Rltb (ms_pmax m) p)%bool then Some 0
    else if (if ms_flip m then Rltb xi (- ms_ximax m) || Rltb (- ms_ximin m) xi
             else Rltb xi (ms_ximin m) || Rltb (ms_ximax m) xi)%bool then Some 0
    else
      let v := spline (ms_cubic m) (ms_p m) (ms_xi m) (ms_f m) p (if ms_flip m then - xi else xi) in
      if ms_log m then match v with NaN => Some 0 | _ => xexp v end else xval v.

  (** What the GSL requires of each grid: two points for a linear interpolation, four for a
      cubic one, strictly increasing.  Otherwise it ends the program
      (NumericMomentumSpaceDistributionFunction.cpp:89-97). *)
  Definition grid_usable (cubic : bool) (l : list R) : bool :=
    (((if cubic then 4 else 2) <=? length l)%nat && monotone true l)%bool.
  (** NumericMomentumSpaceDistributionFunction.cpp:63-98 [Initialize] of an object with the
      flags [lg] and [fl].  The grids come with their lengths; the table may be longer than
      the grid needs.  Interpolation method 0 is the linear one.  Grids that the GSL does not
      take are undefined here. *)
  Definition ms_initialize (lg fl : bool) (p xi : list R) (f : list xreal) (it : Z) : outcome msdf :=
    let np := length p in let nxi := length xi in
    obind (dget p 0) (fun pmin => obind (dget p (np - 1)) (fun pmax =>
    obind (dget xi 0) (fun ximin => obind (dget xi (nxi - 1)) (fun ximax =>
    if Rltb pmax pmin then Throw else if Rltb ximax ximin then Throw else
    if negb (grid_usable (negb (it =? 0)%Z) p && grid_usable (negb (it =? 0)%Z) xi) then UB else
    if (length f <? np * nxi)%nat then UB else
    Ok (MSDF p xi (firstn (np * nxi) f) pmin pmax ximin ximax (negb (it =? 0)%Z) lg fl))))).

  (** The object after [Initialize] threw (NumericMomentumSpaceDistributionFunction.cpp:68-84):
      pointers and ranges are set.  There is no interpolation object, but the ranges are such
      that [Eval] never gets to use it (lines 29-36; proved in C83). *)
  Definition ms_rejected (lg fl : bool) (p xi : list R) (f : list xreal) : outcome msdf :=
    obind (dget p 0) (fun pmin => obind (dget p (length p - 1)) (fun pmax =>
    obind (dget xi 0) (fun ximin => obind (dget xi (length xi - 1)) (fun ximax =>
    Ok (MSDF p xi f pmin pmax ximin ximax false lg fl))))).
  (** NumericMomentumSpaceDistributionFunction.cpp:122-126. *)
  Fixpoint log_table (n : nat) (f : list R) : outcome (list xreal) :=
    match n with
    | O => Ok []
    | S k => match f with
             | [] => UB
             | v :: rest => if Rltb v 0 then Throw else obind (log_table k rest) (fun l => Ok (xlog v :: l))
             end
    end.
  (** NumericMomentumSpaceDistributionFunction.cpp:114-130 [InitializeLog] of a new object. *)
  Definition ms_initialize_log (p xi : list R) (f : list R) (it : Z) : outcome msdf :=
    obind (log_table (length p * length xi) f) (fun l => ms_initialize true false p xi l it).
  (** NumericMomentumSpaceDistributionFunction.cpp:136-142 [MinClone]. *)
  Definition ms_clone (m : msdf) : outcome msdf :=
    ms_initialize false (ms_flip m) (ms_p m) (ms_xi m) (ms_f m) (if ms_cubic m then 1 else 0)%Z.
  (** NumericMomentumSpaceDistributionFunction.h:53,55. *)
  Definition ms_set_log (l : bool) (m : msdf) : msdf :=
    MSDF (ms_p m) (ms_xi m) (ms_f m) (ms_pmin m) (ms_pmax m) (ms_ximin m) (ms_ximax m) (ms_cubic m) l (ms_flip m).
  Definition ms_set_flip (v : bool) (m : msdf) : msdf :=
    MSDF (ms_p m) (ms_xi m) (ms_f m) (ms_pmin m) (ms_pmax m) (ms_ximin m) (ms_ximax m) (ms_cubic m) (ms_log m) v.

  (** * Radial grids of momentum space distributions *)
  (** An object on the grid; [None] before it is initialized
      (NumericDistributionFunction.cpp:61-68). *)
  Definition ms_value (m : option msdf) (p xi : R) : outcome (option R) :=
    match m with Some m => Ok (ms_eval m p xi) | None => UB end.
  (** NumericDistributionFunction.h:22-48. *)
  Definition ndf : Type := radial (option msdf).
  (** NumericDistributionFunction.cpp:28-72. *)
  Definition nd_eval : ndf -> R -> R -> R -> R -> outcome (option R) := rd_eval ms_value.
  (** NumericDistributionFunction.cpp:159-166: the table of radius [i] starts after the tables
      of the radii before it. *)
  Definition nd_initialize (rs p xi : list R) (f : list xreal) (it : Z) : outcome ndf :=
    rd_initialize rs (fun i =>
      obind (ms_initialize false false p xi (skipn (i * (length p * length xi)) f) it) (fun m => Ok (Some m))).
  (** NumericDistributionFunction.cpp:204-209, 288-293: the logarithm of [n] values, minus
      infinity for those that are not positive. *)
  Definition safe_log (x : R) : xreal := if Rle_dec x 0 then NInf else Fin (ln x).
  Definition logs (n : nat) (f : list R) : outcome (list xreal) :=
    if (length f <? n)%nat then UB else Ok (map safe_log (firstn n f)).
  (** NumericDistributionFunction.cpp:191-215 [InitializeLog] of a new object.  The second
      result is the caller's table afterwards: without [alloc] it has been overwritten.
      (With [alloc] lines 200-201 write to the new table before line 204 overwrites it.) *)
  Definition nd_initialize_log (rs p xi : list R) (f : list R) (it : Z) (alloc : bool) : outcome (ndf * list xreal) :=
    let n := (length rs * length p * length xi)%nat in
    obind (logs n f) (fun tf =>
    obind (nd_initialize rs p xi tf it) (fun o =>
    Ok (Radial (rd_r o) (map (option_map (ms_set_log true)) (rd_ms o)) (rd_lim o) (rd_extra o),
        if alloc then map Fin f else tf ++ map Fin (skipn n f)))).

  (** Replacing element [i] (NumericDistributionFunction.cpp:231-302). *)
  Fixpoint update {A : Type} (l : list A) (i : nat) (x : A) : list A :=
    match l, i with
    | [], _ => []
    | _ :: t, O => x :: t
    | h :: t, S k => h :: update t k x
    end.
  (** NumericDistributionFunction.cpp:231-302. *)
  Definition put {A : Type} (o : radial A) (i : nat) (d : A) : radial A :=
    Radial (rd_r o) (update (rd_ms o) i d) (rd_lim o) (rd_extra o).
  (** NumericDistributionFunction.cpp:253-265: inserting a table.  The object after the call
      comes with what the call returns or throws. *)
  Definition nd_insert (o : ndf) (x : R) (p xi : list R) (f : list xreal) (it : Z) : ndf * outcome Z :=
    match rd_insert o x None with
    | Ok (o1, idx) =>
        match ms_initialize false false p xi f it with
        | Ok m => (put o1 (Z.to_nat idx) (Some m), Ok idx)
        | Throw => match ms_rejected false false p xi f with
                   | Ok m => (put o1 (Z.to_nat idx) (Some m), Throw)
                   | _ => (o1, UB)
                   end
        | UB => (o1, UB)
        end
    | Throw => (o, Throw)
    | UB => (o, UB)
    end.
  (** NumericDistributionFunction.cpp:276-302 [InsertMomentumSpaceDistributionLog]: with
      [alloc] the logarithm is stored in a new table, but it is the caller's table that is
      inserted. *)
  Definition nd_insert_log (o : ndf) (x : R) (p xi : list R) (f : list R) (it : Z) (alloc : bool) : ndf * outcome Z :=
    match logs (length p * length xi) f with
    | Ok tf =>
        let (o1, r) := nd_insert o x p xi (if alloc then map Fin f else tf) it in
        match r with
        | Ok idx =>
            match nth_error (rd_ms o1) (Z.to_nat idx) with
            | Some (Some m) => (put o1 (Z.to_nat idx) (Some (ms_set_log true m)), Ok idx)
            | _ => (o1, UB)
            end
        | _ => (o1, r)
        end
    | Throw => (o, Throw)
    | UB => (o, UB)
    end.
  (** NumericDistributionFunction.h:78-82 [FlipPitchSign]. *)
  Definition nd_flip (v : bool) (o : ndf) : ndf :=
    Radial (rd_r o) (map (option_map (ms_set_flip v)) (rd_ms o)) (rd_lim o) (rd_extra o).
  (** NumericDistributionFunction.cpp:308-318 [MinClone]. *)
  Definition nd_clone (o : ndf) : outcome ndf :=
    rd_clone (fun m => match m with Some m => obind (ms_clone m) (fun m' => Ok (Some m')) | None => UB end) o.
End Momentum.
