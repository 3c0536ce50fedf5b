(** Model of the arrays and structures the evaluation methods of magnetic fields return.
    src/MagneticField/MagneticFieldNumeric2D.cpp, src/MagneticField/MagneticFieldAnalytical2D.cpp,
    src/MagneticField/MagneticField2D.cpp.

    Eval, EvalDerivatives and EvalFluxDerivatives write what they compute into storage of the
    object and return its address.  The model is about that storage; the numbers are those of
    the formulae in AnalyticalModel.v and NumericModel.v, so they are arbitrary functions of the
    point here.  The grids, walls and splines of numeric fields are not part of this model. *)
From Coq Require Import Reals.
From Verif Require Import Base.

(** Points and field vectors: slibreal_t[3] (MagneticField2D.h 8-18). *)
Notation vec := (R * R * R)%type.

(** What a field computes at a point: B (MagneticFieldAnalytical2D.cpp 113-130,
    MagneticFieldNumeric2D.cpp 300-321), (B, grad |B|, curl B, |B|) (Analytical2D 144-194,
    Numeric2D 397-431), the Jacobian (Analytical2D 180-191, Numeric2D 333-395), the flux with
    its derivatives (Analytical2D 231-253, Numeric2D 463-476) and the flux (Analytical2D
    205-216, Numeric2D 439-447). *)
Record funs : Type := mkFuns
  { gB : vec -> vec;
    gD : vec -> vec * vec * vec * R;
    gJ : vec -> vec * vec * vec;
    gF : vec -> vec;
    gPsi : vec -> R }.

(** The two classes of fields.  An analytical field depends on B0, which SetB0 changes
    (MagneticFieldAnalytical2D.h 58-59); a numeric one knows whether it has flux coordinates
    (MagneticFieldNumeric2D.cpp 244). *)
Inductive field : Type :=
| Analytical (a : R -> funs) (b0 : R)
| Numeric (g : funs) (flux : bool).

(** MagneticFieldAnalytical2D.cpp 113-253, MagneticFieldNumeric2D.cpp 300-476: the functions a
    field evaluates now. *)
Definition fun_of (f : field) : funs :=
  match f with Analytical a b => a b | Numeric g _ => g end.

(** HasMagneticFlux: MagneticFieldAnalytical2D.h 51, MagneticFieldNumeric2D.h. *)
Definition has_flux (f : field) : bool :=
  match f with Analytical _ _ => true | Numeric _ b => b end.

(** An object: the field and its four pieces of storage, None before they are written:
    retval / interpval, jacobian, magdata, flux_retval / flux_data
    (MagneticFieldAnalytical2D.h 24-26, 34; MagneticFieldNumeric2D.cpp 67-79, 100-105;
    MagneticField2D.h 40).  magdata.J always points to the object's own jacobian, so only the
    other members are kept in [o_mag]. *)
Record object : Type := mkObj
  { o_field : field;
    o_vec : option vec;
    o_jac : option (vec * vec * vec);
    o_mag : option (vec * vec * vec * R);
    o_flux : option vec }.

(** MagneticFieldAnalytical2D.cpp 36-62, MagneticFieldNumeric2D.cpp 67-79: a new object. *)
Definition fresh (f : field) : object := mkObj f None None None None.

(** All objects made so far; None once deleted (destructors: MagneticFieldAnalytical2D.h 39,
    MagneticFieldNumeric2D.cpp 43-62). *)
Definition world := list (option object).

(** What a caller does.  [NewField]: the constructors (MagneticFieldAnalytical2D.cpp 27-62,
    MagneticFieldNumeric2D.cpp 21-108).  The others: the methods of those names. *)
Inductive op : Type :=
| NewField (f : field)
| CloneField (i : nat)
| SetB0 (i : nat) (b : R)
| Eval (i : nat) (p : vec)
| EvalDerivatives (i : nat) (p : vec)
| EvalFluxDerivatives (i : nat) (p : vec)
| EvalFlux (i : nat) (p : vec)
| DeleteField (i : nat).

(** MagneticField2D.cpp 12-19: the object a pointer points to; using a deleted one is
    undefined. *)
Definition obj (w : world) (i : nat) : outcome object :=
  match nth_error w i with Some (Some o) => Ok o | _ => UB end.

(** Storage of one object changes, that of the others does not
    (MagneticFieldAnalytical2D.cpp 125-127, MagneticFieldNumeric2D.cpp 316-318: all writes are
    to members of this object). *)
Fixpoint put (w : world) (i : nat) (o : option object) : world :=
  match w, i with
  | [], _ => []
  | _ :: r, O => o :: r
  | x :: r, S i' => x :: put r i' o
  end.

(** MagneticFieldAnalytical2D.cpp 113-130 (retval) and MagneticFieldNumeric2D.cpp 300-321
    (interpval). *)
Definition do_eval (o : object) (p : vec) : object :=
  mkObj (o_field o) (Some (gB (fun_of (o_field o)) p)) (o_jac o) (o_mag o) (o_flux o).

(** MagneticFieldAnalytical2D.cpp 144-194: magdata and jacobian are written, retval is not.
    MagneticFieldNumeric2D.cpp 333-431: interpval is written as well (377-379). *)
Definition do_derivatives (o : object) (p : vec) : object :=
  let g := fun_of (o_field o) in
  mkObj (o_field o)
    (match o_field o with Analytical _ _ => o_vec o | Numeric _ _ => Some (gB g p) end)
    (Some (gJ g p)) (Some (gD g p)) (o_flux o).

(** MagneticFieldAnalytical2D.cpp 231-253, MagneticFieldNumeric2D.cpp 463-476. *)
Definition do_flux (o : object) (p : vec) : object :=
  mkObj (o_field o) (o_vec o) (o_jac o) (o_mag o) (Some (gF (fun_of (o_field o)) p)).

(** MagneticFieldAnalytical2D.h 59. *)
Definition do_set (o : object) (b : R) : outcome object :=
  match o_field o with
  | Analytical a _ => Ok (mkObj (Analytical a b) (o_vec o) (o_jac o) (o_mag o) (o_flux o))
  | Numeric _ _ => Throw   (* no such member, so no such call: it has no effect *)
  end.

(** One call.  EvalFlux and EvalFluxDerivatives of a numeric field without flux coordinates
    throw before anything is written (MagneticFieldNumeric2D.cpp 442-443, 466-467); EvalFlux
    returns a number and writes nothing (439-447, MagneticFieldAnalytical2D.cpp 205-216).
    Clone makes a new object with its own storage (MagneticFieldNumeric2D.cpp 115-165,
    MagneticFieldAnalytical2D.cpp 67-75).  The destructors (MagneticFieldNumeric2D.cpp 43-62)
    release the storage. *)
Definition step (w : world) (c : op) : outcome world :=
  match c with
  | NewField f => Ok (w ++ [Some (fresh f)])
  | CloneField i => obind (obj w i) (fun o => Ok (w ++ [Some (fresh (o_field o))]))
  | SetB0 i b => obind (obj w i) (fun o => obind (do_set o b) (fun o' => Ok (put w i (Some o'))))
  | Eval i p => obind (obj w i) (fun o => Ok (put w i (Some (do_eval o p))))
  | EvalDerivatives i p => obind (obj w i) (fun o => Ok (put w i (Some (do_derivatives o p))))
  | EvalFluxDerivatives i p =>
      obind (obj w i) (fun o =>
        if has_flux (o_field o) then Ok (put w i (Some (do_flux o p))) else Throw)
  | EvalFlux i p => obind (obj w i) (fun o => if has_flux (o_field o) then Ok w else Throw)
  | DeleteField i => obind (obj w i) (fun _ => Ok (put w i None))
  end.

(** MagneticField2D.cpp 81-126: a program of such calls.  A call that throws has changed
    nothing (MagneticFieldNumeric2D.cpp 442-443, 466-467) and the program goes on. *)
Fixpoint run (w : world) (cs : list op) : outcome world :=
  match cs with
  | [] => Ok w
  | c :: r => match step w c with Ok w' => run w' r | Throw => run w r | UB => UB end
  end.

(** Reading, later, through an address Eval returned (retval, MagneticFieldAnalytical2D.cpp
    129; interpval, MagneticFieldNumeric2D.cpp 320).  The address identifies the object.
    Storage that was never written holds no value. *)
Definition read_vec (w : world) (i : nat) : outcome vec :=
  obind (obj w i) (fun o => match o_vec o with Some v => Ok v | None => UB end).

(** Reading through the reference EvalDerivatives returned (MagneticFieldAnalytical2D.cpp
    193, MagneticFieldNumeric2D.cpp 430). *)
Definition read_mag (w : world) (i : nat) : outcome (vec * vec * vec * R) :=
  obind (obj w i) (fun o => match o_mag o with Some v => Ok v | None => UB end).

(** Reading through the member J of that structure, or of a copy of it: the object's jacobian
    (Analytical2D 170, Numeric2D 420).  Only a numeric field's jacobian is released with the
    field (Numeric2D 46-49; MagneticFieldAnalytical2D.h 39), but the structure itself is part of
    the field; the model does not follow copies of J beyond the life of the field. *)
Definition read_jac (w : world) (i : nat) : outcome (vec * vec * vec) :=
  obind (obj w i) (fun o => match o_jac o with Some v => Ok v | None => UB end).

(** Reading through the address EvalFluxDerivatives returned (MagneticFieldAnalytical2D.cpp 252,
    MagneticFieldNumeric2D.cpp 475). *)
Definition read_flux (w : world) (i : nat) : outcome vec :=
  obind (obj w i) (fun o => match o_flux o with Some v => Ok v | None => UB end).

(** MagneticField2D.cpp 81-83 and 95-97 (MagneticFieldNumeric2D.cpp 297-299): the overloads
    that take an array read its three numbers before the evaluation.  Here the array is one
    that Eval returned, of the same object or of another. *)
Definition eval_at (w : world) (i j : nat) : outcome world :=
  obind (read_vec w j) (fun p => step w (Eval i p)).

(** MagneticField2D.cpp 95-97. *)
Definition derivatives_at (w : world) (i j : nat) : outcome world :=
  obind (read_vec w j) (fun p => step w (EvalDerivatives i p)).
