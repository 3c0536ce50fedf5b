(** Model of which arrays CODE distribution functions, their clones and the tables made from
    them share, and of when they are released.
    src/DistributionFunction/CODEDistributionFunction.cpp,
    src/DistributionFunction/NumericMomentumSpaceDistributionFunction.cpp.

    Arrays are blocks with contents of type [A] as in FieldOwnModel.v.  There is at least one
    Legendre mode, tables have at least one pitch, and evaluations are at momenta on the grid;
    what is computed from the contents is in CodeModel.v and is not part of this model. *)
From Verif Require Import Base FieldOwnModel.

Section Life.
Variable A : Type.

(** The interpolation objects (CODEDistributionFunction.h 26-27): none, one per mode, or an
    array of pointers that were never set (CODEDistributionFunction.cpp 307, 331-332). *)
Inductive interp : Type := INone | IReady | IUnset.

(** A CODE distribution function (CODEDistributionFunction.h 16-27): are np and nleg set; p, f
    (null or an array); is there an array of Legendre polynomials; is the interpolation method
    one of the seven known ones; the interpolation objects. *)
Record code : Type := mkCode
  { k_dims : bool;
    k_p : option nat;
    k_f : option nat;
    k_leg : bool;
    k_known : bool;
    k_interp : interp }.

(** CODEDistributionFunction.cpp 32, CODEDistributionFunction.h 16-27. *)
Definition new_code : code := mkCode false None None false true INone.

(** A momentum-space table (NumericMomentumSpaceDistributionFunction.cpp 63-98): its arrays p,
    xi, f, and what its spline copied from them (97). *)
Record table : Type := mkTable
  { t_p : nat;
    t_xi : nat;
    t_f : nat;
    t_spline : list A }.

(** Memory, distribution functions and tables (None once deleted,
    CODEDistributionFunction.cpp 43-52). *)
Record world : Type := mkWorld
  { w_heap : heap A;
    w_codes : list (option code);
    w_tables : list (option table) }.

(** What a caller does: new object (CODEDistributionFunction.cpp 32), Load (54-178), MinClone
    (342-348), Destroy (204-229), delete (43-52), Eval (238-259), ToMomentumSpace (362-404), and
    Eval, MinClone and delete of tables (NumericMomentumSpaceDistributionFunction.cpp 26-49,
    136-142; no destructor is declared).  [p], [f]: contents of the file; [known]: the
    interpolation method is a known one. *)
Inductive op : Type :=
| New
| Load (i : nat) (p f : A) (known : bool)
| MinClone (i : nat)
| Destroy (i : nat)
| Delete (i : nat)
| Eval (i : nat)
| ToMomentumSpace (i : nat)
| TEval (j : nat)
| TMinClone (j : nat)
| TDelete (j : nat).

(** What a call gives (CODEDistributionFunction.cpp 32-404): nothing, an object, a table, the
    contents that the returned number is computed from, or an exception. *)
Inductive result : Type :=
| RNothing
| RCode (i : nat)
| RTable (j : nat)
| RValue (vs : list A)
| RThrow.

(** CODEDistributionFunction.cpp 204-259: use of an object. *)
Definition get_code (w : world) (i : nat) : outcome code :=
  match nth_error (w_codes w) i with Some (Some k) => Ok k | _ => UB end.

(** NumericMomentumSpaceDistributionFunction.cpp 26-49: use of a table. *)
Definition get_table (w : world) (j : nat) : outcome table :=
  match nth_error (w_tables w) j with Some (Some t) => Ok t | _ => UB end.

(** Members of one object change (CODEDistributionFunction.cpp 204-229, 278-289). *)
Fixpoint set {T : Type} (l : list T) (i : nat) (x : T) : list T :=
  match l, i with
  | [], _ => []
  | _ :: r, O => x :: r
  | y :: r, S i' => y :: set r i' x
  end.

(** Reading through a pointer that may be null (CODEDistributionFunction.cpp 252, 265, 388). *)
Definition rd_ptr (h : heap A) (p : option nat) : outcome A :=
  match p with Some q => rd h q | None => UB end.

(** delete [] of a pointer unless it is null (CODEDistributionFunction.cpp 205-212). *)
Definition fre_ptr (h : heap A) (p : option nat) : outcome (heap A) :=
  match p with Some q => fre h q | None => Ok h end.

(** InitInterpolation on arrays that are not null (CODEDistributionFunction.cpp 298-337): with
    an unknown method the array of interpolation objects is allocated, then it throws. *)
Definition init_interp (known : bool) : interp := if known then IReady else IUnset.

(** Load: two new arrays are read from the file and given to Initialize
    (CODEDistributionFunction.cpp 54-178, 278-289); what the object had before is forgotten, not
    released. *)
Definition load (w : world) (i : nat) (p f : A) (known : bool) : world * result :=
  let n := length (w_heap w) in
  (mkWorld (w_heap w ++ [Some p; Some f])
     (set (w_codes w) i (Some (mkCode true (Some n) (Some (S n)) true known (init_interp known)))) (w_tables w),
   if known then RNothing else RThrow).

(** MinClone (CODEDistributionFunction.cpp 342-348): the clone gets the same pointers
    (Initialize 278-289).  np and nleg of an object that never loaded anything are not set.  If
    p or f is null, or the method unknown, InitInterpolation throws (301-302, 331-332) and the
    caller gets no object.  gsl_interp_init reads the arrays (335). *)
Definition min_clone (w : world) (k : code) : outcome (world * result) :=
  if negb (k_dims k) then UB
  else match k_p k, k_f k with
       | Some p, Some f =>
           if negb (k_known k) then Ok (w, RThrow)
           else obind (rd (w_heap w) p) (fun _ => obind (rd (w_heap w) f) (fun _ =>
                Ok (mkWorld (w_heap w) (w_codes w ++ [Some (mkCode true (Some p) (Some f) true true IReady)]) (w_tables w),
                    RCode (length (w_codes w)))))
       | _, _ => Ok (w, RThrow)
       end.

(** Destroy (CODEDistributionFunction.cpp 204-229). *)
Definition destroy (w : world) (i : nat) (k : code) : outcome (world * result) :=
  obind (fre_ptr (w_heap w) (k_f k)) (fun h1 =>
  obind (fre_ptr h1 (k_p k)) (fun h2 =>
    match k_interp k with
    | IUnset => UB
    | _ => Ok (mkWorld h2 (set (w_codes w) i (Some (mkCode (k_dims k) None None false (k_known k) INone))) (w_tables w), RNothing)
    end)).

(** The destructor (CODEDistributionFunction.cpp 43-52) releases the interpolation objects
    only. *)
Definition delete (w : world) (i : nat) (k : code) : outcome (world * result) :=
  match k_interp k with
  | IUnset => UB
  | _ => Ok (mkWorld (w_heap w) (set (w_codes w) i None) (w_tables w), RNothing)
  end.

(** Eval (CODEDistributionFunction.cpp 238-259): reads p (264-272) and, with the interpolation
    objects, p and f (252). *)
Definition eval (w : world) (k : code) : outcome (world * result) :=
  obind (rd_ptr (w_heap w) (k_p k)) (fun p =>
    match k_interp k with
    | IReady => obind (rd_ptr (w_heap w) (k_f k)) (fun f => Ok (w, RValue [p; f]))
    | _ => UB
    end).

(** ToMomentumSpace (CODEDistributionFunction.cpp 362-404): new arrays for the pitch grid and
    the values ([xi], and [g] of the modes); the momentum grid is that of this object.  The
    Legendre polynomials are computed in the object's array (382). *)
Definition to_momentum_space (xi : A) (g : A -> A) (w : world) (k : code) : outcome (world * result) :=
  if negb (k_leg k) then UB
  else
    let n := length (w_heap w) in
    obind (rd_ptr (w_heap w) (k_f k)) (fun f =>
    match k_p k with
    | None => UB
    | Some q => obind (rd (w_heap w) q) (fun p =>
        Ok (mkWorld (w_heap w ++ [Some xi; Some (g f)]) (w_codes w)
              (w_tables w ++ [Some (mkTable q n (S n) [p; xi; g f])]),
            RTable (length (w_tables w))))
    end).

(** MinClone of a table (NumericMomentumSpaceDistributionFunction.cpp 136-142): same arrays,
    read again by Initialize (74-77, 97). *)
Definition t_min_clone (w : world) (t : table) : outcome (world * result) :=
  obind (rd_all (w_heap w) [t_p t; t_xi t; t_f t]) (fun vs =>
    Ok (mkWorld (w_heap w) (w_codes w) (w_tables w ++ [Some (mkTable (t_p t) (t_xi t) (t_f t) vs)]),
        RTable (length (w_tables w)))).

(** One call (CODEDistributionFunction.cpp 32-404,
    NumericMomentumSpaceDistributionFunction.cpp 26-142). *)
Definition step (xi : A) (g : A -> A) (w : world) (c : op) : outcome (world * result) :=
  match c with
  | New => Ok (mkWorld (w_heap w) (w_codes w ++ [Some new_code]) (w_tables w), RCode (length (w_codes w)))
  | Load i p f known => obind (get_code w i) (fun _ => Ok (load w i p f known))
  | MinClone i => obind (get_code w i) (min_clone w)
  | Destroy i => obind (get_code w i) (destroy w i)
  | Delete i => obind (get_code w i) (delete w i)
  | Eval i => obind (get_code w i) (eval w)
  | ToMomentumSpace i => obind (get_code w i) (to_momentum_space xi g w)
  | TEval j => obind (get_table w j) (fun t => Ok (w, RValue (t_spline t)))
  | TMinClone j => obind (get_table w j) (t_min_clone w)
  | TDelete j => obind (get_table w j) (fun _ => Ok (mkWorld (w_heap w) (w_codes w) (set (w_tables w) j None), RNothing))
  end.

(** A program and what its calls give; exceptions are caught by the caller
    (CODEDistributionFunction.cpp 301-302, 331-332). *)
Fixpoint run (xi : A) (g : A -> A) (w : world) (cs : list op) : outcome (world * list result) :=
  match cs with
  | [] => Ok (w, [])
  | c :: r => obind (step xi g w c) (fun x => obind (run xi g (fst x) r) (fun y => Ok (fst y, snd x :: snd y)))
  end.

End Life.
Arguments mkTable {A}. Arguments t_p {A}. Arguments t_xi {A}. Arguments t_f {A}. Arguments t_spline {A}.
Arguments mkWorld {A}. Arguments w_heap {A}. Arguments w_codes {A}. Arguments w_tables {A}.
Arguments New {A}. Arguments Load {A}. Arguments MinClone {A}. Arguments Destroy {A}. Arguments Delete {A}.
Arguments Eval {A}. Arguments ToMomentumSpace {A}. Arguments TEval {A}. Arguments TMinClone {A}. Arguments TDelete {A}.
Arguments RNothing {A}. Arguments RCode {A}. Arguments RTable {A}. Arguments RValue {A}. Arguments RThrow {A}.
Arguments get_code {A}. Arguments get_table {A}. Arguments rd_ptr {A}. Arguments fre_ptr {A}.
Arguments load {A}. Arguments min_clone {A}. Arguments destroy {A}. Arguments delete {A}. Arguments eval {A}.
Arguments to_momentum_space {A}. Arguments t_min_clone {A}. Arguments step {A}. Arguments run {A}.
