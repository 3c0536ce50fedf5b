(** Model of who owns the arrays numeric magnetic fields are made from.
    src/MagneticField/MagneticFieldNumeric2D.cpp.

    Arrays are blocks of memory with some contents of type [A]; an address is never used again
    after the block has been released.  Sizes, the formulae (NumericModel.v, DomainModel.v) and
    exceptions about an axis outside the domain (C45) are not part of this model. *)
From Verif Require Import Base.

Section Own.
Variable A : Type.

(** Blocks made with new[] (MagneticFieldNumeric2D.cpp 121-129); None once released. *)
Definition heap := list (option A).

(** Reading an array: undefined unless the block is there (MagneticFieldNumeric2D.cpp
    131-155). *)
Definition rd (h : heap) (p : nat) : outcome A :=
  match nth_error h p with Some (Some v) => Ok v | _ => UB end.

(** MagneticFieldNumeric2D.cpp 51-61 (delete []) and writes of a caller: a block is replaced. *)
Fixpoint upd (h : heap) (p : nat) (x : option A) : heap :=
  match h, p with
  | [], _ => []
  | _ :: r, O => x :: r
  | y :: r, S p' => y :: upd r p' x
  end.

(** delete [] of one array (MagneticFieldNumeric2D.cpp 51-61): undefined if it is not there. *)
Definition fre (h : heap) (p : nat) : outcome heap := obind (rd h p) (fun _ => Ok (upd h p None)).

(** MagneticFieldNumeric2D.cpp 51-61: several arrays, in order. *)
Fixpoint fre_all (h : heap) (ps : list nat) : outcome heap :=
  match ps with [] => Ok h | p :: r => obind (fre h p) (fun h' => fre_all h' r) end.

(** MagneticFieldNumeric2D.cpp 131-155: several arrays are read. *)
Fixpoint rd_all (h : heap) (ps : list nat) : outcome (list A) :=
  match ps with
  | [] => Ok []
  | p :: r => obind (rd h p) (fun v => obind (rd_all h r) (fun vs => Ok (v :: vs)))
  end.

(** A contour (separatrix or wall): two null pointers, two arrays of length zero (as made by
    Clone, MagneticFieldNumeric2D.cpp 126-129), or two arrays with points.  Null pointers with a
    positive number of points are not modelled. *)
Inductive contour : Type :=
| CNull
| CEmpty (r z : nat)
| CPoints (r z : nat).

(** The pointers a field keeps (MagneticFieldNumeric2D.cpp 227-242): the arrays R, Z, Br, Bphi,
    Bz in this order, Psi or null, separatrix and wall. *)
Record arrays : Type := mkArrays
  { a_grid : list nat;
    a_psi : option nat;
    a_sep : contour;
    a_wall : contour }.

(** A field object: those pointers, and the copy of the tables in its splines
    (gsl_spline2d_init copies its arguments; MagneticFieldNumeric2D.cpp 275-282, 284-287). *)
Record nfield : Type := mkNF
  { n_arr : arrays;
    n_spline : list A }.

(** MagneticFieldNumeric2D.cpp 275-282: tables copied into splines, with Psi if there is one. *)
Definition tables (a : arrays) : list nat :=
  a_grid a ++ match a_psi a with Some p => [p] | None => [] end.

(** MagneticFieldNumeric2D.cpp 58-61: arrays of a contour that the destructor releases, and that
    Clone copies (141-148): those of a positive number of points. *)
Definition cont_arrays (c : contour) : list nat :=
  match c with CPoints r z => [r; z] | _ => [] end.

(** The destructor's order: R, Z, Br, Bphi, Bz, wall, separatrix; not Psi
    (MagneticFieldNumeric2D.cpp 51-61). *)
Definition owned (a : arrays) : list nat := a_grid a ++ cont_arrays (a_wall a) ++ cont_arrays (a_sep a).

(** Is a contour given (MagneticFieldNumeric2D.cpp 221-222, 246)? *)
Definition given (c : contour) : bool := match c with CNull => false | _ => true end.

(** Arrays the constructor reads: the contour used for the largest radius
    (MagneticFieldNumeric2D.cpp 176-181, 246-249), and the tables (275-287). *)
Definition radius_arrays (a : arrays) : list nat :=
  match a_sep a with CPoints r z => [r; z] | _ => cont_arrays (a_wall a) end.

(** MagneticFieldNumeric2D.cpp 92-108, 213-256.  Without any points the search for the largest
    radius reads outside the arrays (MagneticField2D.cpp 210-233). *)
Definition make (h : heap) (a : arrays) : outcome nfield :=
  if negb (given (a_sep a)) && negb (given (a_wall a)) then Throw
  else obind (match radius_arrays a with [] => UB | ps => rd_all h ps end) (fun _ =>
       obind (rd_all h (tables a)) (fun vs => Ok (mkNF a vs))).

(** The arrays the domain consists of (MagneticFieldNumeric2D.cpp 246-249): the wall if there is
    one, even of length zero, else the separatrix. *)
Definition domain_of (a : arrays) : contour := if given (a_wall a) then a_wall a else a_sep a.

(** Asking about the domain (MagneticField2D.cpp 21-73) reads its arrays as they are now; a
    domain without points is read outside its arrays (C80). *)
Definition ask_domain (h : heap) (o : nfield) : outcome (list A) :=
  match domain_of (n_arr o) with CPoints r z => rd_all h [r; z] | _ => UB end.

(** MagneticFieldNumeric2D.cpp 126-129, 141-148: copies of a contour, at addresses from [n] on. *)
Definition clone_contour (c : contour) (n : nat) : contour :=
  match c with CPoints _ _ => CPoints n (S n) | _ => CEmpty n (S n) end.

(** Contents of the copies of a contour; [e] stands for the contents of an array of length
    zero (MagneticFieldNumeric2D.cpp 126-129). *)
Definition clone_contents (h : heap) (e : A) (c : contour) : outcome (list A) :=
  match c with CPoints r z => rd_all h [r; z] | _ => Ok [e; e] end.

(** MagneticFieldNumeric2D.cpp 115-165: all arrays are copied to new ones, in the order grid,
    separatrix, wall, Psi. *)
Definition clone (h : heap) (e : A) (o : nfield) : outcome (heap * nfield) :=
  let a := n_arr o in
  let n := length h in
  obind (rd_all h (a_grid a)) (fun g =>
  obind (clone_contents h e (a_sep a)) (fun s =>
  obind (clone_contents h e (a_wall a)) (fun l =>
  obind (rd_all h (match a_psi a with Some p => [p] | None => [] end)) (fun q =>
    let h' := h ++ map Some (g ++ s ++ l ++ q) in
    let a' := mkArrays (seq n (length g))
                (match a_psi a with Some _ => Some (n + length g + 4) | None => None end)
                (clone_contour (a_sep a) (n + length g)) (clone_contour (a_wall a) (n + length g + 2)) in
    obind (make h' a') (fun o' => Ok (h', o')))))).

(** The caller's memory and field objects (None once deleted,
    MagneticFieldNumeric2D.cpp 43-62). *)
Record world : Type := mkW { w_heap : heap; w_objs : list (option nfield) }.

(** What a caller does: make an array, release it, change its contents; make a field from
    arrays (MagneticFieldNumeric2D.cpp 92-108), clone (115-165), evaluate (300-476), ask about the
    domain (MagneticField2D.cpp 21-73) and delete a field (43-62). *)
Inductive call : Type :=
| NewArray (v : A)
| FreeArray (p : nat)
| WriteArray (p : nat) (v : A)
| MakeField (a : arrays)
| Clone (i : nat)
| Evaluate (i : nat)
| AskDomain (i : nat)
| Delete (i : nat).

(** What a call returns (MagneticFieldNumeric2D.cpp 63-475): an address, the number of a field,
    or the numbers it is computed from. *)
Inductive result : Type :=
| RNothing
| RArray (p : nat)
| RField (i : nat)
| RValues (vs : list A).

(** MagneticFieldNumeric2D.cpp 43-62: use of an object. *)
Definition object (w : world) (i : nat) : outcome nfield :=
  match nth_error (w_objs w) i with Some (Some o) => Ok o | _ => UB end.

(** MagneticFieldNumeric2D.cpp 43-62: an object goes. *)
Fixpoint drop (l : list (option nfield)) (i : nat) : list (option nfield) :=
  match l, i with
  | [], _ => []
  | _ :: r, O => None :: r
  | y :: r, S i' => y :: drop r i'
  end.

(** One call (MagneticFieldNumeric2D.cpp 43-62, 92-165, 300-476).  Evaluation uses the splines
    only.  [e]: see [clone_contents]. *)
Definition step (e : A) (w : world) (c : call) : outcome (world * result) :=
  match c with
  | NewArray v => Ok (mkW (w_heap w ++ [Some v]) (w_objs w), RArray (length (w_heap w)))
  | FreeArray p => obind (fre (w_heap w) p) (fun h => Ok (mkW h (w_objs w), RNothing))
  | WriteArray p v => obind (rd (w_heap w) p) (fun _ => Ok (mkW (upd (w_heap w) p (Some v)) (w_objs w), RNothing))
  | MakeField a => obind (make (w_heap w) a) (fun o =>
      Ok (mkW (w_heap w) (w_objs w ++ [Some o]), RField (length (w_objs w))))
  | Clone i => obind (object w i) (fun o => obind (clone (w_heap w) e o) (fun r =>
      Ok (mkW (fst r) (w_objs w ++ [Some (snd r)]), RField (length (w_objs w)))))
  | Evaluate i => obind (object w i) (fun o => Ok (w, RValues (n_spline o)))
  | AskDomain i => obind (object w i) (fun o => obind (ask_domain (w_heap w) o) (fun vs => Ok (w, RValues vs)))
  | Delete i => obind (object w i) (fun o => obind (fre_all (w_heap w) (owned (n_arr o))) (fun h =>
      Ok (mkW h (drop (w_objs w) i), RNothing)))
  end.

(** A program (MagneticFieldNumeric2D.cpp 43-62, 92-165); a call that throws (a field without
    contour, 221-223) has changed nothing and the program goes on. *)
Fixpoint run (e : A) (w : world) (cs : list call) : outcome world :=
  match cs with
  | [] => Ok w
  | c :: r => match step e w c with Ok (w', _) => run e w' r | Throw => run e w r | UB => UB end
  end.

End Own.
Arguments CNull.
Arguments rd {A}. Arguments upd {A}. Arguments fre {A}. Arguments fre_all {A}. Arguments rd_all {A}.
Arguments mkNF {A}. Arguments n_arr {A}. Arguments n_spline {A}. Arguments make {A}.
Arguments ask_domain {A}. Arguments clone_contents {A}. Arguments clone {A}.
Arguments mkW {A}. Arguments w_heap {A}. Arguments w_objs {A}.
Arguments NewArray {A}. Arguments FreeArray {A}. Arguments WriteArray {A}. Arguments MakeField {A}.
Arguments Clone {A}. Arguments Evaluate {A}. Arguments AskDomain {A}. Arguments Delete {A}.
Arguments RNothing {A}. Arguments RArray {A}. Arguments RField {A}. Arguments RValues {A}.
Arguments object {A}. Arguments drop {A}. Arguments step {A}. Arguments run {A}.
