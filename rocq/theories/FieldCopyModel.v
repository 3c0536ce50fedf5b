(** Model of copies of numeric magnetic fields made by the compiler.  The class has a destructor
    (src/MagneticField/MagneticFieldNumeric2D.cpp 43-62) but neither a copy constructor nor an
    assignment (include/softlib/MagneticField/MagneticFieldNumeric2D.h 42-53), so `g(f)` and
    passing a field by value copy its members one by one: every pointer is shared.

    On top of FieldOwnModel.v (arrays and splines) there are the buffers for results (interpval
    and jacobian), made by the constructors and released by the destructor together.
    Simplification: only evaluations that write these buffers are modelled (the field and its
    derivatives); assignment is not. *)
From Verif Require Import Base FieldOwnModel.

Section Copy.
Variable A : Type.

(** Arrays and fields as in FieldOwnModel.v; for each pair of buffers whether it still exists;
    for each field its pair of buffers (MagneticFieldNumeric2D.cpp 66-79, 100-105). *)
Record cworld : Type := mkC
  { c_base : world A;
    c_live : list bool;
    c_buf : list nat }.

(** The calls of FieldOwnModel.v, and a copy of field [i]
    (include/softlib/MagneticField/MagneticFieldNumeric2D.h 42-53). *)
Inductive ccall : Type :=
| CCall (c : call A)
| CCopy (i : nat).

(** MagneticFieldNumeric2D.cpp 44-49: a pair of buffers goes. *)
Fixpoint kill (l : list bool) (b : nat) : list bool :=
  match l, b with
  | [], _ => []
  | _ :: r, O => false :: r
  | y :: r, S b' => y :: kill r b'
  end.

(** Use of the buffers of field [i] (MagneticFieldNumeric2D.cpp 44-49, 316-318, 377-396): undefined
    once they are released. *)
Definition buffer (c : cworld) (i : nat) : outcome nat :=
  match nth_error (c_buf c) i with
  | Some b => match nth_error (c_live c) b with Some true => Ok b | _ => UB end
  | None => UB
  end.

(** A new field has new buffers (MagneticFieldNumeric2D.cpp 100-105, 157-165). *)
Definition with_buffer (c : cworld) (r : world A * result A) : outcome (cworld * result A) :=
  Ok (mkC (fst r) (c_live c ++ [true]) (c_buf c ++ [length (c_live c)]), snd r).

(** Nothing happens to buffers (MagneticField2D.cpp 21-73). *)
Definition same_buffers (c : cworld) (r : world A * result A) : outcome (cworld * result A) :=
  Ok (mkC (fst r) (c_live c) (c_buf c), snd r).

(** One call (MagneticFieldNumeric2D.cpp 43-62, 92-165, 300-476). *)
Definition cstep (e : A) (c : cworld) (k : ccall) : outcome (cworld * result A) :=
  match k with
  | CCopy i => obind (object (c_base c) i) (fun o =>
      match nth_error (c_buf c) i with
      | Some b => Ok (mkC (mkW (w_heap (c_base c)) (w_objs (c_base c) ++ [Some o])) (c_live c) (c_buf c ++ [b]),
                      RField (length (w_objs (c_base c))))
      | None => UB
      end)
  | CCall (Delete i) => obind (buffer c i) (fun b => obind (step e (c_base c) (Delete i)) (fun r =>
      Ok (mkC (fst r) (kill (c_live c) b) (c_buf c), snd r)))
  | CCall (Evaluate i) => obind (buffer c i) (fun _ => obind (step e (c_base c) (Evaluate i)) (same_buffers c))
  | CCall (MakeField a) => obind (step e (c_base c) (MakeField a)) (with_buffer c)
  | CCall (Clone i) => obind (step e (c_base c) (Clone i)) (with_buffer c)
  | CCall d => obind (step e (c_base c) d) (same_buffers c)
  end.

(** A program, as in FieldOwnModel.v (MagneticFieldNumeric2D.cpp 43-62, 92-165, 221-223). *)
Fixpoint crun (e : A) (c : cworld) (ks : list ccall) : outcome cworld :=
  match ks with
  | [] => Ok c
  | k :: r => match cstep e c k with Ok (c', _) => crun e c' r | Throw => crun e c r | UB => UB end
  end.

(** Before there is any field: a caller's arrays only (MagneticFieldNumeric2D.cpp 92-108). *)
Definition cstart (h : list (option A)) : cworld := mkC (mkW h []) [] [].

End Copy.
Arguments mkC {A}. Arguments c_base {A}. Arguments c_live {A}. Arguments c_buf {A}.
Arguments CCall {A}. Arguments CCopy {A}. Arguments buffer {A}. Arguments with_buffer {A}. Arguments same_buffers {A}.
Arguments cstep {A}. Arguments crun {A}. Arguments cstart {A}.
