(** Vocabulary for the statements about what evaluation methods return (C100). *)
From Coq Require Import Reals.
From Verif Require Import Base BufModel.

(** The object a call is made on. *)
Definition callee (c : op) : option nat :=
  match c with
  | NewField _ => None
  | CloneField i | SetB0 i _ | Eval i _ | EvalDerivatives i _ | EvalFluxDerivatives i _
  | EvalFlux i _ | DeleteField i => Some i
  end.

Definition is_numeric (f : field) : Prop := exists g b, f = Numeric g b.

(** A call that evaluates the field vector of object [i], a field [f], at [p]. *)
Definition evaluates (f : field) (i : nat) (p : vec) (c : op) : Prop :=
  c = Eval i p \/ (c = EvalDerivatives i p /\ is_numeric f).

(** Number of objects made by some calls, and the objects deleted by them. *)
Definition makes (c : op) : nat :=
  match c with NewField _ | CloneField _ => 1 | _ => 0 end.

Definition made (cs : list op) : nat := fold_right (fun c n => makes c + n) 0 cs.

(** Every call is on an object that has been made and not been deleted. *)
Definition on_live_objects (cs : list op) : Prop :=
  forall before c after i, cs = before ++ c :: after -> callee c = Some i ->
    i < made before /\ ~ In (DeleteField i) before.
