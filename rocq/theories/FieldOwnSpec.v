(** Vocabulary for the statements about arrays of numeric fields (C101). *)
From Verif Require Import Base FieldOwnModel.

Section Spec.
Variable A : Type.

Definition live (w : world A) (p : nat) : Prop := exists v, nth_error (w_heap w) p = Some (Some v).

Definition released (w : world A) (p : nat) : Prop := nth_error (w_heap w) p = Some None.

Definition exists_field (w : world A) (i : nat) (o : nfield A) : Prop := nth_error (w_objs w) i = Some (Some o).

(** The arrays a field releases when it is deleted: grid, components and contours. *)
Definition owns (w : world A) (i p : nat) : Prop := exists o, exists_field w i o /\ In p (owned (n_arr o)).

(** Its array of flux values, which it does not release. *)
Definition flux_array (w : world A) (i p : nat) : Prop := exists o, exists_field w i o /\ a_psi (n_arr o) = Some p.

(** There is a separatrix or a wall with points. *)
Definition has_points (a : arrays) : Prop := exists r z, a_sep a = CPoints r z \/ a_wall a = CPoints r z.

(** Every array a field owns exists and is owned once; fields have a contour with points; flux arrays exist and are not owned by
    another field. *)
Definition well_kept (w : world A) : Prop :=
  (forall i p, owns w i p -> live w p) /\
  (forall i o, exists_field w i o -> NoDup (owned (n_arr o)) /\ has_points (n_arr o)) /\
  (forall i j p, owns w i p -> owns w j p -> i = j) /\
  (forall i p, flux_array w i p -> live w p) /\
  (forall i j p, owns w i p -> flux_array w j p -> i = j).

(** Rules for a caller: release only existing arrays that no field uses; give to a new field
    existing arrays, each once, that no field owns or has as flux array, a flux array that
    no field owns, and a contour with points (or no contour at all, which is refused); use fields that exist; ask about the domain only if it has points. *)
Definition careful (w : world A) (c : call A) : Prop :=
  match c with
  | NewArray _ => True
  | FreeArray p => live w p /\ (forall i, ~ owns w i p) /\ (forall i, ~ flux_array w i p)
  | WriteArray p _ => live w p
  | MakeField a =>
      NoDup (owned a) /\
      (forall p, In p (owned a) -> live w p /\ (forall i, ~ owns w i p) /\ (forall i, ~ flux_array w i p)) /\
      (forall p, a_psi a = Some p -> live w p /\ (forall i, ~ owns w i p)) /\
      (has_points a \/ a_sep a = CNull /\ a_wall a = CNull)
  | Clone i | Evaluate i | Delete i => exists o, exists_field w i o
  | AskDomain i => exists o r z, exists_field w i o /\ domain_of (n_arr o) = CPoints r z
  end.

(** All calls of a program follow the rules, in the world they are made in. *)
Fixpoint careful_program (e : A) (w : world A) (cs : list (call A)) : Prop :=
  match cs with
  | [] => True
  | c :: r => careful w c /\
      match step e w c with
      | Ok (w', _) => careful_program e w' r
      | _ => careful_program e w r
      end
  end.

(** A call of the caller that names the array [p]. *)
Definition names (c : call A) (p : nat) : Prop :=
  match c with
  | FreeArray q | WriteArray q _ => q = p
  | MakeField a => In p (owned a)
  | _ => False
  end.

(** All pointers of a field except those of contours without points. *)
Definition pointers (a : arrays) : list nat := owned a ++ match a_psi a with Some p => [p] | None => [] end.

End Spec.
Arguments live {A}. Arguments released {A}. Arguments exists_field {A}. Arguments owns {A}.
Arguments flux_array {A}. Arguments well_kept {A}. Arguments careful {A}. Arguments careful_program {A}.
Arguments names {A}.
