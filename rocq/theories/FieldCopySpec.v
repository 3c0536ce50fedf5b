(** Vocabulary for the statements about copies of numeric fields (C125). *)
From Verif Require Import Base FieldOwnModel FieldCopyModel.

Section Spec.
Variable A : Type.

(** Field [i] was made and has not been deleted. *)
Definition present (c : cworld A) (i : nat) : Prop := exists o, nth_error (w_objs (c_base c)) i = Some (Some o).

(** Field [i] was made and has been deleted. *)
Definition deleted (c : cworld A) (i : nat) : Prop := nth_error (w_objs (c_base c)) i = Some None.

(** A program starting with arrays [h] only reached [c], and on the way field [k] was made by
    copying field [i]. *)
Definition copied (e : A) (h : list (option A)) (i k : nat) (c : cworld A) : Prop :=
  exists ks1 ks2 c1 c2,
    crun e (cstart h) ks1 = Ok c1 /\
    cstep e c1 (CCopy i) = Ok (c2, RField k) /\
    crun e c2 ks2 = Ok c.

(** One was copied from the other, directly or through other copies, or both from the same. *)
Inductive related (e : A) (h : list (option A)) (c : cworld A) : nat -> nat -> Prop :=
| rel_copy : forall i k, copied e h i k c -> related e h c i k
| rel_sym : forall i k, related e h c i k -> related e h c k i
| rel_trans : forall i j k, related e h c i j -> related e h c j k -> related e h c i k.

End Spec.
Arguments related {A}. Arguments present {A}. Arguments deleted {A}. Arguments copied {A}.
