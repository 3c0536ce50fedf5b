(** Vocabulary for the statements about the life of CODE distribution functions (C102). *)
From Verif Require Import Base FieldOwnModel CodeLifeModel.

Section Spec.
Variable A : Type.

(** The objects that have the data of one Load: the object itself and clones of members, until
    they load something else, are destroyed or deleted.  [Gone]: a member was destroyed, and
    with it the data of all. *)
Inductive family : Type :=
| Members (l : list nat)
| Gone (l : list nat).

Definition members (m : family) : list nat := match m with Members l | Gone l => l end.

Definition without (i : nat) (l : list nat) : list nat := filter (fun j => negb (Nat.eqb i j)) l.

(** How a call, with its result, changes a family. *)
Definition after (m : family) (c : op A) (r : result A) : family :=
  match c, r with
  | MinClone i, RCode n => if in_dec Nat.eq_dec i (members m)
                           then match m with Members l => Members (n :: l) | Gone l => Gone l end
                           else m
  | Load i _ _ _, _ | Delete i, _ => match m with Members l => Members (without i l) | Gone l => Gone (without i l) end
  | Destroy i, _ => if in_dec Nat.eq_dec i (members m) then Gone (without i (members m)) else m
  | _, _ => m
  end.

Definition history (m : family) (cs : list (op A)) (rs : list (result A)) : family :=
  fold_left (fun m cr => after m (fst cr) (snd cr)) (combine cs rs) m.

(** Worlds as they are reached: the arrays of the objects have been allocated, and interpolation
    objects, polynomials and dimensions are there when data are. *)
Definition sound (w : world A) : Prop :=
  forall i k, nth_error (w_codes w) i = Some (Some k) ->
    (forall p, k_p k = Some p -> p < length (w_heap w)) /\ (forall f, k_f k = Some f -> f < length (w_heap w)) /\
    (k_interp k = IUnset -> k_known k = false) /\
    (k_interp k <> INone -> k_dims k = true /\ k_leg k = true /\ k_p k <> None /\ k_f k <> None) /\
    (k_interp k = INone -> k_p k = None /\ k_f k = None /\ k_leg k = false).

(** A program that begins with no objects. *)
Definition start : world A := mkWorld [] [] [].

End Spec.
Arguments after {A}. Arguments history {A}. Arguments sound {A}. Arguments start {A}.
