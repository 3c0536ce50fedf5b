(** Common vocabulary of the softlib model. *)
From Coq Require Export Ascii String.
From Coq Require Export ZArith Arith Lia Bool List.
Export ListNotations.
Open Scope list_scope.
Open Scope nat_scope.

(** A C++ computation that can return, throw an exception, or run into
    undefined behaviour (out-of-range access, use of freed memory, ...). *)
Inductive outcome (A : Type) : Type :=
| Ok (a : A)
| Throw
| UB.
Arguments Ok {A} a.
Arguments Throw {A}.
Arguments UB {A}.

Definition obind {A B} (x : outcome A) (f : A -> outcome B) : outcome B :=
  match x with Ok a => f a | Throw => Throw | UB => UB end.

(** Byte strings ([std::string]). *)
Definition str := list ascii.

Definition str_of (s : string) : str := list_ascii_of_string s.

Definition asc_eqb (a b : ascii) : bool := Ascii.eqb a b.

Fixpoint str_eqb (a b : str) : bool :=
  match a, b with
  | [], [] => true
  | x :: a', y :: b' => Ascii.eqb x y && str_eqb a' b'
  | _, _ => false
  end.

Lemma str_eqb_eq : forall a b, str_eqb a b = true <-> a = b.
Proof.
  induction a as [|x a IH]; destruct b as [|y b]; simpl; split; intro H;
    try reflexivity; try discriminate.
  - apply andb_true_iff in H. destruct H as [H1 H2].
    apply Ascii.eqb_eq in H1. apply IH in H2. subst. reflexivity.
  - inversion H; subst. apply andb_true_iff. split.
    + apply Ascii.eqb_refl.
    + apply IH. reflexivity.
Qed.

Lemma str_eqb_refl : forall a, str_eqb a a = true.
Proof. intro a. apply str_eqb_eq. reflexivity. Qed.

Lemma str_eqb_neq : forall a b, str_eqb a b = false <-> a <> b.
Proof.
  intros a b. destruct (str_eqb a b) eqn:E.
  - apply str_eqb_eq in E. split; intro H; [discriminate|contradiction].
  - split; intro H; [|reflexivity]. intro Hab. subst. rewrite str_eqb_refl in E. discriminate.
Qed.

Lemma str_eqb_spec : forall a b, reflect (a = b) (str_eqb a b).
Proof.
  intros a b. destruct (str_eqb a b) eqn:E; constructor.
  - apply str_eqb_eq; exact E.
  - apply str_eqb_neq; exact E.
Qed.

(** Character constants. *)
Definition cNUL : ascii := Ascii.zero.
Definition cNL  : ascii := ascii_of_nat 10.
Definition cTAB : ascii := ascii_of_nat 9.
Definition cCR  : ascii := ascii_of_nat 13.
Definition cSP  : ascii := " "%char.
Definition cQUOTE : ascii := ascii_of_nat 34.
Definition cHASH : ascii := "#"%char.
