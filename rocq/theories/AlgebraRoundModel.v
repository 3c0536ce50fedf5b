(** The vector and matrix operations of AlgebraModel with a rounding after every operation.
    Sources: include/softlib/General/Vector.tcc, Matrix.tcc.

    The rounding [rnd] is a parameter; overflow is not modelled (the exponent is not bounded
    above), nor are contractions of a product and a sum into one operation.  The right-hand
    operands are other objects than the one that is modified (C72 and C31 tell what aliases do). *)
From Coq Require Import Reals PeanoNat.
From Verif Require Import AlgebraModel.
Local Open Scope R_scope.

Section Rounded.
Variable rnd : R -> R.
Variable N : nat.
(** Vector.tcc:97-102 and 119-124. *)
Definition r_add_assign (v w : cells) : cells := loop N (fun i v => upd v i (rnd (v i + w i))) v.
Definition r_sub_assign (v w : cells) : cells := loop N (fun i v => upd v i (rnd (v i - w i))) v.
(** Vector.tcc:139-144. *)
Definition r_mul_scalar (v : cells) (s : R) : cells := loop N (fun i v => upd v i (rnd (v i * s))) v.
(** Vector.tcc:152-155: multiplication by the rounded quotient 1.0/s. *)
Definition r_div_scalar (v : cells) (s : R) : cells := r_mul_scalar v (rnd (1 / s)).
(** Vector.tcc:175-181. *)
Definition r_dot (v w : cells) : R := loop N (fun i s => rnd (s + rnd (v i * w i))) 0.
(** Vector.tcc:187-193; std::norm of a real number x is x*x (plus the square of the imaginary part,
    zero, which adds no rounding); sqrt is rounded correctly (IEEE 754). *)
Definition r_norm (v : cells) : R := rnd (sqrt (loop N (fun i s => rnd (s + rnd (v i * v i))) 0)).
(** Vector.tcc:199. *)
Definition r_normalize (v : cells) : cells := r_div_scalar v (r_norm v).
End Rounded.

Section RoundedMore.
Variable rnd : R -> R.
(** Vector.tcc:305-315, N = 3. *)
Definition r_cross (a b c : cells) : cells :=
  let c := upd c 0 (rnd (rnd (a 1%nat * b 2%nat) - rnd (a 2%nat * b 1%nat))) in
  let c := upd c 1 (rnd (rnd (a 2%nat * b 0%nat) - rnd (a 0%nat * b 2%nat))) in
  upd c 2 (rnd (rnd (a 0%nat * b 1%nat) - rnd (a 1%nat * b 0%nat))).
(** Matrix.tcc:328-341. *)
Definition r_mulv (M N : nat) (m A v : cells) : cells :=
  loop M (fun i r => upd r i (loop N (fun j s => rnd (s + rnd (at_ N A i j * v j))) 0)) (v_zero M m).
(** Matrix.tcc:291-306. *)
Definition r_mmul (M N K : nat) (m A B : cells) : cells :=
  loop M (fun i C => loop K (fun j C =>
    upd C (i * K + j) (loop N (fun k s => rnd (s + rnd (at_ N A i k * at_ K B k j))) 0)) C) (m_zero M K m).
End RoundedMore.
