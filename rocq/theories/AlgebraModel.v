(** Model of the fixed-size vectors and matrices of include/softlib/General/Vector.tcc and
    Matrix.tcc, for T = slibreal_t taken to be the real numbers (no rounding).

    The storage of an object is a function [nat -> R]: cell [i] is [elems[i]].  Cells at
    and beyond the size are the memory that follows the object, so that a write outside the
    object shows.  References ([const T&], [const Vector&]) are modelled as such: they may
    designate the object that is being modified. *)
From Coq Require Import Reals PeanoNat.
Local Open Scope R_scope.

Definition cells : Type := nat -> R.
Definition upd (v : cells) (i : nat) (x : R) : cells := fun j => if Nat.eqb j i then x else v j.
(** [for (i = 0; i < n; i++) body] (Vector.tcc:14, 46, 63, 73, 98 and Matrix.tcc:14, 33, 153). *)
Fixpoint loop {S : Type} (n : nat) (body : nat -> S -> S) (s : S) : S :=
  match n with O => s | Datatypes.S k => body k (loop k body s) end.

(** A [const T&] argument: a value elsewhere, or element [k] of the vector being modified
    (Vector.tcc:72, 104, 126, 139, 152). *)
Inductive sref : Type := SVal (x : R) | SElem (k : nat).
(** Vector.tcc:72, 104, 126, 139, 152. *)
Definition sread (s : sref) (v : cells) : R := match s with SVal x => x | SElem k => v k end.
(** A [const Vector&] argument: another vector, or the one being modified
    (Vector.tcc:97, 119, 305). *)
Inductive vref : Type := VOther (w : cells) | VSelf.
(** Vector.tcc:97, 119, 305. *)
Definition vread (r : vref) (v : cells) : cells := match r with VOther w => w | VSelf => v end.

Section Vectors.
Variable N : nat.

(** Vector.tcc:97-102 and 119-124. *)
Definition v_add_assign (v : cells) (w : vref) : cells := loop N (fun i v => upd v i (v i + vread w v i)) v.
Definition v_sub_assign (v : cells) (w : vref) : cells := loop N (fun i v => upd v i (v i - vread w v i)) v.
(** Vector.tcc:104-109, 126-131, 139-144. *)
Definition v_add_scalar (v : cells) (s : sref) : cells := loop N (fun i v => upd v i (v i + sread s v)) v.
Definition v_sub_scalar (v : cells) (s : sref) : cells := loop N (fun i v => upd v i (v i - sread s v)) v.
Definition v_mul_scalar (v : cells) (s : sref) : cells := loop N (fun i v => upd v i (v i * sread s v)) v.
(** Vector.tcc:152-155: multiplication by the temporary 1.0/s. *)
Definition v_div_scalar (v : cells) (s : sref) : cells := v_mul_scalar v (SVal (1 / sread s v)).
(** Vector.tcc:45-50, 62-67, 72-77. *)
Definition v_assign (v w : cells) : cells := loop N (fun i v => upd v i (w i)) v.
Definition v_fill (v : cells) (s : sref) : cells := loop N (fun i v => upd v i (sread s v)) v.
(** Vector.tcc:13-16; the memory before construction is [m]. *)
Definition v_zero (m : cells) : cells := loop N (fun i v => upd v i 0) m.
(** Vector.tcc:161-167. *)
Definition v_neg (m v : cells) : cells := loop N (fun i r => upd r i (- v i)) (v_zero m).
(** Vector.tcc:175-181. *)
Definition v_dot (v w : cells) : R := loop N (fun i s => s + v i * w i) 0.
(** Vector.tcc:187-193; std::norm of a real number is its square. *)
Definition v_norm (v : cells) : R := sqrt (loop N (fun i s => s + v i * v i) 0).
(** Vector.tcc:199. *)
Definition v_normalize (v : cells) : cells := v_div_scalar v (SVal (v_norm v)).

(** Vector.tcc:230-289, the binary operators; [m] is the memory of the result before the
    copy constructor runs.  The operands are not modified: references into them are values. *)
Definition op_vadd (m a b : cells) : cells := v_add_assign (v_assign m a) (VOther b).
Definition op_vadds (m a : cells) (s : R) : cells := v_add_scalar (v_assign m a) (SVal s).
Definition op_vsub (m a b : cells) : cells := v_sub_assign (v_assign m a) (VOther b).
Definition op_vsubs (m a : cells) (s : R) : cells := v_sub_scalar (v_assign m a) (SVal s).
Definition op_ssubv (m : cells) (s : R) (a : cells) : cells := loop N (fun i v => upd v i (s - v i)) (v_assign m a).
Definition op_vmuls (m a : cells) (s : R) : cells := v_mul_scalar (v_assign m a) (SVal s).
Definition op_vdivs (m a : cells) (s : R) : cells := v_div_scalar (v_assign m a) (SVal s).
End Vectors.

(** Vector.tcc:305-315, N = 3: the three assignments; [a] and [b] may be the result [c]. *)
Definition v_cross_into (a b : vref) (c : cells) : cells :=
  let c := upd c 0 (vread a c 1%nat * vread b c 2%nat - vread a c 2%nat * vread b c 1%nat) in
  let c := upd c 1 (vread a c 2%nat * vread b c 0%nat - vread a c 0%nat * vread b c 2%nat) in
  upd c 2 (vread a c 0%nat * vread b c 1%nat - vread a c 1%nat * vread b c 0%nat).
(** Vector.tcc:296-303; [None] is the exception for N <> 3. *)
Definition v_cross (N : nat) (m a b : cells) : option cells :=
  if Nat.eqb N 3 then Some (v_cross_into (VOther a) (VOther b) (v_zero 3 m)) else None.

(** * Matrices: row-major, Matrix.tcc:78-100. *)
Definition at_ (N : nat) (A : cells) (i j : nat) : R := A (i * N + j)%nat.

Section Matrices.
Variables M N : nat.
(** Matrix.tcc:12-16. *)
Definition m_zero (m : cells) : cells := loop (M * N) (fun i A => upd A i 0) m.
(** Matrix.tcc:31-35, copy constructor. *)
Definition m_copy (m B : cells) : cells := loop (M * N) (fun i A => upd A i (B i)) m.
(** Matrix.tcc:51-56, outer product. *)
Definition m_outer (m a b : cells) : cells :=
  loop M (fun i A => loop N (fun j A => upd A (i * N + j) (a i * b j)) A) m.
(** Matrix.tcc:151-157, 164-170, 179-185, 213-219, 224-230: the scalar is passed by value. *)
Definition m_add_scalar (A : cells) (s : R) : cells := loop (M * N) (fun i A => upd A i (A i + s)) A.
Definition m_sub_assign (A : cells) (B : vref) : cells := loop (M * N) (fun i A => upd A i (A i - vread B A i)) A.
Definition m_sub_scalar (A : cells) (s : R) : cells := loop (M * N) (fun i A => upd A i (A i - s)) A.
Definition m_mul_scalar (A : cells) (s : R) : cells := loop (M * N) (fun i A => upd A i (A i * s)) A.
Definition m_neg (A : cells) : cells := loop (M * N) (fun i A => upd A i (- A i)) A.
(** Matrix.tcc:193-206, in-place product with an N-by-M matrix. *)
Definition m_mul_assign (A : cells) (B : vref) : cells :=
  loop M (fun i A => loop M (fun j A =>
    upd A (i * N + j) (loop N (fun k s => s + A (i * N + k)%nat * at_ M (vread B A) k j) 0)) A) A.
(** Matrix.tcc:249-286. *)
Definition op_madds (m A : cells) (s : R) : cells := m_add_scalar (m_copy m A) s.
Definition op_msub (m A B : cells) : cells := m_sub_assign (m_copy m A) (VOther B).
Definition op_msubs (m A : cells) (s : R) : cells := m_sub_scalar (m_copy m A) s.
Definition op_ssubm (m : cells) (s : R) (A : cells) : cells := m_sub_scalar (m_copy m A) s.
(** Matrix.tcc:311-322: both add the scalar. *)
Definition op_mmuls (m A : cells) (s : R) : cells := m_add_scalar (m_copy m A) s.
Definition op_smulm (m : cells) (s : R) (A : cells) : cells := m_add_scalar (m_copy m A) s.
(** Matrix.tcc:328-341. *)
Definition op_mulv (m A v : cells) : cells :=
  loop M (fun i r => upd r i (loop N (fun j s => s + at_ N A i j * v j) 0)) (v_zero M m).
End Matrices.

(** Matrix.tcc:291-306: an M-by-N matrix times an N-by-K matrix. *)
Definition op_mmul (M N K : nat) (m A B : cells) : cells :=
  loop M (fun i C => loop K (fun j C =>
    upd C (i * K + j) (loop N (fun k s => s + at_ N A i k * at_ K B k j) 0)) C) (m_zero M K m).
