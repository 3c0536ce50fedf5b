(** Properties C31, C32 and C72: vectors and matrices. *)
From Verif Require Import AlgebraModel AlgebraProofs.
From Coq Require Import Reals PeanoNat Lia Lra Psatz.
Local Open Scope R_scope.

(** C31.  [m] is the memory in which the result is built; [has_cells N r g m] says that the
    [N] elements of [r] are given by [g] and that nothing beyond them is written. *)
Theorem C31_elementwise : forall N m a b s,
  has_cells N (op_vadd N m a b) (fun i => a i + b i) m /\
  has_cells N (op_vsub N m a b) (fun i => a i - b i) m /\
  has_cells N (op_vadds N m a s) (fun i => a i + s) m /\
  has_cells N (op_vsubs N m a s) (fun i => a i - s) m /\
  has_cells N (op_ssubv N m s a) (fun i => s - a i) m /\
  has_cells N (op_vmuls N m a s) (fun i => a i * s) m /\
  (s <> 0 -> has_cells N (op_vdivs N m a s) (fun i => a i / s) m) /\
  has_cells N (v_neg N m a) (fun i => - a i) m.
Proof.
  intros N m a b s.
  exact (conj (op_vadd_ok N m a b) (conj (op_vsub_ok N m a b) (conj (op_vadds_ok N m a s) (conj (op_vsubs_ok N m a s)
        (conj (op_ssubv_ok N m s a) (conj (op_vmuls_ok N m a s) (conj (op_vdivs_ok N m a s) (v_neg_ok N m a)))))))).
Qed.
Print Assumptions C31_elementwise.
(** The assigning operators, including v += v and v -= v. *)
Theorem C31_assigning : forall N v w s,
  has_cells N (v_add_assign N v (VOther w)) (fun i => v i + w i) v /\
  has_cells N (v_add_assign N v VSelf) (fun i => v i + v i) v /\
  has_cells N (v_sub_assign N v (VOther w)) (fun i => v i - w i) v /\
  has_cells N (v_sub_assign N v VSelf) (fun i => 0) v /\
  has_cells N (v_add_scalar N v (SVal s)) (fun i => v i + s) v /\
  has_cells N (v_sub_scalar N v (SVal s)) (fun i => v i - s) v /\
  has_cells N (v_mul_scalar N v (SVal s)) (fun i => v i * s) v /\
  (s <> 0 -> has_cells N (v_div_scalar N v (SVal s)) (fun i => v i / s) v) /\
  has_cells N (v_fill N v (SVal s)) (fun _ => s) v.
Proof.
  intros N v w s.
  split; [exact (v_add_assign_ok N v (VOther w))|]. split; [exact (v_add_assign_ok N v VSelf)|].
  split; [exact (v_sub_assign_ok N v (VOther w))|].
  split. { eapply has_cells_ext; [exact (v_sub_assign_ok N v VSelf)| |reflexivity]. intros i _. cbn. lra. }
  split; [exact (v_add_scalar_ok N v s)|]. split; [exact (v_sub_scalar_ok N v s)|]. split; [exact (v_mul_scalar_ok N v s)|].
  split; [exact (v_div_scalar_ok N v (SVal s))|exact (v_fill_ok N v (SVal s))].
Qed.
Print Assumptions C31_assigning.
(** Scalar product and norm. *)
Theorem C31_dot_norm : forall N v w s,
  v_dot N v w = sum N (fun i => v i * w i) /\ v_dot N v w = v_dot N w v /\
  0 <= v_norm N v /\ v_norm N v * v_norm N v = sum N (fun i => v i * v i) /\
  (v_norm N v = 0 <-> forall i, (i < N)%nat -> v i = 0) /\
  v_norm N (v_mul_scalar N v (SVal s)) = Rabs s * v_norm N v /\
  Rabs (v_dot N v w) <= v_norm N v * v_norm N w.
Proof.
  intros N v w s. split; [apply v_dot_sum|]. split; [apply v_dot_sym|]. split; [apply v_norm_nonneg|].
  split; [rewrite v_norm_sq; apply v_dot_sum|]. split; [apply v_norm_zero_iff|]. split; [apply v_norm_scale|apply cauchy_schwarz].
Qed.
Print Assumptions C31_dot_norm.
Theorem C31_triangle : forall N m v w, v_norm N (op_vadd N m v w) <= v_norm N v + v_norm N w.
Proof. exact AlgebraProofs.triangle. Qed.
Print Assumptions C31_triangle.
(** Normalising a vector that is not zero gives the unit vector in its direction. *)
Theorem C31_normalize : forall N v, (exists i, (i < N)%nat /\ v i <> 0) ->
  v_norm N (v_normalize N v) = 1 /\ has_cells N (v_normalize N v) (fun i => v i / v_norm N v) v.
Proof. exact v_normalize_ok. Qed.
Print Assumptions C31_normalize.
(** Cross product: components, orthogonality, anti-symmetry, Lagrange's identity. *)
Theorem C31_cross : forall m m' a b, exists c d, v_cross 3 m a b = Some c /\ v_cross 3 m' b a = Some d /\
  c 0%nat = a 1%nat * b 2%nat - a 2%nat * b 1%nat /\
  c 1%nat = a 2%nat * b 0%nat - a 0%nat * b 2%nat /\
  c 2%nat = a 0%nat * b 1%nat - a 1%nat * b 0%nat /\
  (forall i, (3 <= i)%nat -> c i = m i) /\
  v_dot 3 a c = 0 /\ v_dot 3 b c = 0 /\
  (forall i, (i < 3)%nat -> d i = - c i) /\
  v_dot 3 c c = v_dot 3 a a * v_dot 3 b b - v_dot 3 a b * v_dot 3 a b.
Proof.
  intros m m' a b. destruct (v_cross_some m a b) as (c & Ec & C0 & C1 & C2 & C3).
  destruct (v_cross_some m' b a) as (d & Ed & D0 & D1 & D2 & _).
  exists c, d. split; [exact Ec|]. split; [exact Ed|]. split; [exact C0|]. split; [exact C1|]. split; [exact C2|]. split; [exact C3|].
  rewrite !v_dot_sum. cbn [sum]. rewrite C0, C1, C2.
  split; [ring|]. split; [ring|]. split; [|ring].
  intros i Hi. destruct i as [|[|[|i]]]; [rewrite C0, D0|rewrite C1, D1|rewrite C2, D2|lia]; ring.
Qed.
Print Assumptions C31_cross.
Theorem C31_cross_dimension : forall N m a b, N <> 3%nat -> v_cross N m a b = None.
Proof. exact v_cross_none. Qed.
Print Assumptions C31_cross_dimension.
(** The three-argument form is right into a third vector, and wrong into an operand. *)
Theorem C31_cross_into : forall a b c, let r := v_cross_into (VOther a) (VOther b) c in
  r 0%nat = a 1%nat * b 2%nat - a 2%nat * b 1%nat /\
  r 1%nat = a 2%nat * b 0%nat - a 0%nat * b 2%nat /\
  r 2%nat = a 0%nat * b 1%nat - a 1%nat * b 0%nat.
Proof. intros a b c. cbn zeta. unfold v_cross_into, upd. cbn. repeat split. Qed.
Print Assumptions C31_cross_into.
Theorem C31_cross_alias_refuted : forall c b, let x := c 1%nat * b 2%nat - c 2%nat * b 1%nat in
  v_cross_into VSelf (VOther b) c 1%nat = c 2%nat * b 0%nat - x * b 2%nat /\
  (v_cross_into VSelf (VOther b) c 1%nat = c 2%nat * b 0%nat - c 0%nat * b 2%nat <-> b 2%nat = 0 \/ x = c 0%nat).
Proof.
  intros c b x. destruct (cross_alias_left b c) as (_ & E & _). fold x in E. rewrite E. split; [reflexivity|]. split.
  - intro H. destruct (Req_dec (b 2%nat) 0) as [|N]; [now left|right]. nra.
  - intros [H| ->]; [rewrite H; ring|reflexivity].
Qed.
Print Assumptions C31_cross_alias_refuted.
Theorem C31_cross_alias_right_refuted : forall a c, let x := a 1%nat * c 2%nat - a 2%nat * c 1%nat in
  v_cross_into (VOther a) VSelf c 1%nat = a 2%nat * x - a 0%nat * c 2%nat /\
  (v_cross_into (VOther a) VSelf c 1%nat = a 2%nat * c 0%nat - a 0%nat * c 2%nat <-> a 2%nat = 0 \/ x = c 0%nat).
Proof.
  intros a c x. destruct (cross_alias_right a c) as (_ & E & _). fold x in E. rewrite E. split; [reflexivity|]. split.
  - intro H. destruct (Req_dec (a 2%nat) 0) as [|N]; [now left|right]. nra.
  - intros [H| ->]; [rewrite H; ring|reflexivity].
Qed.
Print Assumptions C31_cross_alias_right_refuted.
Example C31_example : let v := (fun i : nat => match i with O => 3 | 1%nat => 4 | _ => 7 end) in
  v_norm 2 v = 5 /\ v_dot 3 v v = 74 /\ op_vadd 2 (fun _ => 9) v v 1%nat = 8 /\ op_vadd 2 (fun _ => 9) v v 2%nat = 9 /\
  v_cross_into VSelf (VOther (fun _ => 1)) v 1%nat <> 7 * 1 - 3 * 1.
Proof.
  cbn. unfold v_norm, v_dot, op_vadd, v_add_assign, v_assign, v_cross_into, upd. cbn.
  split; [replace (0 + 3 * 3 + 4 * 4) with (5 * 5) by ring; apply sqrt_square; lra|]. repeat split; lra.
Qed.

(** C72.  The scalar is an element [k] of the vector that is modified: the elements after
    [k] are combined with its new value. *)
Theorem C72_alias : forall N v k, (k < N)%nat ->
  has_cells N (v_add_scalar N v (SElem k)) (fun i => if (i <=? k)%nat then v i + v k else v i + (v k + v k)) v /\
  has_cells N (v_sub_scalar N v (SElem k)) (fun i => if (i <=? k)%nat then v i - v k else v i) v /\
  has_cells N (v_mul_scalar N v (SElem k)) (fun i => if (i <=? k)%nat then v i * v k else v i * (v k * v k)) v.
Proof.
  intros N v k Hk. split; [exact (alias_loop Rplus N v k)|]. split; [|exact (alias_loop Rmult N v k)].
  eapply has_cells_ext; [exact (alias_loop Rminus N v k)| |reflexivity].
  intros i _. cbn beta. destruct (i <=? k)%nat; [reflexivity|]. lra.
Qed.
Print Assumptions C72_alias.
(** So v *= v[k] scales all elements by v[k] exactly when v[k] is 0 or 1 or everything after it is zero. *)
Theorem C72_scaling_refuted : forall N v k, (k < N)%nat ->
  ((forall i, (i < N)%nat -> v_mul_scalar N v (SElem k) i = v i * v k) <->
   v k = 0 \/ v k = 1 \/ forall i, (k < i < N)%nat -> v i = 0).
Proof.
  intros N v k Hk. destruct (alias_loop Rmult N v k) as [A _]. split.
  - intro H. destruct (Req_dec (v k) 0) as [|N0]; [now left|]. destruct (Req_dec (v k) 1) as [|N1]; [right; now left|].
    right. right. intros i Hi. specialize (H i ltac:(lia)). unfold v_mul_scalar in H. cbn [sread] in H. rewrite A in H by lia.
    rewrite (proj2 (Nat.leb_gt i k)) in H by lia.
    assert (E : v i * (v k * (v k - 1)) = 0) by nra. apply Rmult_integral in E. destruct E as [E|E]; [exact E|].
    apply Rmult_integral in E. destruct E; [contradiction|exfalso; apply N1; lra].
  - intros H i Hi. unfold v_mul_scalar. cbn [sread]. rewrite A by assumption. destruct (Nat.leb_spec i k) as [L|L]; [reflexivity|].
    destruct H as [H|[H|H]]; [rewrite H; ring|rewrite H; ring|rewrite (H i) by lia; ring].
Qed.
Print Assumptions C72_scaling_refuted.
(** Division by an own element, and filling with one, are right. *)
Theorem C72_division_and_fill : forall N v k, 
  (v k <> 0 -> has_cells N (v_div_scalar N v (SElem k)) (fun i => v i / v k) v) /\
  has_cells N (v_fill N v (SElem k)) (fun _ => v k) v.
Proof. intros N v k. split; [exact (v_div_scalar_ok N v (SElem k))|exact (v_fill_ok N v (SElem k))]. Qed.
Print Assumptions C72_division_and_fill.
Example C72_example : let v := (fun i : nat => match i with O => 2 | _ => 5 end) in
  v_mul_scalar 2 v (SElem 0) 1%nat = 20 /\ v_mul_scalar 2 v (SElem 1) 0%nat = 10 /\ v_sub_scalar 2 v (SElem 0) 1%nat = 5.
Proof. cbn. unfold v_mul_scalar, v_sub_scalar, upd. cbn. repeat split; lra. Qed.

(** C32.  [has_entries rows cols r g m]: [r] stores the matrix with entries [g] row by row
    and nothing beyond is written. *)
Theorem C32_products : forall M N K m A B v,
  has_entries M K (op_mmul M N K m A B) (fun i j => sum N (fun k => A (i * N + k)%nat * B (k * K + j)%nat)) m /\
  has_cells M (op_mulv M N m A v) (fun i => sum N (fun j => A (i * N + j)%nat * v j)) m.
Proof. intros. split; [apply op_mmul_ok|apply op_mulv_ok]. Qed.
Print Assumptions C32_products.
Theorem C32_associative : forall M N K L m1 m2 m3 m4 A B C v,
  (forall i j, (i < M)%nat -> (j < L)%nat ->
    op_mmul M K L m1 (op_mmul M N K m2 A B) C (i * L + j)%nat = op_mmul M N L m3 A (op_mmul N K L m4 B C) (i * L + j)%nat) /\
  (forall i, (i < M)%nat -> op_mulv M K m1 (op_mmul M N K m2 A B) v i = op_mulv M N m3 A (op_mulv N K m4 B v) i).
Proof. intros. split; [apply op_mmul_assoc|apply op_mulv_mmul]. Qed.
Print Assumptions C32_associative.
Theorem C32_outer : forall M N m a b, has_entries M N (m_outer M N m a b) (fun i j => a i * b j) m.
Proof. exact m_outer_ok. Qed.
Print Assumptions C32_outer.
Theorem C32_elementwise : forall M N m A B s,
  has_cells (M * N) (op_msub M N m A B) (fun i => A i - B i) m /\
  has_cells (M * N) (op_madds M N m A s) (fun i => A i + s) m /\
  has_cells (M * N) (op_msubs M N m A s) (fun i => A i - s) m /\
  has_cells (M * N) (m_sub_assign M N A (VOther B)) (fun i => A i - B i) A /\
  has_cells (M * N) (m_add_scalar M N A s) (fun i => A i + s) A /\
  has_cells (M * N) (m_sub_scalar M N A s) (fun i => A i - s) A /\
  has_cells (M * N) (m_mul_scalar M N A s) (fun i => A i * s) A /\
  has_cells (M * N) (m_copy M N m A) A m.
Proof.
  intros M N m A B s.
  exact (conj (op_msub_ok M N m A B) (conj (op_madds_ok M N m A s) (conj (op_msubs_ok M N m A s)
        (conj (m_sub_assign_ok M N A (VOther B)) (conj (m_add_scalar_ok M N A s) (conj (m_sub_scalar_ok M N A s)
        (conj (m_mul_scalar_ok M N A s) (m_copy_ok M N m A)))))))).
Qed.
Print Assumptions C32_elementwise.
(** matrix*scalar and scalar*matrix add; scalar-matrix has the opposite sign; the unary
    minus changes its operand. *)
Theorem C32_scalar_product_refuted : forall M N m A s,
  has_cells (M * N) (op_mmuls M N m A s) (fun i => A i + s) m /\
  has_cells (M * N) (op_smulm M N m s A) (fun i => A i + s) m.
Proof. intros M N m A s. exact (conj (op_mmuls_exact M N m A s) (op_smulm_exact M N m A s)). Qed.
Print Assumptions C32_scalar_product_refuted.
Theorem C32_scalar_minus_refuted : forall M N m A s,
  has_cells (M * N) (op_ssubm M N m s A) (fun i => - (s - A i)) m.
Proof.
  intros M N m A s. eapply has_cells_ext; [apply op_ssubm_exact| |reflexivity]. intros i _. cbn beta. lra.
Qed.
Print Assumptions C32_scalar_minus_refuted.
Theorem C32_unary_minus_mutates : forall M N A, has_cells (M * N) (m_neg M N A) (fun i => - A i) A.
Proof. exact m_neg_ok. Qed.
Print Assumptions C32_unary_minus_mutates.
(** In-place product of square matrices: the first column is right, the others use
    entries that were already replaced. *)
Theorem C32_inplace_first_column : forall N A B i, (i < N)%nat ->
  m_mul_assign N N A (VOther B) (i * N)%nat = sum N (fun k => A (i * N + k)%nat * B (k * N)%nat).
Proof.
  intros N A B i Hi. pose proof (m_mul_assign_first_column N A B i Hi) as H. rewrite Nat.add_0_r in H. rewrite H.
  apply sum_ext. intros k _. now rewrite Nat.add_0_r.
Qed.
Print Assumptions C32_inplace_first_column.
Theorem C32_inplace_exact : forall N A B,
  has_entries N N (m_mul_assign N N A (VOther B)) (fun i j => inplace_row N N (fun k => A (i * N + k)%nat) B N j) A.
Proof. exact m_mul_assign_exact. Qed.
Print Assumptions C32_inplace_exact.
Theorem C32_inplace_refuted : exists A B i j, (i < 2)%nat /\ (j < 2)%nat /\
  m_mul_assign 2 2 A (VOther B) (i * 2 + j)%nat <> sum 2 (fun k => A (i * 2 + k)%nat * B (k * 2 + j)%nat).
Proof. exact m_mul_assign_wrong. Qed.
Print Assumptions C32_inplace_refuted.
(** With more rows than columns it writes outside the matrix; otherwise it does not. *)
Theorem C32_inplace_bounds : (forall M N A B k, (M <= N)%nat -> (M * N <= k)%nat -> m_mul_assign M N A (VOther B) k = A k) /\
  (exists M N A B k, (M * N <= k)%nat /\ m_mul_assign M N A (VOther B) k <> A k).
Proof. exact (conj (fun M N A B k H => m_mul_assign_inside M N A B H k) m_mul_assign_overrun). Qed.
Print Assumptions C32_inplace_bounds.
Example C32_example : let A := (fun i : nat => INR (i + 1)) in
  op_mmul 2 2 2 (fun _ => 0) A A 3%nat = 22 /\ op_mulv 2 2 (fun _ => 0) A A 1%nat = 11 /\ op_mmuls 2 2 (fun _ => 0) A 10 3%nat = 14.
Proof.
  cbn zeta. unfold op_mmul, op_mulv, op_mmuls, m_add_scalar, m_copy, upd, at_. cbn. repeat split; lra.
Qed.
