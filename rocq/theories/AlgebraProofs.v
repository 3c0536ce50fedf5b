(** Facts about the vector and matrix model. *)
From Verif Require Import AlgebraModel.
From Coq Require Import Reals PeanoNat Lia Lra Psatz.
Local Open Scope R_scope.

(** Specification vocabulary: a finite sum, and the mathematical cross product. *)
Fixpoint sum (n : nat) (f : nat -> R) : R := match n with O => 0 | S k => sum k f + f k end.

(** [r] has the elements [g] in its [n] cells and the rest of the memory is that of [m]. *)
Definition has_cells (n : nat) (r : cells) (g : nat -> R) (m : cells) : Prop :=
  (forall i, (i < n)%nat -> r i = g i) /\ (forall i, (n <= i)%nat -> r i = m i).
(** [r] is the [rows]-by-[cols] matrix with entries [g], in row-major order. *)
Definition has_entries (rows cols : nat) (r : cells) (g : nat -> nat -> R) (m : cells) : Prop :=
  (forall i j, (i < rows)%nat -> (j < cols)%nat -> r (i * cols + j)%nat = g i j) /\
  (forall i, (rows * cols <= i)%nat -> r i = m i).

Lemma loop_S {S : Type} n (f : nat -> S -> S) s : loop (Datatypes.S n) f s = f n (loop n f s).
Proof. reflexivity. Qed.
Lemma upd_same v i x : upd v i x i = x.
Proof. unfold upd. now rewrite Nat.eqb_refl. Qed.
Lemma upd_other v i x j : j <> i -> upd v i x j = v j.
Proof. intro H. unfold upd. now rewrite (proj2 (Nat.eqb_neq j i) H). Qed.

(** A loop whose body computes cell [i] from cell [i] only. *)
Lemma loop_map : forall n (g : nat -> R -> R) v,
  has_cells n (loop n (fun i v => upd v i (g i (v i))) v) (fun i => g i (v i)) v.
Proof.
  induction n as [|n IH]; intros g v; split; intros i Hi; try lia; try reflexivity.
  - rewrite loop_S. destruct (IH g v) as [IH1 IH2]. destruct (Nat.eq_dec i n) as [->|E].
    + rewrite upd_same. now rewrite IH2 by lia.
    + rewrite upd_other by assumption. apply IH1. lia.
  - rewrite loop_S. destruct (IH g v) as [IH1 IH2]. rewrite upd_other by lia. apply IH2. lia.
Qed.
(** A loop whose body may read anything that is still unmodified or known. *)
Lemma loop_ext {S : Type} : forall n (f g : nat -> S -> S) s (P : nat -> S -> Prop),
  P O s -> (forall i s, (i < n)%nat -> P i s -> f i s = g i s) ->
  (forall i s, (i < n)%nat -> P i s -> P (Datatypes.S i) (g i s)) ->
  loop n f s = loop n g s /\ P n (loop n g s).
Proof.
  induction n as [|n IH]; intros f g s P H0 Hfg Hg.
  - split; [reflexivity|exact H0].
  - rewrite !loop_S. destruct (IH f g s P H0) as [E HP].
    + intros i s' Hi. apply Hfg. lia.
    + intros i s' Hi. apply Hg. lia.
    + rewrite E. split; [apply Hfg; [lia|exact HP]|apply Hg; [lia|exact HP]].
Qed.
Lemma loop_sum : forall n f s, loop n (fun i s => s + f i) s = s + sum n f.
Proof. induction n as [|n IH]; intros f s; cbn [loop sum]; [lra|]. rewrite IH. lra. Qed.
Lemma sum_ext : forall n f g, (forall i, (i < n)%nat -> f i = g i) -> sum n f = sum n g.
Proof.
  induction n as [|n IH]; intros f g H; cbn [sum]; [reflexivity|].
  rewrite (IH f g) by (intros i Hi; apply H; lia). rewrite (H n) by lia. reflexivity.
Qed.
Lemma has_cells_ext n r g h m m' : has_cells n r g m -> (forall i, (i < n)%nat -> g i = h i) ->
  (forall i, (n <= i)%nat -> m i = m' i) -> has_cells n r h m'.
Proof.
  intros [H1 H2] E1 E2. split; intros i Hi.
  - rewrite <- E1 by assumption. now apply H1.
  - rewrite <- E2 by assumption. now apply H2.
Qed.

(** ** Vector operations *)
Lemma v_add_assign_ok N v r : has_cells N (v_add_assign N v r) (fun i => v i + vread r v i) v.
Proof.
  destruct r as [w|]; unfold v_add_assign; cbn [vread].
  - exact (loop_map N (fun i x => x + w i) v).
  - exact (loop_map N (fun i x => x + x) v).
Qed.
Lemma v_sub_assign_ok N v r : has_cells N (v_sub_assign N v r) (fun i => v i - vread r v i) v.
Proof.
  destruct r as [w|]; unfold v_sub_assign; cbn [vread].
  - exact (loop_map N (fun i x => x - w i) v).
  - exact (loop_map N (fun i x => x - x) v).
Qed.
Lemma v_add_scalar_ok N v s : has_cells N (v_add_scalar N v (SVal s)) (fun i => v i + s) v.
Proof. exact (loop_map N (fun i x => x + s) v). Qed.
Lemma v_sub_scalar_ok N v s : has_cells N (v_sub_scalar N v (SVal s)) (fun i => v i - s) v.
Proof. exact (loop_map N (fun i x => x - s) v). Qed.
Lemma v_mul_scalar_ok N v s : has_cells N (v_mul_scalar N v (SVal s)) (fun i => v i * s) v.
Proof. exact (loop_map N (fun i x => x * s) v). Qed.
Lemma v_div_scalar_ok N v r : sread r v <> 0 ->
  has_cells N (v_div_scalar N v r) (fun i => v i / sread r v) v.
Proof.
  intro H. unfold v_div_scalar. eapply has_cells_ext; [apply v_mul_scalar_ok| |reflexivity].
  intros i _. unfold Rdiv. rewrite Rmult_1_l. reflexivity.
Qed.
Lemma v_assign_ok N v w : has_cells N (v_assign N v w) w v.
Proof. exact (loop_map N (fun i x => w i) v). Qed.
Lemma v_zero_ok N m : has_cells N (v_zero N m) (fun _ => 0) m.
Proof. exact (loop_map N (fun i x => 0) m). Qed.
Lemma v_neg_ok N m v : has_cells N (v_neg N m v) (fun i => - v i) m.
Proof.
  unfold v_neg. eapply has_cells_ext; [exact (loop_map N (fun i x => - v i) (v_zero N m))|reflexivity|].
  exact (proj2 (v_zero_ok N m)).
Qed.
(** Filling from an element of the vector itself is harmless. *)
Lemma v_fill_ok N v r : has_cells N (v_fill N v r) (fun _ => sread r v) v.
Proof.
  destruct r as [x|k]; unfold v_fill; cbn [sread].
  - exact (loop_map N (fun i _ => x) v).
  - assert (H : forall n, has_cells n (loop n (fun i v => upd v i (v k)) v) (fun _ => v k) v).
    { induction n as [|n [IH1 IH2]]; split; intros i Hi; try lia; try reflexivity; rewrite loop_S.
      - destruct (Nat.eq_dec i n) as [->|E]; [rewrite upd_same|rewrite upd_other by assumption].
        + destruct (Nat.lt_ge_cases k n); [apply IH1|apply IH2]; lia.
        + apply IH1. lia.
      - rewrite upd_other by lia. apply IH2. lia. }
    apply H.
Qed.

(** *** The scalar operand is an element of the vector itself. *)
Lemma alias_loop (g : R -> R -> R) : forall N v k, 
  has_cells N (loop N (fun i v => upd v i (g (v i) (v k))) v)
    (fun i => if (i <=? k)%nat then g (v i) (v k) else g (v i) (g (v k) (v k))) v.
Proof.
  induction N as [|n IH]; intros v k; split; intros i Hi; try lia; try reflexivity; rewrite loop_S;
    destruct (IH v k) as [IH1 IH2].
  - destruct (Nat.eq_dec i n) as [->|E]; [rewrite upd_same|rewrite upd_other by assumption].
    + rewrite (IH2 n) by lia. destruct (Nat.leb_spec n k) as [L|L].
      * now rewrite (IH2 k) by lia.
      * rewrite (IH1 k) by lia. now rewrite Nat.leb_refl.
    + apply IH1. lia.
  - rewrite upd_other by lia. apply IH2. lia.
Qed.

(** *** Binary operators *)
Lemma op_vadd_ok N m a b : has_cells N (op_vadd N m a b) (fun i => a i + b i) m.
Proof.
  unfold op_vadd. eapply has_cells_ext; [apply v_add_assign_ok| |]; cbn [vread]; intros i Hi.
  - now rewrite (proj1 (v_assign_ok N m a)).
  - now apply (v_assign_ok N m a).
Qed.
Lemma op_vsub_ok N m a b : has_cells N (op_vsub N m a b) (fun i => a i - b i) m.
Proof.
  unfold op_vsub. eapply has_cells_ext; [apply v_sub_assign_ok| |]; cbn [vread]; intros i Hi.
  - now rewrite (proj1 (v_assign_ok N m a)).
  - now apply (v_assign_ok N m a).
Qed.
Lemma op_vadds_ok N m a s : has_cells N (op_vadds N m a s) (fun i => a i + s) m.
Proof.
  unfold op_vadds. eapply has_cells_ext; [apply v_add_scalar_ok| |]; intros i Hi.
  - cbn beta. now rewrite (proj1 (v_assign_ok N m a)).
  - now apply (v_assign_ok N m a).
Qed.
Lemma op_vsubs_ok N m a s : has_cells N (op_vsubs N m a s) (fun i => a i - s) m.
Proof.
  unfold op_vsubs. eapply has_cells_ext; [apply v_sub_scalar_ok| |]; intros i Hi.
  - cbn beta. now rewrite (proj1 (v_assign_ok N m a)).
  - now apply (v_assign_ok N m a).
Qed.
Lemma op_ssubv_ok N m s a : has_cells N (op_ssubv N m s a) (fun i => s - a i) m.
Proof.
  unfold op_ssubv. eapply has_cells_ext; [exact (loop_map N (fun i x => s - x) _)| |]; intros i Hi.
  - cbn beta. now rewrite (proj1 (v_assign_ok N m a)).
  - now apply (v_assign_ok N m a).
Qed.
Lemma op_vmuls_ok N m a s : has_cells N (op_vmuls N m a s) (fun i => a i * s) m.
Proof.
  unfold op_vmuls. eapply has_cells_ext; [apply v_mul_scalar_ok| |]; intros i Hi.
  - cbn beta. now rewrite (proj1 (v_assign_ok N m a)).
  - now apply (v_assign_ok N m a).
Qed.
Lemma op_vdivs_ok N m a s : s <> 0 -> has_cells N (op_vdivs N m a s) (fun i => a i / s) m.
Proof.
  intro Hs. unfold op_vdivs. eapply has_cells_ext; [apply v_div_scalar_ok; exact Hs| |]; intros i Hi; cbn [sread].
  - now rewrite (proj1 (v_assign_ok N m a)).
  - now apply (v_assign_ok N m a).
Qed.

(** *** Scalar product and norm *)
Lemma v_dot_sum N v w : v_dot N v w = sum N (fun i => v i * w i).
Proof. unfold v_dot. rewrite (loop_sum N (fun i => v i * w i)). lra. Qed.
Lemma v_norm_sum N v : v_norm N v = sqrt (sum N (fun i => v i * v i)).
Proof. unfold v_norm. rewrite (loop_sum N (fun i => v i * v i)). f_equal. lra. Qed.
Lemma sum_sq_nonneg N v : 0 <= sum N (fun i => v i * v i).
Proof. induction N as [|n IH]; cbn [sum]; [lra|]. nra. Qed.
Lemma v_norm_sq N v : v_norm N v * v_norm N v = v_dot N v v.
Proof. rewrite v_norm_sum, v_dot_sum. apply sqrt_sqrt, sum_sq_nonneg. Qed.
Lemma v_norm_nonneg N v : 0 <= v_norm N v.
Proof. rewrite v_norm_sum. apply sqrt_pos. Qed.
Lemma sum_scale N f c : sum N (fun i => c * f i) = c * sum N f.
Proof. induction N as [|n IH]; cbn [sum]; [lra|]. rewrite IH. lra. Qed.
Lemma sum_plus N f g : sum N (fun i => f i + g i) = sum N f + sum N g.
Proof. induction N as [|n IH]; cbn [sum]; [lra|]. rewrite IH. lra. Qed.
Lemma sum_zero_iff N v : sum N (fun i => v i * v i) = 0 <-> forall i, (i < N)%nat -> v i = 0.
Proof.
  induction N as [|n IH]; cbn [sum].
  - split; intros; [lia|reflexivity].
  - pose proof (sum_sq_nonneg n v) as P. split; intro H.
    + assert (E : sum n (fun i => v i * v i) = 0) by nra.
      assert (E2 : v n * v n = 0) by lra.
      intros i Hi. destruct (Nat.eq_dec i n) as [->|D].
      * now apply Rsqr_0_uniq.
      * apply (proj1 IH E). lia.
    + rewrite (proj2 IH) by (intros i Hi; apply H; lia). rewrite (H n) by lia. lra.
Qed.
Lemma v_norm_zero_iff N v : v_norm N v = 0 <-> forall i, (i < N)%nat -> v i = 0.
Proof.
  rewrite <- sum_zero_iff, v_norm_sum. split; intro H.
  - apply sqrt_eq_0; [apply sum_sq_nonneg|exact H].
  - rewrite H. apply sqrt_0.
Qed.
Lemma v_norm_scale N v s : v_norm N (v_mul_scalar N v (SVal s)) = Rabs s * v_norm N v.
Proof.
  rewrite !v_norm_sum.
  rewrite (sum_ext N _ (fun i => (s * s) * (v i * v i))).
  2:{ intros i Hi. rewrite (proj1 (v_mul_scalar_ok N v s)) by assumption. ring. }
  rewrite sum_scale. rewrite sqrt_mult; [|nra|apply sum_sq_nonneg].
  f_equal. change (s * s) with (Rsqr s). apply sqrt_Rsqr_abs.
Qed.
Lemma v_normalize_ok N v : (exists i, (i < N)%nat /\ v i <> 0) ->
  v_norm N (v_normalize N v) = 1 /\
  has_cells N (v_normalize N v) (fun i => v i / v_norm N v) v.
Proof.
  intros [k [Hk Nk]].
  assert (Z : v_norm N v <> 0). { intro E. apply Nk. apply (proj1 (v_norm_zero_iff N v) E k Hk). }
  pose proof (v_norm_nonneg N v) as P.
  split.
  - unfold v_normalize, v_div_scalar. cbn [sread]. rewrite v_norm_scale.
    rewrite Rabs_right. 2:{ apply Rle_ge. unfold Rdiv. rewrite Rmult_1_l. apply Rlt_le, Rinv_0_lt_compat. lra. }
    field. exact Z.
  - apply v_div_scalar_ok. exact Z.
Qed.
(** Cauchy-Schwarz. *)
Lemma cauchy_schwarz N v w : Rabs (v_dot N v w) <= v_norm N v * v_norm N w.
Proof.
  assert (CS : v_dot N v w * v_dot N v w <= v_dot N v v * v_dot N w w).
  { rewrite !v_dot_sum. pose proof (sum_sq_nonneg N v) as Pv. pose proof (sum_sq_nonneg N w) as Pw.
    set (a := sum N (fun i => v i * v i)) in *. set (b := sum N (fun i => v i * w i)).
    set (c := sum N (fun i => w i * w i)) in *.
    assert (Q : forall t, 0 <= a + 2 * t * b + t * t * c).
    { intro t. pose proof (sum_sq_nonneg N (fun i => v i + t * w i)) as P.
      cbn beta in P.
      assert (E : sum N (fun i => (v i + t * w i) * (v i + t * w i)) = a + 2 * t * b + t * t * c).
      { rewrite (sum_ext N _ (fun i => v i * v i + ((2 * t) * (v i * w i) + (t * t) * (w i * w i)))) by (intros; ring).
        rewrite (sum_plus N (fun i => v i * v i)), (sum_plus N (fun i => (2*t) * (v i * w i))), !sum_scale.
        unfold a, b, c. ring. }
      rewrite E in P. exact P. }
    destruct (Req_dec c 0) as [C0|C0].
    - (* c = 0 *)
      assert (b = 0) as ->.
      { destruct (Req_dec b 0) as [|B]; [assumption|exfalso].
        specialize (Q (- (a + 1) / (2 * b))). rewrite C0 in Q.
        assert (E : a + 2 * (- (a + 1) / (2 * b)) * b = -1) by (field; assumption). lra. }
      nra.
    - assert (Cp : 0 < c) by lra. specialize (Q (- b / c)).
      assert (E : a + 2 * (- b / c) * b + - b / c * (- b / c) * c = a - b * b / c) by (field; lra).
      rewrite E in Q. assert (b * b / c <= a) by lra.
      apply (Rmult_le_compat_r c) in H; [|lra]. unfold Rdiv in H. rewrite Rmult_assoc, Rinv_l in H by lra. lra. }
  rewrite <- !v_norm_sq in CS. pose proof (v_norm_nonneg N v). pose proof (v_norm_nonneg N w).
  apply Rsqr_incr_0_var; [|apply Rmult_le_pos; assumption].
  rewrite <- Rsqr_abs. unfold Rsqr. nra.
Qed.
Lemma v_dot_sym N v w : v_dot N v w = v_dot N w v.
Proof. rewrite !v_dot_sum. apply sum_ext. intros; ring. Qed.
Lemma triangle N m v w : v_norm N (op_vadd N m v w) <= v_norm N v + v_norm N w.
Proof.
  pose proof (v_norm_nonneg N v) as P1. pose proof (v_norm_nonneg N w) as P2.
  apply Rsqr_incr_0_var; [|lra]. unfold Rsqr. rewrite v_norm_sq, v_dot_sum.
  rewrite (sum_ext N _ (fun i => v i * v i + (2 * (v i * w i) + w i * w i))).
  2:{ intros i Hi. rewrite (proj1 (op_vadd_ok N m v w)) by assumption. ring. }
  rewrite (sum_plus N (fun i => v i * v i)), (sum_plus N (fun i => 2 * (v i * w i))), sum_scale, <- !v_dot_sum.
  pose proof (cauchy_schwarz N v w) as CS. pose proof (Rle_abs (v_dot N v w)) as A.
  rewrite <- (v_norm_sq N v), <- (v_norm_sq N w). nra.
Qed.

(** *** Cross product *)
Lemma v_cross_some m a b : exists c, v_cross 3 m a b = Some c /\
  c 0%nat = a 1%nat * b 2%nat - a 2%nat * b 1%nat /\
  c 1%nat = a 2%nat * b 0%nat - a 0%nat * b 2%nat /\
  c 2%nat = a 0%nat * b 1%nat - a 1%nat * b 0%nat /\
  (forall i, (3 <= i)%nat -> c i = m i).
Proof.
  eexists. split; [reflexivity|]. unfold v_cross_into, upd. cbn.
  repeat split. intros i Hi. do 3 (destruct i as [|i]; [lia|]). reflexivity.
Qed.
Lemma v_cross_none N m a b : N <> 3%nat -> v_cross N m a b = None.
Proof. intro H. unfold v_cross. now rewrite (proj2 (Nat.eqb_neq _ _) H). Qed.
(** In-place variant: exact results with aliasing. *)
Lemma cross_alias_left b c : let r := v_cross_into VSelf (VOther b) c in
  let x := c 1%nat * b 2%nat - c 2%nat * b 1%nat in
  let y := c 2%nat * b 0%nat - x * b 2%nat in
  r 0%nat = x /\ r 1%nat = y /\ r 2%nat = x * b 1%nat - y * b 0%nat.
Proof. cbn. unfold v_cross_into, upd. cbn. repeat split. Qed.
Lemma cross_alias_right a c : let r := v_cross_into (VOther a) VSelf c in
  let x := a 1%nat * c 2%nat - a 2%nat * c 1%nat in
  let y := a 2%nat * x - a 0%nat * c 2%nat in
  r 0%nat = x /\ r 1%nat = y /\ r 2%nat = a 0%nat * y - a 1%nat * x.
Proof. cbn. unfold v_cross_into, upd. cbn. repeat split. Qed.

(** ** Matrices *)
Lemma flat_lt : forall i j M N, (i < M)%nat -> (j < N)%nat -> (i * N + j < M * N)%nat.
Proof. intros. nia. Qed.
Lemma m_zero_ok M N m : has_cells (M * N) (m_zero M N m) (fun _ => 0) m.
Proof. exact (loop_map (M * N) (fun i x => 0) m). Qed.
Lemma m_copy_ok M N m B : has_cells (M * N) (m_copy M N m B) B m.
Proof. exact (loop_map (M * N) (fun i x => B i) m). Qed.
Lemma cells_entries M N r g m : has_cells (M * N) r g m -> has_entries M N r (fun i j => g (i * N + j)%nat) m.
Proof. intros [H1 H2]. split; [|exact H2]. intros i j Hi Hj. apply H1. now apply flat_lt. Qed.
(** Nested loops that write cell (i,j) a value that does not depend on the object. *)
Lemma inner_fill (val : nat -> R) base : forall n A,
  let r := loop n (fun j A => upd A (base + j) (val j)) A in
  (forall j, (j < n)%nat -> r (base + j)%nat = val j) /\
  (forall k, (k < base \/ base + n <= k)%nat -> r k = A k).
Proof.
  induction n as [|n IH]; intros A; cbn zeta.
  - split; [intros j Hj; lia|]. reflexivity.
  - rewrite loop_S. destruct (IH A) as [I1 I2]. split.
    + intros j Hj. destruct (Nat.eq_dec j n) as [->|D]; [apply upd_same|].
      rewrite upd_other by lia. apply I1. lia.
    + intros k Hk. rewrite upd_other by lia. apply I2. lia.
Qed.
Lemma outer_fill (val : nat -> nat -> R) N : forall M A,
  has_entries M N (loop M (fun i A => loop N (fun j A => upd A (i * N + j) (val i j)) A) A) val A.
Proof.
  induction M as [|M IH]; intros A.
  - split; [intros; lia|]. reflexivity.
  - rewrite loop_S. destruct (IH A) as [I1 I2].
    destruct (inner_fill (val M) (M * N) N (loop M (fun i A => loop N (fun j A => upd A (i * N + j) (val i j)) A) A)) as [J1 J2].
    split.
    + intros i j Hi Hj. destruct (Nat.eq_dec i M) as [->|D]; [now apply J1|].
      rewrite J2 by (left; nia). apply I1; lia.
    + intros k Hk. rewrite J2 by (right; nia). apply I2. nia.
Qed.
Lemma m_outer_ok M N m a b : has_entries M N (m_outer M N m a b) (fun i j => a i * b j) m.
Proof. exact (outer_fill (fun i j => a i * b j) N M m). Qed.
Lemma op_mmul_ok M N K m A B :
  has_entries M K (op_mmul M N K m A B) (fun i j => sum N (fun k => A (i * N + k)%nat * B (k * K + j)%nat)) m.
Proof.
  unfold op_mmul. destruct (outer_fill (fun i j => loop N (fun k s => s + at_ N A i k * at_ K B k j) 0) K M (m_zero M K m)) as [H1 H2].
  split.
  - intros i j Hi Hj. rewrite H1 by assumption. rewrite (loop_sum N (fun k => at_ N A i k * at_ K B k j)).
    rewrite Rplus_0_l. reflexivity.
  - intros i Hi. rewrite H2 by assumption. now apply (m_zero_ok M K m).
Qed.
Lemma op_mulv_ok M N m A v :
  has_cells M (op_mulv M N m A v) (fun i => sum N (fun j => A (i * N + j)%nat * v j)) m.
Proof.
  unfold op_mulv. eapply has_cells_ext.
  - exact (loop_map M (fun i x => loop N (fun j s => s + at_ N A i j * v j) 0) (v_zero M m)).
  - intros i _. cbn beta. rewrite (loop_sum N (fun j => at_ N A i j * v j)). apply Rplus_0_l.
  - apply (v_zero_ok M m).
Qed.
Lemma sum_swap M N f : sum M (fun i => sum N (fun j => f i j)) = sum N (fun j => sum M (fun i => f i j)).
Proof.
  induction M as [|M IH]; cbn [sum].
  - induction N as [|N IHN]; cbn [sum]; [reflexivity|]. rewrite <- IHN. lra.
  - rewrite IH, <- sum_plus. reflexivity.
Qed.
Lemma sum_scale_r N f c : sum N (fun i => f i * c) = sum N f * c.
Proof. induction N as [|n IH]; cbn [sum]; [lra|]. rewrite IH. lra. Qed.
(** Associativity, with a matrix and with a vector on the right. *)
Lemma op_mmul_assoc M N K L m1 m2 m3 m4 A B C : forall i j, (i < M)%nat -> (j < L)%nat ->
  op_mmul M K L m1 (op_mmul M N K m2 A B) C (i * L + j)%nat = op_mmul M N L m3 A (op_mmul N K L m4 B C) (i * L + j)%nat.
Proof.
  intros i j Hi Hj.
  rewrite (proj1 (op_mmul_ok M K L m1 _ C)) by assumption. rewrite (proj1 (op_mmul_ok M N L m3 A _)) by assumption.
  rewrite (sum_ext K _ (fun k => sum N (fun n => A (i * N + n)%nat * B (n * K + k)%nat * C (k * L + j)%nat))).
  2:{ intros k Hk. rewrite (proj1 (op_mmul_ok M N K m2 A B)) by assumption. now rewrite sum_scale_r. }
  rewrite sum_swap. apply sum_ext. intros n Hn.
  rewrite (proj1 (op_mmul_ok N K L m4 B C)) by assumption. rewrite <- sum_scale.
  apply sum_ext. intros k Hk. ring.
Qed.
Lemma op_mulv_mmul M N K m1 m2 m3 m4 A B v : forall i, (i < M)%nat ->
  op_mulv M K m1 (op_mmul M N K m2 A B) v i = op_mulv M N m3 A (op_mulv N K m4 B v) i.
Proof.
  intros i Hi. rewrite (proj1 (op_mulv_ok M K m1 _ v)) by assumption. rewrite (proj1 (op_mulv_ok M N m3 A _)) by assumption.
  rewrite (sum_ext K _ (fun k => sum N (fun n => A (i * N + n)%nat * B (n * K + k)%nat * v k))).
  2:{ intros k Hk. rewrite (proj1 (op_mmul_ok M N K m2 A B)) by assumption. now rewrite sum_scale_r. }
  rewrite sum_swap. apply sum_ext. intros n Hn.
  rewrite (proj1 (op_mulv_ok N K m4 B v)) by assumption. rewrite <- sum_scale.
  apply sum_ext. intros k Hk. ring.
Qed.

Lemma m_elementwise M N (g : R -> R) m A r :
  r = loop (M * N) (fun i A => upd A i (g (A i))) (m_copy M N m A) ->
  has_cells (M * N) r (fun i => g (A i)) m.
Proof.
  intros ->. eapply has_cells_ext; [exact (loop_map (M * N) (fun i x => g x) _)| |]; intros i Hi; cbn beta.
  - now rewrite (proj1 (m_copy_ok M N m A)).
  - now apply (m_copy_ok M N m A).
Qed.
Lemma op_madds_ok M N m A s : has_cells (M * N) (op_madds M N m A s) (fun i => A i + s) m.
Proof. exact (m_elementwise M N (fun x => x + s) m A _ eq_refl). Qed.
Lemma op_msubs_ok M N m A s : has_cells (M * N) (op_msubs M N m A s) (fun i => A i - s) m.
Proof. exact (m_elementwise M N (fun x => x - s) m A _ eq_refl). Qed.
Lemma op_ssubm_exact M N m A s : has_cells (M * N) (op_ssubm M N m s A) (fun i => A i - s) m.
Proof. exact (m_elementwise M N (fun x => x - s) m A _ eq_refl). Qed.
Lemma op_mmuls_exact M N m A s : has_cells (M * N) (op_mmuls M N m A s) (fun i => A i + s) m.
Proof. exact (m_elementwise M N (fun x => x + s) m A _ eq_refl). Qed.
Lemma op_smulm_exact M N m A s : has_cells (M * N) (op_smulm M N m s A) (fun i => A i + s) m.
Proof. exact (m_elementwise M N (fun x => x + s) m A _ eq_refl). Qed.
Lemma op_msub_ok M N m A B : has_cells (M * N) (op_msub M N m A B) (fun i => A i - B i) m.
Proof.
  unfold op_msub, m_sub_assign. cbn [vread].
  eapply has_cells_ext; [exact (loop_map (M * N) (fun i x => x - B i) _)| |]; intros i Hi; cbn beta.
  - now rewrite (proj1 (m_copy_ok M N m A)).
  - now apply (m_copy_ok M N m A).
Qed.
Lemma m_sub_assign_ok M N A r : has_cells (M * N) (m_sub_assign M N A r) (fun i => A i - vread r A i) A.
Proof.
  destruct r as [w|]; unfold m_sub_assign; cbn [vread].
  - exact (loop_map (M * N) (fun i x => x - w i) A).
  - exact (loop_map (M * N) (fun i x => x - x) A).
Qed.
Lemma m_add_scalar_ok M N A s : has_cells (M * N) (m_add_scalar M N A s) (fun i => A i + s) A.
Proof. exact (loop_map (M * N) (fun i x => x + s) A). Qed.
Lemma m_sub_scalar_ok M N A s : has_cells (M * N) (m_sub_scalar M N A s) (fun i => A i - s) A.
Proof. exact (loop_map (M * N) (fun i x => x - s) A). Qed.
Lemma m_mul_scalar_ok M N A s : has_cells (M * N) (m_mul_scalar M N A s) (fun i => A i * s) A.
Proof. exact (loop_map (M * N) (fun i x => x * s) A). Qed.
Lemma m_neg_ok M N A : has_cells (M * N) (m_neg M N A) (fun i => - A i) A.
Proof. exact (loop_map (M * N) (fun i x => - x) A). Qed.

(** *** In-place product *)
(** The row recurrence that the code computes: the entries already overwritten take part
    in the sums of the later columns. *)
Fixpoint inplace_row (N M : nat) (row : nat -> R) (B : cells) (j : nat) : nat -> R :=
  match j with
  | O => row
  | S j' => let r := inplace_row N M row B j' in
            fun k => if Nat.eqb k j' then sum N (fun k => r k * B (k * M + j')%nat) else r k
  end.
Lemma m_mul_row M N B i : forall n A, 
  let r := loop n (fun j A => upd A (i * N + j) (loop N (fun k s => s + A (i * N + k)%nat * at_ M B k j) 0)) A in
  (forall k, r (i * N + k)%nat = inplace_row N M (fun k => A (i * N + k)%nat) B n k) /\
  (forall k, (k < i * N \/ i * N + n <= k)%nat -> r k = A k).
Proof.
  induction n as [|n IH]; intros A; cbn zeta.
  - split; reflexivity.
  - rewrite loop_S. destruct (IH A) as [I1 I2]. split.
    + intro k. cbn [inplace_row]. destruct (Nat.eqb_spec k n) as [->|D].
      * rewrite upd_same. rewrite (loop_sum N (fun k => _ * at_ M B k n)). rewrite Rplus_0_l.
        apply sum_ext. intros k Hk. rewrite I1. reflexivity.
      * rewrite upd_other by lia. apply I1.
    + intros k Hk. rewrite upd_other by lia. apply I2. lia.
Qed.
(** For a square matrix: row [i] is the recurrence applied to the old row. *)
Lemma m_mul_square N B : forall n A, (n <= N)%nat ->
  let r := loop n (fun i A => loop N (fun j A =>
    upd A (i * N + j) (loop N (fun k s => s + A (i * N + k)%nat * at_ N B k j) 0)) A) A in
  (forall i j, (i < n)%nat -> (j < N)%nat -> r (i * N + j)%nat = inplace_row N N (fun k => A (i * N + k)%nat) B N j) /\
  (forall k, (n * N <= k)%nat -> r k = A k).
Proof.
  induction n as [|n IH]; intros A Hn; cbn zeta.
  - split; [intros; lia|reflexivity].
  - rewrite loop_S. destruct (IH A ltac:(lia)) as [I1 I2].
    set (A1 := loop n _ A) in *.
    destruct (m_mul_row N N B n N A1) as [J1 J2]. split.
    + intros i j Hi Hj. destruct (Nat.eq_dec i n) as [->|D].
      * rewrite J1.
        assert (E : forall m k, (k < N)%nat -> inplace_row N N (fun k => A1 (n * N + k)%nat) B m k = inplace_row N N (fun k => A (n * N + k)%nat) B m k).
        { induction m as [|m IHm]; intros k Hk; cbn [inplace_row].
          - apply I2. lia.
          - destruct (Nat.eqb k m); [|now apply IHm]. apply sum_ext. intros q Hq. now rewrite IHm. }
        now apply E.
      * rewrite J2 by (left; nia). apply I1; lia.
    + intros k Hk. rewrite J2 by (right; nia). apply I2. nia.
Qed.
Lemma m_mul_assign_exact N A B :
  has_entries N N (m_mul_assign N N A (VOther B)) (fun i j => inplace_row N N (fun k => A (i * N + k)%nat) B N j) A.
Proof.
  unfold m_mul_assign. cbn [vread]. destruct (m_mul_square N B N A (le_n N)) as [H1 H2].
  split; [exact H1|exact H2].
Qed.
(** Entry (i,j) of the recurrence does not change once written. *)
Lemma inplace_row_stable N M row B : forall n j, (j < n)%nat ->
  inplace_row N M row B n j = inplace_row N M row B (S j) j.
Proof.
  induction n as [|n IH]; intros j Hj; [lia|].
  destruct (Nat.eq_dec j n) as [->|D]; [reflexivity|].
  cbn [inplace_row]. rewrite (proj2 (Nat.eqb_neq j n) D). rewrite IH by lia. reflexivity.
Qed.
Lemma m_mul_assign_first_column N A B i : (i < N)%nat ->
  m_mul_assign N N A (VOther B) (i * N + 0)%nat = sum N (fun k => A (i * N + k)%nat * B (k * N + 0)%nat).
Proof.
  intro Hi. rewrite (proj1 (m_mul_assign_exact N A B)) by lia.
  rewrite inplace_row_stable by lia. reflexivity.
Qed.
(** With more rows than columns the product writes past the end of the matrix. *)
Lemma m_mul_assign_overrun : exists M N A B k, (M * N <= k)%nat /\ m_mul_assign M N A (VOther B) k <> A k.
Proof.
  exists 2%nat, 1%nat, (fun _ => 1), (fun _ => 2), 2%nat.
  split; [cbn; lia|]. unfold m_mul_assign, upd, at_. cbn. lra.
Qed.
Lemma m_mul_assign_wrong : exists A B i j, (i < 2)%nat /\ (j < 2)%nat /\
  m_mul_assign 2 2 A (VOther B) (i * 2 + j)%nat <> sum 2 (fun k => A (i * 2 + k)%nat * B (k * 2 + j)%nat).
Proof.
  exists (fun i => 1), (fun _ => 1), 0%nat, 1%nat.
  split; [lia|]. split; [lia|]. unfold m_mul_assign, upd, at_. cbn. lra.
Qed.
(** With at most as many rows as columns it stays inside. *)
Lemma m_mul_assign_inside M N A B : (M <= N)%nat -> forall k, (M * N <= k)%nat ->
  m_mul_assign M N A (VOther B) k = A k.
Proof.
  intros Hle. unfold m_mul_assign. cbn [vread].
  assert (H : forall n k, (n <= M)%nat -> (M * N <= k)%nat ->
    loop n (fun i A => loop M (fun j A =>
      upd A (i * N + j) (loop N (fun k s => s + A (i * N + k)%nat * at_ M B k j) 0)) A) A k = A k).
  { induction n as [|n IH]; intros k Hn Hk; [reflexivity|]. rewrite loop_S.
    rewrite (proj2 (m_mul_row M N B n M _)) by (right; nia). apply IH; lia. }
  intros k Hk. now apply H.
Qed.
