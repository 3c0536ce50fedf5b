(** C119: vectors and matrices in double precision. *)
From Coq Require Import Reals ZArith Lra Lia Psatz PeanoNat.
From Flocq Require Import Core Relative.
From Verif Require Import AlgebraModel AlgebraProofs AlgebraRoundModel RoundSpec AlgebraRoundSpec AlgebraRoundProofs.
Local Open Scope R_scope.

(** The roundings meant: binary64, and binary64 without underflow. *)
Theorem C119_rounding : accurate b64 u64 eta64 /\ accurate x64 u64 0 /\ (forall x, 0 <= x -> 0 <= b64 x /\ 0 <= x64 x).
Proof.
  split; [exact b64_accurate|]. split; [exact x64_accurate|]. intros x H. split.
  - unfold b64. rewrite <- (round_0 radix2 (FLT_exp (-1074) 53) ZnearestE).
    apply round_le; [apply FLT_exp_valid; reflexivity | apply valid_rnd_N | exact H].
  - unfold x64. rewrite <- (round_0 radix2 (FLX_exp 53) ZnearestE).
    apply round_le; [apply FLX_exp_valid; reflexivity | apply valid_rnd_N | exact H].
Qed.
Print Assumptions C119_rounding.

(** Sums, differences and multiples round each element once; elements outside are not touched. *)
Theorem C119_elements : forall rnd u eta, accurate rnd u eta -> forall n (v w : cells) s,
  (forall i, (i < n)%nat ->
     Rabs (r_add_assign rnd n v w i - (v i + w i)) <= u * Rabs (v i + w i) + eta /\
     Rabs (r_sub_assign rnd n v w i - (v i - w i)) <= u * Rabs (v i - w i) + eta /\
     Rabs (r_mul_scalar rnd n v s i - v i * s) <= u * Rabs (v i * s) + eta) /\
  (forall i, (n <= i)%nat -> r_add_assign rnd n v w i = v i /\ r_sub_assign rnd n v w i = v i /\ r_mul_scalar rnd n v s i = v i).
Proof.
  intros rnd u eta (_ & _ & D) n v w s. split; intros i Hi; unfold r_add_assign, r_sub_assign, r_mul_scalar;
    rewrite (loop_each n (fun i x => rnd (x + w i))), (loop_each n (fun i x => rnd (x - w i))), (loop_each n (fun _ x => rnd (x * s))).
  - rewrite (proj2 (Nat.ltb_lt i n) Hi). repeat split; apply D.
  - rewrite (proj2 (Nat.ltb_ge i n) Hi). repeat split.
Qed.
Print Assumptions C119_elements.

(** Division rounds twice, and the second time relative to the element even if the quotient underflows. *)
Theorem C119_division : forall rnd u eta, accurate rnd u eta -> forall n (v : cells) s, s <> 0 ->
  (forall i, (i < n)%nat ->
     Rabs (r_div_scalar rnd n v s i - v i / s) <= growth u 2 * Rabs (v i / s) + ((1 + u) * Rabs (v i) * eta + eta)) /\
  (forall i, (n <= i)%nat -> r_div_scalar rnd n v s i = v i).
Proof.
  intros rnd u eta A n v s Ns. split; intros i Hi; unfold r_div_scalar, r_mul_scalar; rewrite (loop_each n (fun _ x => rnd (x * rnd (1 / s)))).
  - rewrite (proj2 (Nat.ltb_lt i n) Hi). apply div_near; assumption.
  - rewrite (proj2 (Nat.ltb_ge i n) Hi). reflexivity.
Qed.
Print Assumptions C119_division.

(** The scalar product. *)
Theorem C119_dot : forall rnd u eta, accurate rnd u eta -> forall n (v w : cells),
  near_sum u eta n (fun i => v i * w i) (r_dot rnd n v w).
Proof. intros rnd u eta A n v w. exact (sum_near rnd u eta A n (fun i => v i * w i)). Qed.
Print Assumptions C119_dot.

Lemma growth_le : forall u n, 0 <= u -> INR n * u < 1 -> growth u n <= INR n * u / (1 - INR n * u).
Proof.
  intros u n U. assert (P : INR n * u < 1 -> (1 - INR n * u) * (1 + u) ^ n <= 1).
  { induction n as [|n IH]; [cbn; lra|]. rewrite S_INR. intros H.
    pose proof (pos_INR n) as Pn. assert (Pu : 0 <= INR n * u) by (apply Rmult_le_pos; lra).
    assert (H0 : INR n * u < 1) by lra. specialize (IH H0). cbn [pow].
    pose proof (pow1u u n U) as P1.
    replace ((1 - (INR n + 1) * u) * ((1 + u) * (1 + u) ^ n)) with ((1 - INR n * u) * (1 + u) ^ n - (INR n * u * u + u * u) * (1 + u) ^ n) by ring.
    assert (0 <= (INR n * u * u + u * u) * (1 + u) ^ n) by (apply Rmult_le_pos; [|lra]; apply Rplus_le_le_0_compat; apply Rmult_le_pos; lra).
    lra. }
  intros H. specialize (P H). unfold growth. apply Rmult_le_reg_r with (1 - INR n * u); [lra|].
  unfold Rdiv. rewrite Rmult_assoc, Rinv_l, Rmult_1_r by lra. lra.
Qed.
Lemma u64_small : 0 < u64 <= 1 / 1000.
Proof. split; [apply bpow_gt_0|]. unfold u64. apply Rle_trans with (bpow radix2 (-10)); [apply bpow_le; lia|]. cbn. lra. Qed.
(** For vectors of a realistic length in double precision. *)
Theorem C119_dot_double : forall n (v w : cells), INR (S n) * u64 <= 1 / 2 ->
  Rabs (r_dot b64 n v w - total n (fun i => v i * w i))
    <= 2 * INR (S n) * u64 * total n (fun i => Rabs (v i * w i)) + 4 * INR n * eta64.
Proof.
  intros n v w H. pose proof (C119_dot b64 u64 eta64 b64_accurate n v w) as D. unfold near_sum in D.
  eapply Rle_trans; [exact D|]. pose proof u64_small as [U _].
  assert (G : growth u64 (S n) <= 2 * INR (S n) * u64).
  { eapply Rle_trans; [apply growth_le; lra|]. set (x := INR (S n) * u64) in *.
    assert (0 <= x) by (apply Rmult_le_pos; [apply pos_INR | lra]).
    apply Rmult_le_reg_r with (1 - x); [lra|]. unfold Rdiv. rewrite Rmult_assoc, Rinv_l by lra. unfold x in *. nra. }
  apply Rplus_le_compat.
  - apply Rmult_le_compat_r; [apply total_abs_pos | exact G].
  - unfold lost. assert (E : 0 <= eta64) by apply bpow_ge_0. apply Rmult_le_compat_r; [exact E|].
    assert (W : (1 + u64) ^ n <= 2).
    { assert (Hn : INR n * u64 <= 1 / 2) by (rewrite S_INR in H; lra).
      assert (P0 : 0 <= INR n * u64) by (apply Rmult_le_pos; [apply pos_INR | lra]).
      pose proof (growth_le u64 n ltac:(lra) ltac:(lra)) as Q. unfold growth in Q.
      assert (INR n * u64 / (1 - INR n * u64) <= 1); [|lra].
      apply Rmult_le_reg_r with (1 - INR n * u64); [lra|]. unfold Rdiv. rewrite Rmult_assoc, Rinv_l by lra. lra. }
    pose proof (pos_INR n) as Pn. pose proof (Rmult_le_compat_l (INR n) _ _ Pn W). lra.
Qed.
Print Assumptions C119_dot_double.

(** Integers are not rounded: the scalar product is exact while the products stay below 2^53. *)
Theorem C119_integers : forall n (v w : cells) a b, integers n v a -> integers n w b ->
  total n (fun i => Rabs (v i * w i)) <= 2 ^ 53 ->
  r_dot b64 n v w = total n (fun i => v i * w i).
Proof.
  intros n v w a b. unfold r_dot. induction n as [|n IH]; intros A B T; [reflexivity|].
  rewrite total_S in T. pose proof (total_abs_pos n (fun i => v i * w i)) as Pt. pose proof (Rabs_pos (v n * w n)) as Pp.
  rewrite loop_S, total_S, IH; [|intros i Hi; apply A; lia|intros i Hi; apply B; lia|lra].
  assert (TI : exists z, total n (fun i => v i * w i) = IZR z).
  { clear - A B. assert (A' : forall i, (i < n)%nat -> v i = IZR (a i)) by (intros; apply A; lia).
    assert (B' : forall i, (i < n)%nat -> w i = IZR (b i)) by (intros; apply B; lia). clear A B.
    induction n as [|n IH]; [exists 0%Z; reflexivity|]. destruct IH as [z Z]; [intros; apply A'; lia | intros; apply B'; lia|].
    exists (z + a n * b n)%Z. rewrite total_S, Z, plus_IZR, mult_IZR, A', B' by lia. reflexivity. }
  destruct TI as [z TZ].
  assert (PI : v n * w n = IZR (a n * b n)) by (rewrite mult_IZR, A, B by lia; reflexivity).
  assert (IB : forall k, Rabs (IZR k) <= 2 ^ 53 -> (Z.abs k <= 2 ^ 53)%Z).
  { intros k K. apply le_IZR. rewrite abs_IZR. eapply Rle_trans; [exact K|]. change (2 ^ 53)%Z with 9007199254740992%Z. lra. }
  rewrite PI, b64_int by (apply IB; rewrite <- PI; lra). rewrite TZ, <- plus_IZR.
  apply b64_int, IB. rewrite plus_IZR, <- TZ, <- PI.
  eapply Rle_trans; [apply Rabs_triang|]. pose proof (total_abs n (fun i => v i * w i)). lra.
Qed.
Print Assumptions C119_integers.

(** The norm. *)
Theorem C119_norm : forall rnd u eta, accurate rnd u eta -> (forall x, 0 <= x -> 0 <= rnd x) -> forall n (v : cells),
  0 <= r_norm rnd n v /\
  Rabs (r_norm rnd n v - euclid n v) <= growth u (n + 2) * euclid n v + ((1 + u) * sqrt (lost u eta n) + eta).
Proof.
  intros rnd u eta A P n v. split; [apply P, sqrt_pos|]. apply norm_near; [exact A|]. apply dot_self_pos. exact P.
Qed.
Print Assumptions C119_norm.

Lemma euclid_one : forall v : cells, euclid 1 v = Rabs (v 0%nat).
Proof. intros. unfold euclid. cbn [total]. rewrite Rplus_0_l. rewrite <- sqrt_Rsqr_abs. reflexivity. Qed.
(** But the norm of a vector that is not zero can be zero (and Normalize then divides by zero):
    the squares underflow. *)
Theorem C119_norm_zero_refuted : exists v : cells, 0 < euclid 1 v /\ b64 (v 0%nat) = v 0%nat /\ r_norm b64 1 v = 0.
Proof.
  exists (fun _ => bpow radix2 (-600)). pose proof (bpow_gt_0 radix2 (-600)) as P. split; [|split].
  - rewrite euclid_one, Rabs_pos_eq; lra.
  - unfold b64. apply round_generic; [apply valid_rnd_N|]. apply generic_format_bpow. vm_compute. intros X; discriminate X.
  - unfold r_norm. cbn [loop]. rewrite <- bpow_plus. change (-600 + -600)%Z with (-1200)%Z.
    assert (Z0 : b64 (bpow radix2 (-1200)) = 0).
    { unfold b64. apply (round_N_small_pos radix2 (FLT_exp (-1074) 53) _ (bpow radix2 (-1200)) (-1199)).
      - split; [right; reflexivity | apply bpow_lt; lia].
      - reflexivity. }
    assert (B0 : b64 0 = 0) by (unfold b64; apply round_0, valid_rnd_N).
    rewrite Z0, Rplus_0_l, B0, sqrt_0. exact B0.
Qed.
Print Assumptions C119_norm_zero_refuted.

(** Normalize, while nothing underflows: the norm of the result is one up to the rounding. *)
Theorem C119_normalize : forall rnd u, accurate rnd u 0 -> u < 1 -> (forall x, 0 <= x -> 0 <= rnd x) ->
  forall n (v : cells), growth u (n + 2) < 1 -> 0 < euclid n v ->
  (1 - growth u 2) / (1 + growth u (n + 2)) <= euclid n (r_normalize rnd n v) <= (1 + growth u 2) / (1 - growth u (n + 2)).
Proof.
  intros rnd u A U P n v G E. destruct (C119_norm rnd u 0 A P n v) as [_ NB].
  assert (Uz : 0 <= u) by apply A. pose proof (growth_pos u (n + 2) Uz) as Gp. set (g := growth u (n + 2)) in *.
  assert (L0 : lost u 0 n = 0) by (unfold lost; ring). rewrite L0, sqrt_0 in NB.
  set (e := euclid n v) in *. set (m := r_norm rnd n v) in *.
  assert (B : (1 - g) * e <= m <= (1 + g) * e) by (unfold Rabs in NB; destruct (Rcase_abs (m - e)); lra).
  assert (Pm : 0 < m) by (assert (0 < (1 - g) * e) by (apply Rmult_lt_0_compat; lra); lra).
  destruct (C119_division rnd u 0 A n v m ltac:(lra)) as [Q _]. fold m in Q.
  assert (Gn : 0 <= growth u 2) by (apply growth_pos; exact Uz).
  change (r_normalize rnd n v) with (r_div_scalar rnd n v m).
  assert (Per : forall i, (i < n)%nat -> (1 - growth u 2) / m * Rabs (v i) <= Rabs (r_div_scalar rnd n v m i) <= (1 + growth u 2) / m * Rabs (v i)).
  { intros i Hi. pose proof (Q i Hi) as Qi. set (y := r_div_scalar rnd n v m i) in *.
    assert (Vm : Rabs (v i / m) = Rabs (v i) / m) by (unfold Rdiv; rewrite Rabs_mult, (Rabs_pos_eq (/ m)); [reflexivity | left; apply Rinv_0_lt_compat; exact Pm]).
    pose proof (Rabs_triang_inv (v i / m) (v i / m - y)) as T1. replace (v i / m - (v i / m - y)) with y in T1 by ring.
    rewrite (Rabs_minus_sym (v i / m) y) in T1.
    pose proof (Rabs_triang (v i / m) (y - v i / m)) as T2. replace (v i / m + (y - v i / m)) with y in T2 by ring.
    rewrite Vm in *. unfold Rdiv in *. split; nra. }
  destruct (Rle_lt_dec 0 (1 - growth u 2)) as [L | L].
  - assert (IM : 0 < / m) by (apply Rinv_0_lt_compat; exact Pm).
    destruct (euclid_scale_bounds n v (r_div_scalar rnd n v m) ((1 - growth u 2) / m) ((1 + growth u 2) / m)) as [K1 K2]; [apply Rmult_le_pos; lra | apply Rmult_le_pos; lra | exact Per |].
    fold e in K1, K2. split.
    + eapply Rle_trans; [|exact K1]. unfold Rdiv. rewrite Rmult_assoc. apply Rmult_le_compat_l; [exact L|].
      apply Rmult_le_reg_r with m; [exact Pm|]. replace (/ m * e * m) with e by (field; lra).
      apply Rmult_le_reg_r with (1 + g); [lra|]. replace (/ (1 + g) * m * (1 + g)) with m by (field; lra). lra.
    + eapply Rle_trans; [exact K2|]. unfold Rdiv. rewrite Rmult_assoc. apply Rmult_le_compat_l; [lra|].
      apply Rmult_le_reg_r with m; [exact Pm|]. replace (/ m * e * m) with e by (field; lra).
      apply Rmult_le_reg_r with (1 - g); [lra|]. replace (/ (1 - g) * m * (1 - g)) with m by (field; lra). lra.
  - exfalso. unfold g, growth in *. replace (n + 2)%nat with (2 + n)%nat in G by lia. rewrite pow_add in G.
    pose proof (pow1u u n Uz). pose proof (pow1u u 2 Uz). nra.
Qed.
Print Assumptions C119_normalize.

(** The cross product. *)
Theorem C119_cross : forall rnd u eta, accurate rnd u eta -> forall a b c : cells,
  let near z x y := Rabs (z - (x - y)) <= growth u 2 * (Rabs x + Rabs y) + (3 + 2 * u) * eta in
  let r := r_cross rnd a b c in
  near (r 0%nat) (a 1%nat * b 2%nat) (a 2%nat * b 1%nat) /\
  near (r 1%nat) (a 2%nat * b 0%nat) (a 0%nat * b 2%nat) /\
  near (r 2%nat) (a 0%nat * b 1%nat) (a 1%nat * b 0%nat) /\
  (forall i, (3 <= i)%nat -> r i = c i).
Proof.
  intros rnd u eta A a b c near r. unfold near, r, r_cross, upd. cbn [Nat.eqb].
  split; [|split; [|split]]; try apply (cross_near rnd u eta A).
  intros i Hi. destruct i as [|[|[|i]]]; try lia. reflexivity.
Qed.
Print Assumptions C119_cross.

(** Products of matrices: each entry is a scalar product. *)
Theorem C119_matrix_vector : forall rnd u eta, accurate rnd u eta -> forall M N (m A v : cells) i, (i < M)%nat ->
  near_sum u eta N (fun j => at_ N A i j * v j) (r_mulv rnd M N m A v i).
Proof.
  intros rnd u eta H M N m A v i Hi. unfold r_mulv.
  rewrite (loop_store M (fun i => loop N (fun j s => rnd (s + rnd (at_ N A i j * v j))) 0)), (proj2 (Nat.ltb_lt i M) Hi).
  exact (sum_near rnd u eta H N (fun j => at_ N A i j * v j)).
Qed.
Print Assumptions C119_matrix_vector.

Lemma rows_loop : forall K (f : nat -> nat -> R) M C i j, (i < M)%nat -> (j < K)%nat ->
  loop M (fun i C => loop K (fun j C => upd C (i * K + j) (f i j)) C) C (i * K + j)%nat = f i j.
Proof.
  intros K f.
  assert (Row : forall i n C k, loop n (fun j C => upd C (i * K + j) (f i j)) C k
            = if ((i * K <=? k) && (k <? i * K + n))%bool%nat then f i (k - i * K)%nat else C k).
  { intros i n C k. induction n as [|n IH].
    - cbn [loop]. replace ((i * K <=? k) && (k <? i * K + 0))%bool%nat with false; [reflexivity|].
      symmetry. apply Bool.andb_false_iff. rewrite Nat.leb_gt, Nat.ltb_ge. lia.
    - rewrite loop_S. destruct (Nat.eq_dec k (i * K + n)) as [-> | NE].
      + rewrite upd_same. replace ((i * K <=? i * K + n) && (i * K + n <? i * K + S n))%bool%nat with true.
        * f_equal. lia.
        * symmetry. apply Bool.andb_true_iff. rewrite Nat.leb_le, Nat.ltb_lt. lia.
      + rewrite upd_other, IH by exact NE.
        replace (k <? i * K + S n)%nat with (k <? i * K + n)%nat; [reflexivity|].
        destruct (Nat.ltb_spec k (i * K + n)); symmetry; [apply Nat.ltb_lt | apply Nat.ltb_ge]; lia. }
  induction M as [|M IH]; intros C i j Hi Hj; [lia|]. rewrite loop_S, Row.
  destruct (Nat.eq_dec i M) as [-> | NE].
  - replace ((M * K <=? M * K + j) && (M * K + j <? M * K + K))%bool%nat with true.
    + f_equal. lia.
    + symmetry. apply Bool.andb_true_iff. rewrite Nat.leb_le, Nat.ltb_lt. lia.
  - replace ((M * K <=? i * K + j) && (i * K + j <? M * K + K))%bool%nat with false.
    + apply IH; lia.
    + symmetry. apply Bool.andb_false_iff. left. apply Nat.leb_gt. nia.
Qed.
Theorem C119_matrix_matrix : forall rnd u eta, accurate rnd u eta -> forall M N K (m A B : cells) i j, (i < M)%nat -> (j < K)%nat ->
  near_sum u eta N (fun k => at_ N A i k * at_ K B k j) (at_ K (r_mmul rnd M N K m A B) i j).
Proof.
  intros rnd u eta H M N K m A B i j Hi Hj. unfold r_mmul, at_ at 3.
  rewrite (rows_loop K (fun i j => loop N (fun k s => rnd (s + rnd (at_ N A i k * at_ K B k j))) 0) M (m_zero M K m) i j Hi Hj).
  exact (sum_near rnd u eta H N (fun k => at_ N A i k * at_ K B k j)).
Qed.
Print Assumptions C119_matrix_matrix.

(** With no rounding these are the operations of C31 and C72. *)
Theorem C119_exact : forall n (v w : cells), r_dot (fun x => x) n v w = v_dot n v w /\ r_norm (fun x => x) n v = v_norm n v.
Proof. intros. split; reflexivity. Qed.
Print Assumptions C119_exact.

(** (3, 4, 0): the scalar product with itself is 25 in double precision, and the vector can be normalized. *)
Example C119_example : let v := (fun i => match i with 0%nat => 3 | 1%nat => 4 | _ => 0 end) in
  r_dot b64 3 v v = 25 /\ 0 < euclid 3 v /\ growth u64 (3 + 2) < 1 /\ INR 4 * u64 <= 1 / 2.
Proof.
  intros v. pose proof u64_small as [U1 U2].
  assert (Gs : growth u64 5 < 1).
  { eapply Rle_lt_trans; [apply growth_le; [lra|cbn [INR]; lra]|]. cbn [INR].
    apply Rmult_lt_reg_r with (1 - (1 + 1 + 1 + 1 + 1) * u64); [lra|]. unfold Rdiv. rewrite Rmult_assoc, Rinv_l by lra. lra. }
  split; [|split; [|split; [exact Gs | cbn [INR]; lra]]].
  - rewrite (C119_integers 3 v v (fun i => match i with 0%nat => 3 | 1%nat => 4 | _ => 0 end)%Z (fun i => match i with 0%nat => 3 | 1%nat => 4 | _ => 0 end)%Z).
    + cbn [total]. unfold v. lra.
    + intros i Hi. destruct i as [|[|i]]; reflexivity.
    + intros i Hi. destruct i as [|[|i]]; reflexivity.
    + cbn [total]. unfold v. rewrite !Rabs_pos_eq by lra. lra.
  - unfold euclid. apply sqrt_lt_R0. cbn [total]. unfold v. lra.
Qed.
