(** Convergence of the Dormand-Prince steps to the solution of the differential equation. *)
From Coq Require Import ZArith Reals Lia Lra Psatz.
From Verif Require Import Base AlgebraModel IntegratorModel IntegratorSpec IntegratorProofs StepProofs DenseProofs TableauProofs IntegratorUse ConvergeSpec.
Local Open Scope R_scope.

Lemma rsum_S : forall n g, rsum (S n) g = g 0%nat + rsum n (fun i => g (S i)).
Proof. intros n g. unfold rsum. cbn [seq map fold_right]. rewrite <- seq_shift, map_map. reflexivity. Qed.
Lemma rsum_0 : forall g, rsum 0 g = 0. Proof. reflexivity. Qed.
Lemma rsum_abs : forall n g h, (forall i, (i < n)%nat -> Rabs (g i) <= h i) -> Rabs (rsum n g) <= rsum n h.
Proof.
  induction n as [|n IH]; intros g h H; [rewrite !rsum_0, Rabs_R0; lra|]. rewrite !rsum_S.
  pose proof (Rabs_triang (g 0%nat) (rsum n (fun i => g (S i)))) as T. pose proof (H 0%nat ltac:(lia)) as H0.
  pose proof (IH (fun i => g (S i)) (fun i => h (S i)) (fun i Hi => H (S i) ltac:(lia))) as H1. cbv beta in H1. lra.
Qed.
Lemma rsum_le : forall n g h, (forall i, (i < n)%nat -> g i <= h i) -> rsum n g <= rsum n h.
Proof.
  induction n as [|n IH]; intros g h H; [rewrite !rsum_0; lra|]. rewrite !rsum_S.
  pose proof (H 0%nat ltac:(lia)) as H0. pose proof (IH (fun i => g (S i)) (fun i => h (S i)) (fun i Hi => H (S i) ltac:(lia))) as H1. cbv beta in H1. lra.
Qed.
Lemma rsum_scal : forall n g c, rsum n (fun i => g i * c) = rsum n g * c.
Proof. induction n as [|n IH]; intros g c; [rewrite !rsum_0; ring|]. rewrite !rsum_S, (IH (fun i => g (S i)) c). ring. Qed.
Lemma rsum_minus : forall n g h, rsum n g - rsum n h = rsum n (fun i => g i - h i).
Proof. induction n as [|n IH]; intros g h; [rewrite !rsum_0; ring|]. rewrite !rsum_S, <- (IH (fun i => g (S i)) (fun i => h (S i))). ring. Qed.
Lemma rsum_ext : forall n g h, (forall i, (i < n)%nat -> g i = h i) -> rsum n g = rsum n h.
Proof.
  induction n as [|n IH]; intros g h H; [reflexivity|]. rewrite !rsum_S, (H 0%nat ltac:(lia)). f_equal.
  apply IH. intros i Hi. apply H. lia.
Qed.

(** A weighted sum of terms of which those with a nonzero weight are at most [m]. *)
Lemma rsum_weighted : forall n w g m, 0 <= m -> (forall i, (i < n)%nat -> w i = 0 \/ Rabs (g i) <= m) ->
  Rabs (rsum n (fun i => w i * g i)) <= rsum n (fun i => Rabs (w i)) * m.
Proof.
  intros n w g m Hm H. rewrite <- rsum_scal. apply rsum_abs. intros i Hi. rewrite Rabs_mult.
  destruct (H i Hi) as [E|E]; [rewrite E, Rabs_R0; lra|]. apply Rmult_le_compat_l; [apply Rabs_pos|exact E].
Qed.

Ltac abs_consts := repeat match goal with |- context [Rabs ?x] => first [rewrite (Rabs_pos_eq x) by lra | rewrite (Rabs_left x) by lra] end.
Ltac coefs := unfold dp_b, dp_a, dp_c, c2, c3, c4, c5, a21, a31, a32, a41, a42, a43, a51, a52, a53, a54, a61, a62, a63, a64, a65, a71, a73, a74, a75, a76.
Lemma row_sums : forall i, (i < 7)%nat -> rsum 7 (fun j => Rabs (dp_a i j)) <= 25.
Proof.
  intros i Hi. do 7 (destruct i as [|i]; [unfold rsum; cbn [seq map fold_right]; coefs; abs_consts; lra|]). lia.
Qed.
Lemma weight_sum : rsum 7 (fun i => Rabs (dp_b i)) <= 2.
Proof. unfold rsum; cbn [seq map fold_right]; coefs; abs_consts; lra. Qed.
Lemma weight_one : rsum 7 dp_b = 1.
Proof. unfold rsum; cbn [seq map fold_right]; coefs; lra. Qed.
Lemma node_range : forall i, (i < 7)%nat -> 0 <= dp_c i <= 1.
Proof. intros i Hi. do 7 (destruct i as [|i]; [coefs; lra|]). lia. Qed.
Lemma upper_zero : forall i j, (i < 7)%nat -> (i <= j)%nat -> dp_a i j = 0.
Proof. intros i j Hi Hj. do 7 (destruct i as [|i]; [do 7 (destruct j as [|j]; [try lia; reflexivity|]); reflexivity|]). lia. Qed.

Lemma close_pos : forall N D y z, (1 <= N)%nat -> close N D y z -> 0 <= D.
Proof. intros N D y z HN H. specialize (H 0%nat ltac:(lia)). pose proof (Rabs_pos (y 0%nat - z 0%nat)). lra. Qed.
Lemma close_weaken : forall N D D' y z, close N D y z -> D <= D' -> close N D' y z.
Proof. intros N D D' y z H Hle j Hj. specialize (H j Hj). lra. Qed.
Lemma close_trans : forall N D D' x y z, close N D x y -> close N D' y z -> close N (D + D') x z.
Proof.
  intros N D D' x y z H1 H2 j Hj. specialize (H1 j Hj). specialize (H2 j Hj).
  replace (x j - z j) with ((x j - y j) + (y j - z j)) by ring. pose proof (Rabs_triang (x j - y j) (y j - z j)). lra.
Qed.

Section OneStep.
Variable N : nat.
Hypothesis HN : (1 <= N)%nat.
Variable f : R -> vec -> vec.
Variables Tend L : R.
Hypothesis HL : 0 <= L.
Hypothesis Hlip : lipschitz N Tend L f.
Variables T h : R.
Hypothesis HT : 0 <= T.
Hypothesis Hh : 0 < h.
Hypothesis Hend : T + h <= Tend.
Hypothesis Hsmall : 50 * L * h <= 1.

Lemma node_time : forall i, (i < 7)%nat -> 0 <= T + dp_c i * h <= Tend /\ Rabs (T + dp_c i * h - T) <= h.
Proof.
  intros i Hi. pose proof (node_range i Hi) as C. assert (0 <= dp_c i * h <= h) by nra. split; [lra|].
  replace (T + dp_c i * h - T) with (dp_c i * h) by ring. rewrite Rabs_pos_eq by lra. lra.
Qed.

Notation step y := (a_yout (inner_step f T h y (f T y))).

(** Two steps from nearby values end nearby. *)
Lemma step_stable : forall y z D, close N D y z -> close N (D * (1 + 4 * L * h)) (step y) (step z).
Proof.
  intros y z D Hc. pose proof (close_pos N D y z HN Hc) as HD.
  destruct (inner_step_runge_kutta f T h y) as (k & Hk & Ek & _). destruct (inner_step_runge_kutta f T h z) as (k' & Hk' & Ek' & _).
  assert (S : forall i, (i < 7)%nat -> close N (2 * L * D) (k i) (k' i)).
  { intro i. induction i as [i IH] using (well_founded_induction lt_wf). intro Hi. rewrite (Hk i Hi), (Hk' i Hi).
    destruct (node_time i Hi) as (Ht & _).
    assert (C : close N (D + h * (25 * (2 * L * D))) (fun n => y n + h * rsum 7 (fun j => dp_a i j * k j n)) (fun n => z n + h * rsum 7 (fun j => dp_a i j * k' j n))).
    { intros n Hn. specialize (Hc n Hn). cbv beta.
      replace (y n + h * rsum 7 (fun j => dp_a i j * k j n) - (z n + h * rsum 7 (fun j => dp_a i j * k' j n)))
        with ((y n - z n) + h * (rsum 7 (fun j => dp_a i j * k j n) - rsum 7 (fun j => dp_a i j * k' j n))) by ring.
      rewrite rsum_minus. rewrite (rsum_ext 7 _ (fun j => dp_a i j * (k j n - k' j n))) by (intros; ring).
      assert (Hw : Rabs (rsum 7 (fun j => dp_a i j * (k j n - k' j n))) <= 25 * (2 * L * D)).
      { assert (Hm : 0 <= 2 * L * D) by nra.
        eapply Rle_trans; [apply (rsum_weighted 7 (dp_a i) (fun j => k j n - k' j n) (2 * L * D) Hm)|].
        - intros j Hj. destruct (Nat.lt_ge_cases j i) as [Hlt|Hge]; [right; exact (IH j Hlt Hj n Hn)|left; apply upper_zero; assumption].
        - apply Rmult_le_compat_r; [exact Hm|apply row_sums; exact Hi]. }
      eapply Rle_trans; [apply Rabs_triang|]. rewrite Rabs_mult, (Rabs_pos_eq h) by lra.
      apply Rplus_le_compat; [exact Hc|]. apply Rmult_le_compat_l; [lra|exact Hw]. }
    apply (close_weaken N _ (2 * L * D)) with (1 := Hlip _ _ _ _ _ Ht Ht C).
    replace (T + dp_c i * h - (T + dp_c i * h)) with 0 by ring. rewrite Rabs_R0.
    assert (0 <= L * D) by nra. assert ((50 * L * h) * (L * D) <= 1 * (L * D)) by (apply Rmult_le_compat_r; assumption). nra. }
  intros n Hn. rewrite Ek, Ek'.
  replace (y n + h * rsum 7 (fun i => dp_b i * k i n) - (z n + h * rsum 7 (fun i => dp_b i * k' i n)))
    with ((y n - z n) + h * (rsum 7 (fun i => dp_b i * k i n) - rsum 7 (fun i => dp_b i * k' i n))) by ring.
  rewrite rsum_minus. rewrite (rsum_ext 7 _ (fun i => dp_b i * (k i n - k' i n))) by (intros; ring).
  assert (Hm : 0 <= 2 * L * D) by nra.
  assert (Hw : Rabs (rsum 7 (fun i => dp_b i * (k i n - k' i n))) <= 2 * (2 * L * D)).
  { eapply Rle_trans; [apply (rsum_weighted 7 dp_b (fun i => k i n - k' i n) (2 * L * D) Hm)|].
    - intros i Hi. right. exact (S i Hi n Hn).
    - apply Rmult_le_compat_r; [exact Hm|exact weight_sum]. }
  eapply Rle_trans; [apply Rabs_triang|]. rewrite Rabs_mult, (Rabs_pos_eq h) by lra. specialize (Hc n Hn).
  replace (D * (1 + 4 * L * h)) with (D + h * (2 * (2 * L * D))) by ring.
  apply Rplus_le_compat; [exact Hc|]. apply Rmult_le_compat_l; [lra|exact Hw].
Qed.

Variable Y : R -> vec.
Variable F : R.
Hypothesis HY : solves N Tend f Y.
Hypothesis HF : speed_at_most N Tend F f Y.

Lemma speed_pos : 0 <= F.
Proof. pose proof (HF T 0%nat ltac:(lra) ltac:(lia)). pose proof (Rabs_pos (f T (Y T) 0%nat)). lra. Qed.

(** A step from the solution stays within a quadratic term of it. *)
Lemma step_accurate : close N (L * (5 + 101 * F) * h * h) (step (Y T)) (Y (T + h)).
Proof.
  pose proof speed_pos as F0. destruct (inner_step_runge_kutta f T h (Y T)) as (k & Hk & Ek & _).
  set (m := 2 * (F + L * h)). assert (LH : 0 <= L * h) by nra. assert (M0 : 0 <= m) by (unfold m; lra).
  assert (HTr : 0 <= T <= Tend) by lra.
  assert (LHm : 50 * L * h * m <= m) by nra.
  assert (P : forall i, (i < 7)%nat -> (forall j, (j < i)%nat -> forall n, (n < N)%nat -> Rabs (k j n) <= m) ->
     close N (L * (h + h * (25 * m))) (k i) (f T (Y T))).
  { intros i Hi IH. rewrite (Hk i Hi). destruct (node_time i Hi) as (Ht & Hd).
    assert (C : close N (h * (25 * m)) (fun n => Y T n + h * rsum 7 (fun j => dp_a i j * k j n)) (Y T)).
    { intros n Hn. cbv beta. replace (Y T n + h * rsum 7 (fun j => dp_a i j * k j n) - Y T n) with (h * rsum 7 (fun j => dp_a i j * k j n)) by ring.
      rewrite Rabs_mult, (Rabs_pos_eq h) by lra. apply Rmult_le_compat_l; [lra|].
      eapply Rle_trans; [apply (rsum_weighted 7 (dp_a i) (fun j => k j n) m M0)|].
      - intros j Hj. destruct (Nat.lt_ge_cases j i) as [Hlt|Hge]; [right; exact (IH j Hlt n Hn)|left; apply upper_zero; assumption].
      - apply Rmult_le_compat_r; [exact M0|apply row_sums; exact Hi]. }
    apply (close_weaken N _ _ _ _ (Hlip _ _ _ _ _ Ht HTr C)). apply Rmult_le_compat_l; [exact HL|lra]. }
  assert (B : forall i, (i < 7)%nat -> forall n, (n < N)%nat -> Rabs (k i n) <= m).
  { intro i. induction i as [i IH] using (well_founded_induction lt_wf). intros Hi n Hn.
    pose proof (P i Hi (fun j Hj => IH j Hj ltac:(lia)) n Hn) as Q. pose proof (HF T n HTr Hn) as Q2.
    replace (k i n) with ((k i n - f T (Y T) n) + f T (Y T) n) by ring.
    eapply Rle_trans; [apply Rabs_triang|].
    replace (L * (h + h * (25 * m))) with (L * h + 50 * L * h * m / 2) in Q by field. unfold m at 1. unfold m in Q, LHm. lra. }
  assert (Q : forall i, (i < 7)%nat -> close N (L * h * (2 + 50 * F)) (k i) (f T (Y T))).
  { intros i Hi. apply (close_weaken N _ _ _ _ (P i Hi (fun j Hj => B j ltac:(lia)))).
    assert ((L * h) * (50 * L * h) <= (L * h) * 1) by (apply Rmult_le_compat_l; assumption). unfold m. nra. }
  intros n Hn. rewrite Ek.
  destruct (MVT_cor2 (fun s => Y s n) (fun s => f s (Y s) n) T (T + h) ltac:(lra)) as (c & Ec & Hc1).
  { intros c Hc. apply HY; [lra|exact Hn]. }
  cbv beta in Ec.
  assert (Cy : close N (F * (c - T)) (Y c) (Y T)).
  { intros j Hj. destruct (MVT_cor2 (fun s => Y s j) (fun s => f s (Y s) j) T c ltac:(lra)) as (c' & Ec' & Hc').
    { intros x Hx. apply HY; [lra|exact Hj]. }
    cbv beta in Ec'. rewrite Ec', Rabs_mult, (Rabs_pos_eq (c - T)) by lra. apply Rmult_le_compat_r; [lra|]. apply HF; [lra|exact Hj]. }
  pose proof (Hlip c T _ _ _ ltac:(lra) HTr Cy n Hn) as K. rewrite (Rabs_pos_eq (c - T)) in K by lra.
  replace (Y T n + h * rsum 7 (fun i => dp_b i * k i n) - Y (T + h) n)
    with (h * (rsum 7 (fun i => dp_b i * k i n) - f T (Y T) n) - h * (f c (Y c) n - f T (Y T) n)) by nra.
  assert (W : Rabs (rsum 7 (fun i => dp_b i * k i n) - f T (Y T) n) <= 2 * (L * h * (2 + 50 * F))).
  { replace (f T (Y T) n) with (rsum 7 (fun i => dp_b i * f T (Y T) n)) by (rewrite rsum_scal, weight_one; ring).
    rewrite rsum_minus. rewrite (rsum_ext 7 _ (fun i => dp_b i * (k i n - f T (Y T) n))) by (intros; ring).
    assert (Hm : 0 <= L * h * (2 + 50 * F)) by nra.
    eapply Rle_trans; [apply (rsum_weighted 7 dp_b (fun i => k i n - f T (Y T) n) _ Hm)|].
    - intros i Hi. right. exact (Q i Hi n Hn).
    - apply Rmult_le_compat_r; [exact Hm|exact weight_sum]. }
  unfold Rminus at 1. eapply Rle_trans; [apply Rabs_triang|]. rewrite Rabs_Ropp, !Rabs_mult, (Rabs_pos_eq h) by lra.
  assert (K2 : Rabs (f c (Y c) n - f T (Y T) n) <= L * (1 + F) * h).
  { eapply Rle_trans; [exact K|]. replace (L * (c - T + F * (c - T))) with (L * (1 + F) * (c - T)) by ring.
    apply Rmult_le_compat_l; [nra|lra]. }
  assert (h * Rabs (rsum 7 (fun i => dp_b i * k i n) - f T (Y T) n) <= h * (2 * (L * h * (2 + 50 * F)))) by (apply Rmult_le_compat_l; [lra|exact W]).
  assert (h * Rabs (f c (Y c) n - f T (Y T) n) <= h * (L * (1 + F) * h)) by (apply Rmult_le_compat_l; [lra|exact K2]). lra.
Qed.
End OneStep.

(** Along a history the errors add up, amplified at most exponentially. *)
Lemma history_accumulates : forall N f Tend L Y H delta c l, (1 <= N)%nat -> reads_components N f -> 0 <= L -> lipschitz N Tend L f ->
  0 <= c -> (forall t h, 0 <= t -> 0 < h <= H -> t + h <= Tend -> close N (c * h) (a_yout (inner_step f t h (Y t) (f t (Y t)))) (Y (t + h))) ->
  50 * L * H <= 1 -> trajectory N f l -> steps_at_most Tend H l -> starts_near N delta Y l ->
  forall i t y yp, nth_error l i = Some (t, y, yp) -> t <= Tend -> 0 <= t /\ close N ((delta + c * t) * exp (4 * L * t)) y (Y t).
Proof.
  intros N f Tend L Y H delta c l HN Hf HL Hlip Hc0 Hloc HH Ht Hst Hd. induction i as [|i IH]; intros t y yp E Hle.
  - destruct (traj_start_zero N f l Ht) as (y0 & yp0 & l' & El). rewrite El in E. injection E as E1 E2 E3. subst t y0 yp0.
    split; [lra|]. rewrite !Rmult_0_r, exp_0. replace ((delta + 0) * 1) with delta by ring. exact (Hd (0, y, yp) ltac:(rewrite El; reflexivity)).
  - assert (X : exists p, nth_error l i = Some p).
    { destruct (nth_error l i) as [p|] eqn:Ei; [exists p; reflexivity|]. apply nth_error_None in Ei.
      assert (nth_error l (S i) <> None) as Hs by (rewrite E; discriminate). apply nth_error_Some in Hs. lia. }
    destruct X as (((t0, y0), yp0) & Ei).
    destruct (traj_consecutive N f l Ht i t0 y0 yp0 t y yp Ei E) as (Hlt & Hy).
    pose proof (Hst i _ _ Ei E Hle) as Hstep. unfold time_of in Hstep. cbn [fst] in Hstep.
    destruct (IH t0 y0 yp0 Ei ltac:(lra)) as (Hp & Hc). split; [lra|].
    pose proof (traj_derivative N f l Ht t0 y0 yp0 (nth_error_In _ _ Ei)) as Hder.
    set (h := t - t0) in *. assert (Hh : 0 < h) by (unfold h; lra). assert (Et : t = t0 + h) by (unfold h; ring).
    assert (Hsm : 50 * L * h <= 1) by nra.
    pose proof (step_stable N HN f Tend L HL Hlip t0 h Hp Hh ltac:(lra) Hsm y0 (Y t0) _ Hc) as S1.
    pose proof (Hloc t0 h Hp ltac:(lra) ltac:(lra)) as S2.
    rewrite Et.
    assert (S0 : close N 0 y (a_yout (inner_step f t0 h y0 (f t0 y0)))).
    { intros j Hj. rewrite (Hy j Hj). destruct (inner_step_ext N f t0 h y0 y0 yp0 (f t0 y0) Hf (fun _ _ => eq_refl) Hder j Hj) as (Q & _). rewrite Q.
      rewrite Rminus_diag_eq, Rabs_R0 by reflexivity. lra. }
    pose proof (close_trans N _ _ _ _ _ S0 (close_trans N _ _ _ _ _ S1 S2)) as S3.
    apply (close_weaken N _ _ _ _ S3).
    set (D := (delta + c * t0) * exp (4 * L * t0)) in *.
    pose proof (close_pos N D y0 (Y t0) HN Hc) as HD.
    replace (4 * L * (t0 + h)) with (4 * L * t0 + 4 * L * h) by ring. rewrite exp_plus.
    assert (X1 : 1 + 4 * L * h <= exp (4 * L * h)) by apply exp_ineq1_le.
    assert (P1 : 0 <= 4 * L * t0) by (apply Rmult_le_pos; nra).
    assert (X2 : 1 <= exp (4 * L * t0)) by (pose proof (exp_ineq1_le (4 * L * t0)); lra).
    assert (P2 : 0 <= 4 * L * h) by (apply Rmult_le_pos; nra).
    assert (X3 : 1 <= exp (4 * L * h)) by lra.
    set (a := exp (4 * L * t0)) in *. set (b := exp (4 * L * h)) in *.
    assert (Hab : 1 <= a * b) by nra.
    assert (Y1 : D * (1 + 4 * L * h) <= D * b) by (apply Rmult_le_compat_l; assumption).
    assert (Y3 : 0 <= c * h) by (apply Rmult_le_pos; lra).
    assert (Y4 : c * h * 1 <= c * h * (a * b)) by (apply Rmult_le_compat_l; assumption).
    replace ((delta + c * (t0 + h)) * (a * b)) with (D * b + c * h * (a * b)) by (unfold D; ring). lra.
Qed.
Lemma history_converges : forall N f Tend L F Y H delta l, (1 <= N)%nat -> reads_components N f -> 0 <= L -> lipschitz N Tend L f ->
  solves N Tend f Y -> speed_at_most N Tend F f Y -> 50 * L * H <= 1 -> trajectory N f l -> steps_at_most Tend H l ->
  starts_near N delta Y l ->
  forall i t y yp, nth_error l i = Some (t, y, yp) -> t <= Tend ->
    0 <= t /\ close N ((delta + L * (5 + 101 * F) * H * t) * exp (4 * L * t)) y (Y t).
Proof.
  intros N f Tend L F Y H delta l HN Hf HL Hlip HY HF HH Ht Hst Hd i t y yp E Hle.
  destruct (Rlt_le_dec Tend 0) as [Hneg|Hpos].
  { exfalso. pose proof (traj_increasing N f l Ht) as Inc. destruct (traj_start_zero N f l Ht) as (z & zp & l' & El).
    destruct i as [|i]; [rewrite El in E; injection E as E _ _; lra|].
    pose proof (Inc 0%nat (S i) (0, z, zp) (t, y, yp) ltac:(lia) ltac:(rewrite El; reflexivity) E) as Q. unfold time_of in Q. cbn [fst] in Q. lra. }
  assert (F0 : 0 <= F) by (pose proof (HF 0 0%nat ltac:(lra) ltac:(lia)); pose proof (Rabs_pos (f 0 (Y 0) 0%nat)); lra).
  destruct (Rlt_le_dec H 0) as [HH0|HH0].
  { destruct i as [|i].
    - destruct (traj_start_zero N f l Ht) as (z & zp & l' & El). rewrite El in E. injection E as E1 E2 E3. subst t z zp.
      split; [lra|]. rewrite !Rmult_0_r, exp_0. replace ((delta + 0) * 1) with delta by ring. exact (Hd (0, y, yp) ltac:(rewrite El; reflexivity)).
    - exfalso. assert (X : exists p, nth_error l i = Some p).
      { destruct (nth_error l i) as [p|] eqn:Ei; [exists p; reflexivity|]. apply nth_error_None in Ei.
        assert (nth_error l (S i) <> None) as Hs by (rewrite E; discriminate). apply nth_error_Some in Hs. lia. }
      destruct X as (((t0, y0), yp0) & Ei). destruct (traj_consecutive N f l Ht i t0 y0 yp0 t y yp Ei E) as (Hlt & _).
      pose proof (Hst i _ _ Ei E Hle) as Q. unfold time_of in Q. cbn [fst] in Q. lra. }
  apply (history_accumulates N f Tend L Y H delta (L * (5 + 101 * F) * H) l HN Hf HL Hlip) with (i := i) (yp := yp); try assumption.
  - apply Rmult_le_pos; [|exact HH0]. nra.
  - intros t0 h0 Hp Hh Hend.
    apply (close_weaken N _ _ _ _ (step_accurate N HN f Tend L HL Hlip t0 h0 Hp ltac:(lra) Hend ltac:(nra) Y F HY HF)).
    apply Rmult_le_compat_r; [lra|]. apply Rmult_le_compat_l; [nra|lra].
Qed.

(** * Dense output *)
Lemma inner_step_stages : forall f T h y, let a := inner_step f T h y (f T y) in
  exists k : nat -> vec,
    (forall i, (i < 7)%nat -> k i = f (T + dp_c i * h) (fun n => y n + h * rsum 7 (fun j => dp_a i j * k j n))) /\
    (forall n, a_yout a n = y n + h * rsum 7 (fun i => dp_b i * k i n)) /\
    a_k3 a = k 2%nat /\ a_k4 a = k 3%nat /\ a_k5 a = k 4%nat /\ a_k6 a = k 5%nat /\ a_dydxout a = k 6%nat /\ k 0%nat = f T y.
Proof.
  intros f T h y a.
  pose (k2 := f (T + c2*h) (fun i => y i + h*a21*(f T y) i)).
  exists (fun i => match i with 0 => f T y | 1 => k2 | 2 => a_k3 a | 3 => a_k4 a | 4 => a_k5 a | 5 => a_k6 a | _ => a_dydxout a end%nat).
  unfold rsum. cbn [seq map fold_right]. split; [|split; [|repeat split]].
  - intros i Hi. do 7 (destruct i as [|i]; [cbn [dp_a dp_c]; unfold a, k2, inner_step; cbn [a_k3 a_k4 a_k5 a_k6 a_dydxout];
      (apply f_equal2; [ring|apply FunctionalExtensionality.functional_extensionality; intro n; ring])|]). lia.
  - intro n. unfold a, inner_step, dp_b. cbn [a_yout a_k3 a_k4 a_k5 a_k6 a_dydxout dp_a]. ring.
Qed.

(** All slopes of a step are bounded by the slope at its start. *)
Lemma stage_bound : forall N f Tend L T h y G, (1 <= N)%nat -> 0 <= L -> lipschitz N Tend L f -> 0 <= T -> 0 < h -> T + h <= Tend -> 50 * L * h <= 1 ->
  (forall n, (n < N)%nat -> Rabs (f T y n) <= G) -> forall k : nat -> vec,
  (forall i, (i < 7)%nat -> k i = f (T + dp_c i * h) (fun n => y n + h * rsum 7 (fun j => dp_a i j * k j n))) ->
  forall i, (i < 7)%nat -> forall n, (n < N)%nat -> Rabs (k i n) <= 2 * (G + L * h).
Proof.
  intros N f Tend L T h y G HN HL Hlip HT Hh Hend Hsmall HG k Hk.
  assert (G0 : 0 <= G) by (pose proof (HG 0%nat ltac:(lia)); pose proof (Rabs_pos (f T y 0%nat)); lra).
  set (m := 2 * (G + L * h)). assert (LH : 0 <= L * h) by nra. assert (M0 : 0 <= m) by (unfold m; lra).
  assert (LHm : 50 * L * h * m <= m) by nra.
  intro i. induction i as [i IH] using (well_founded_induction lt_wf). intros Hi n Hn.
  destruct (node_time Tend T h HT Hh Hend i Hi) as (Ht & Hd).
  assert (C : close N (h * (25 * m)) (fun n => y n + h * rsum 7 (fun j => dp_a i j * k j n)) y).
  { intros n' Hn'. cbv beta. replace (y n' + h * rsum 7 (fun j => dp_a i j * k j n') - y n') with (h * rsum 7 (fun j => dp_a i j * k j n')) by ring.
    rewrite Rabs_mult, (Rabs_pos_eq h) by lra. apply Rmult_le_compat_l; [lra|].
    eapply Rle_trans; [apply (rsum_weighted 7 (dp_a i) (fun j => k j n') m M0)|].
    - intros j Hj. destruct (Nat.lt_ge_cases j i) as [Hlt|Hge]; [right; exact (IH j Hlt Hj n' Hn')|left; apply upper_zero; assumption].
    - apply Rmult_le_compat_r; [exact M0|apply row_sums; exact Hi]. }
  pose proof (Hlip _ T _ _ _ Ht ltac:(lra) C n Hn) as Q. rewrite <- (Hk i Hi) in Q. pose proof (HG n Hn) as Q2.
  assert (Q3 : L * (Rabs (T + dp_c i * h - T) + h * (25 * m)) <= L * (h + h * (25 * m))) by (apply Rmult_le_compat_l; [exact HL|lra]).
  replace (k i n) with ((k i n - f T y n) + f T y n) by ring. eapply Rle_trans; [apply Rabs_triang|].
  replace (L * (h + h * (25 * m))) with (L * h + 50 * L * h * m / 2) in Q3 by field. unfold m in *. lra.
Qed.

Lemma abs_mul_le : forall c x a b, Rabs c <= a -> Rabs x <= b -> Rabs (c * x) <= a * b.
Proof. intros c x a b Hc Hx. rewrite Rabs_mult. apply Rmult_le_compat; auto using Rabs_pos. Qed.
Lemma abs_add_le : forall x y a b, Rabs x <= a -> Rabs y <= b -> Rabs (x + y) <= a + b.
Proof. intros x y a b Hx Hy. pose proof (Rabs_triang x y). lra. Qed.

(** The interpolant stays near the start of its interval. *)
Lemma interpolant_near : forall N f Tend L y t h yp y' yp' G T, (1 <= N)%nat -> reads_components N f -> 0 <= L -> lipschitz N Tend L f ->
  0 <= t -> 0 < h -> t + h <= Tend -> 50 * L * h <= 1 -> (forall n, (n < N)%nat -> Rabs (f t y n) <= G) ->
  (forall j, (j < N)%nat -> yp j = f t y j) -> (forall j, (j < N)%nat -> y' j = a_yout (inner_step f t h y yp) j) ->
  (forall j, (j < N)%nat -> yp' j = f (t + h) y' j) -> t <= T <= t + h ->
  forall j, (j < N)%nat -> Rabs (interpolant f (t, y, yp) (t + h, y', yp') j T - y j) <= 10 * h * (G + L * h).
Proof.
  intros N f Tend L y t h yp y' yp' G T HN Hf HL Hlip Ht Hh Hend Hsm HG Hyp Hy' Hyp' HT j Hj.
  destruct (inner_step_stages f t h y) as (k & Hk & Ek & K3 & K4 & K5 & K6 & K7 & K1).
  pose proof (stage_bound N f Tend L t h y G HN HL Hlip Ht Hh Hend Hsm HG k Hk) as B.
  destruct (inner_step_ext N f t h y y yp (f t y) Hf (fun _ _ => eq_refl) Hyp j Hj) as (_ & _ & E3 & E4 & E5 & E6).
  assert (Ey : forall n, (n < N)%nat -> y' n = y n + h * rsum 7 (fun i => dp_b i * k i n)).
  { intros n Hn. rewrite (Hy' n Hn). destruct (inner_step_ext N f t h y y yp (f t y) Hf (fun _ _ => eq_refl) Hyp n Hn) as (Q & _). rewrite Q. apply Ek. }
  assert (E7 : yp' j = k 6%nat j).
  { rewrite (Hyp' j Hj), (Hk 6%nat ltac:(lia)). cbn [dp_c]. rewrite Rmult_1_l. apply (Hf (t + h) y' _); [|exact Hj].
    intros n Hn. rewrite (Ey n Hn). reflexivity. }
  assert (E1 : yp j = k 0%nat j) by (rewrite (Hyp j Hj), K1; reflexivity).
  unfold interpolant. replace (t + h - t) with h by ring. rewrite E3, E4, E5, E6, K3, K4, K5, K6, E7, E1.
  set (m := 2 * (G + L * h)) in *.
  assert (Bj : forall i, (i < 7)%nat -> Rabs (k i j) <= m) by (intros i Hi; exact (B i Hi j Hj)).
  assert (M0 : 0 <= m) by (pose proof (Bj 0%nat ltac:(lia)); pose proof (Rabs_pos (k 0%nat j)); lra).
  set (th := (T - t) / h). assert (Hth : 0 <= th <= 1).
  { unfold th. split; [apply Rmult_le_pos; [lra|apply Rlt_le, Rinv_0_lt_compat; exact Hh]|].
    apply (Rmult_le_reg_r h); [exact Hh|]. unfold Rdiv. rewrite Rmult_assoc, Rinv_l by lra. lra. }
  set (d := rsum 7 (fun i => dp_b i * k i j)).
  assert (Hd : Rabs d <= 2 * m).
  { eapply Rle_trans; [apply (rsum_weighted 7 dp_b (fun i => k i j) m M0); intros i Hi; right; exact (Bj i Hi)|].
    apply Rmult_le_compat_r; [exact M0|exact weight_sum]. }
  rewrite (Ey j Hj). fold d.
  set (u := (1 - 2 * th) * d + (th - 1) * k 0%nat j + th * k 6%nat j).
  set (w := d1 * k 0%nat j + d3 * k 2%nat j + d4 * k 3%nat j + d5 * k 4%nat j + d6 * k 5%nat j + d7 * k 6%nat j).
  replace ((1 - th) * y j + th * (y j + h * d) + th * (th - 1) * ((1 - 2 * th) * (y j + h * d - y j) + (th - 1) * h * k 0%nat j + th * h * k 6%nat j) +
    th * th * (1 - th) * (1 - th) * (h * w) - y j) with (h * (th * d + th * (th - 1) * u + th * th * (1 - th) * (1 - th) * w)) by (unfold u; ring).
  assert (Hu : Rabs u <= 1 * (2 * m) + 1 * m + 1 * m).
  { unfold u. repeat apply abs_add_le; apply abs_mul_le; try exact Hd; try (apply Bj; lia); apply Rabs_le; lra. }
  assert (Hw : Rabs w <= 18 * m).
  { eapply Rle_trans; [unfold w; repeat apply abs_add_le; (apply abs_mul_le; [apply Rle_refl|apply Bj; lia])|].
    unfold d1, d3, d4, d5, d6, d7. abs_consts. nra. }
  assert (T1 : 0 <= th * (1 - th) <= 1 / 4) by (split; [nra|]; pose proof (Rle_0_sqr (th - 1 / 2)) as Q; unfold Rsqr in Q; lra).
  replace (10 * h * (G + L * h)) with (h * (5 * m)) by (unfold m; ring).
  rewrite Rabs_mult, (Rabs_pos_eq h) by lra. apply Rmult_le_compat_l; [lra|].
  assert (P1 : Rabs (th * d) <= 1 * (2 * m)) by (apply abs_mul_le; [apply Rabs_le; lra|exact Hd]).
  assert (P2 : Rabs (th * (th - 1) * u) <= 1 / 4 * (1 * (2 * m) + 1 * m + 1 * m)) by (apply abs_mul_le; [apply Rabs_le; lra|exact Hu]).
  assert (P3 : Rabs (th * th * (1 - th) * (1 - th) * w) <= 1 / 16 * (18 * m)).
  { apply abs_mul_le; [|exact Hw]. replace (th * th * (1 - th) * (1 - th)) with ((th * (1 - th)) * (th * (1 - th))) by ring.
    replace (1 / 16) with ((1 / 4) * (1 / 4)) by field. apply abs_mul_le; apply Rabs_le; lra. }
  pose proof (abs_add_le _ _ _ _ (abs_add_le _ _ _ _ P1 P2) P3). lra.
Qed.

Lemma history_dense : forall N f Tend L F Y H delta l, (1 <= N)%nat -> reads_components N f -> 0 <= L -> lipschitz N Tend L f ->
  solves N Tend f Y -> speed_at_most N Tend F f Y -> 50 * L * H <= 1 -> trajectory N f l -> steps_at_most Tend H l ->
  starts_near N delta Y l ->
  forall i p q T, nth_error l i = Some p -> nth_error l (S i) = Some q -> time_of p <= T <= time_of q -> time_of q <= Tend ->
    forall j, (j < N)%nat ->
    Rabs (interpolant f p q j T - Y T j) <= 2 * ((delta + L * (5 + 101 * F) * H * T) * exp (4 * L * T)) + (11 * F + 1) * H.
Proof.
  intros N f Tend L F Y H delta l HN Hf HL Hlip HY HF HH Ht Hst Hd i ((t, y), yp) ((t', y'), yp') T Ep Eq HT Hle j Hj.
  unfold time_of in HT, Hle. cbn [fst] in HT, Hle.
  destruct (history_converges N f Tend L F Y H delta l HN Hf HL Hlip HY HF HH Ht Hst Hd i t y yp Ep ltac:(lra)) as (Hp & Hc).
  destruct (traj_consecutive N f l Ht i t y yp t' y' yp' Ep Eq) as (Hlt & Hy).
  pose proof (Hst i _ _ Ep Eq Hle) as Hstep. unfold time_of in Hstep. cbn [fst] in Hstep.
  pose proof (traj_derivative N f l Ht t y yp (nth_error_In _ _ Ep)) as Hder.
  pose proof (traj_derivative N f l Ht t' y' yp' (nth_error_In _ _ Eq)) as Hder'.
  set (D := (delta + L * (5 + 101 * F) * H * t) * exp (4 * L * t)) in *.
  pose proof (close_pos N D y (Y t) HN Hc) as HD.
  remember (t' - t) as h eqn:Eh. assert (Et : t' = t + h) by lra. subst t'. assert (Hh : 0 < h) by lra.
  pose proof (speed_pos N HN f Tend t h Hp Hh ltac:(lra) Y F HF) as F0.
  assert (Hsm : 50 * L * h <= 1) by nra.
  assert (HG : forall n, (n < N)%nat -> Rabs (f t y n) <= F + L * D).
  { intros n Hn. pose proof (Hlip t t y (Y t) D ltac:(lra) ltac:(lra) Hc n Hn) as Q. replace (t - t) with 0 in Q by ring. rewrite Rabs_R0, Rplus_0_l in Q.
    pose proof (HF t n ltac:(lra) Hn) as Q2. replace (f t y n) with ((f t y n - f t (Y t) n) + f t (Y t) n) by ring.
    pose proof (Rabs_triang (f t y n - f t (Y t) n) (f t (Y t) n)). lra. }
  pose proof (interpolant_near N f Tend L y t h yp y' yp' (F + L * D) T HN Hf HL Hlip Hp Hh ltac:(lra) Hsm HG Hder Hy Hder' HT j Hj) as X.
  assert (XY : Rabs (Y t j - Y T j) <= F * h).
  { destruct (Rle_lt_or_eq_dec t T ltac:(lra)) as [Hlt2| <-]; [|rewrite Rminus_diag_eq, Rabs_R0 by reflexivity; nra].
    destruct (MVT_cor2 (fun s => Y s j) (fun s => f s (Y s) j) t T Hlt2) as (c & Ec & Hc2); [intros c Hc2; apply HY; [lra|exact Hj]|].
    cbv beta in Ec. rewrite Rabs_minus_sym, Ec. apply abs_mul_le; [apply HF; [lra|exact Hj]|]. rewrite Rabs_pos_eq by lra. lra. }
  assert (Mono : D <= (delta + L * (5 + 101 * F) * H * T) * exp (4 * L * T)).
  { unfold D in *. clear D. set (c := L * (5 + 101 * F)) in *. assert (Hc0 : 0 <= c) by (unfold c; nra).
    assert (H0 : 0 <= H) by lra. assert (CH : 0 <= c * H) by nra.
    assert (Hexp : exp (4 * L * t) <= exp (4 * L * T)).
    { destruct (Req_dec (4 * L * t) (4 * L * T)) as [->|Ne]; [lra|]. apply Rlt_le, exp_increasing. assert (4 * L * t <= 4 * L * T) by nra. lra. }
    pose proof (exp_pos (4 * L * t)) as Pe. 
    assert (0 <= delta + c * H * t) by (apply (Rmult_le_reg_r (exp (4 * L * t))); [exact Pe|rewrite Rmult_0_l; exact HD]).
    assert (c * H * t <= c * H * T) by (apply Rmult_le_compat_l; lra).
    apply Rmult_le_compat; lra. }
  specialize (Hc j Hj).
  replace (interpolant f (t, y, yp) (t + h, y', yp') j T - Y T j)
    with ((interpolant f (t, y, yp) (t + h, y', yp') j T - y j) + ((y j - Y t j) + (Y t j - Y T j))) by ring.
  pose proof (abs_add_le _ _ _ _ X (abs_add_le _ _ _ _ Hc XY)) as XX.
  assert (Q1 : 10 * h * (F + L * D + L * h) <= 10 * H * F + D + H).
  { assert (10 * (L * h) <= 1) by lra. assert (0 <= L * h) by nra.
    assert ((10 * (L * h)) * D <= 1 * D) by (apply Rmult_le_compat_r; lra).
    assert ((10 * (L * h)) * h <= 1 * h) by (apply Rmult_le_compat_r; lra).
    assert (F * h <= F * H) by (apply Rmult_le_compat_l; lra).
    replace (10 * h * (F + L * D + L * h)) with (10 * (F * h) + (10 * (L * h)) * D + (10 * (L * h)) * h) by ring. lra. }
  assert (H0 : F * h <= F * H) by (apply Rmult_le_compat_l; lra). eapply Rle_trans; [exact XX|]. clear - Mono Q1 H0. lra.
Qed.

(** * Linear systems *)
Section Linear.
Variable N : nat.
Hypothesis HN : (1 <= N)%nat.
Variable A : nat -> nat -> R.
Variable L : R.
Hypothesis HL : 0 <= L.
Hypothesis HA : rows_at_most N A L.
Notation M u := (fun j : nat => rsum N (fun i => A j i * u i)).

Lemma linear_reads : reads_components N (linear_system N A).
Proof. intros t v w Hvw j Hj. unfold linear_system. apply rsum_ext. intros i Hi. rewrite (Hvw i Hi). reflexivity. Qed.
Lemma linear_bound : forall u B, 0 <= B -> (forall j, (j < N)%nat -> Rabs (u j) <= B) -> forall j, (j < N)%nat -> Rabs (rsum N (fun i => A j i * u i)) <= L * B.
Proof.
  intros u B HB Hu j Hj. eapply Rle_trans; [apply (rsum_weighted N (A j) u B HB); intros i Hi; right; exact (Hu i Hi)|].
  apply Rmult_le_compat_r; [exact HB|exact (HA j Hj)].
Qed.
Lemma linear_lipschitz : forall Tend, lipschitz N Tend L (linear_system N A).
Proof.
  intros Tend t s y z D _ _ Hc j Hj. unfold linear_system. rewrite rsum_minus.
  rewrite (rsum_ext N _ (fun i => A j i * (y i - z i))) by (intros; ring).
  pose proof (close_pos N D y z HN Hc) as HD. pose proof (linear_bound (fun i => y i - z i) D HD Hc j Hj) as Q.
  pose proof (Rabs_pos (t - s)). eapply Rle_trans; [exact Q|]. apply Rmult_le_compat_l; lra.
Qed.

(** A linear combination of a vector and its first five images. *)
Lemma rsum_plus : forall n g h, rsum n (fun i => g i + h i) = rsum n g + rsum n h.
Proof. induction n as [|n IH]; intros g h; [rewrite !rsum_0; ring|]. rewrite !rsum_S, (IH (fun i => g (S i)) (fun i => h (S i))). ring. Qed.
Lemma image : forall (g u0 u1 u2 u3 u4 u5 : vec) x1 x2 x3 x4 x5,
  (forall n, g n = u0 n + x1 * u1 n + x2 * u2 n + x3 * u3 n + x4 * u4 n + x5 * u5 n) ->
  forall n, M g n = M u0 n + x1 * M u1 n + x2 * M u2 n + x3 * M u3 n + x4 * M u4 n + x5 * M u5 n.
Proof.
  intros g u0 u1 u2 u3 u4 u5 x1 x2 x3 x4 x5 Hg n. cbv beta.
  rewrite (rsum_ext N _ (fun i => A n i * u0 i + A n i * u1 i * x1 + A n i * u2 i * x2 + A n i * u3 i * x3 + A n i * u4 i * x4 + A n i * u5 i * x5))
    by (intros i _; rewrite Hg; ring).
  rewrite !rsum_plus, !rsum_scal. ring.
Qed.

Section Power.
Variable y : vec.
Fixpoint power (k : nat) : vec := match k with O => y | S k' => M (power k') end.
Lemma power_S : forall k j, power (S k) j = rsum N (fun i => A j i * power k i). Proof. reflexivity. Qed.
Lemma power_bound : forall B, 0 <= B -> (forall j, (j < N)%nat -> Rabs (y j) <= B) -> forall k j, (j < N)%nat -> Rabs (power k j) <= L ^ k * B.
Proof.
  intros B HB Hy. induction k as [|k IH]; intros j Hj; [cbn [power pow]; rewrite Rmult_1_l; exact (Hy j Hj)|].
  rewrite power_S. cbn [pow]. rewrite Rmult_assoc. apply linear_bound; [apply Rmult_le_pos; [apply pow_le; exact HL|exact HB]|exact IH|exact Hj].
Qed.

(** The step is the Taylor polynomial of degree five of the exponential, and a term of degree six. *)
Lemma linear_step : forall T h n, a_yout (inner_step (linear_system N A) T h y (linear_system N A T y)) n =
  power 0 n + h * power 1 n + h^2/2 * power 2 n + h^3/6 * power 3 n + h^4/24 * power 4 n + h^5/120 * power 5 n + h^6/600 * power 6 n.
Proof.
  intros T h n. unfold inner_step. cbn [a_yout].
  set (k2 := linear_system N A (T + c2 * h) _). set (k3 := linear_system N A (T + c3 * h) _). set (k4 := linear_system N A (T + c4 * h) _).
  set (k5 := linear_system N A (T + c5 * h) _). set (k6 := linear_system N A (T + h) _).
  assert (K1 : forall n, linear_system N A T y n = power 1 n) by reflexivity.
  assert (K2 : forall n, k2 n = power 1 n + h/5 * power 2 n).
  { intro m. unfold k2, linear_system at 1. rewrite (image _ y (power 1) (power 2) (power 3) (power 4) (power 5) (h/5) 0 0 0 0).
    - rewrite !power_S. cbn [power]. ring.
    - intro i. rewrite K1. unfold a21. field. }
  clearbody k2.
  assert (K3 : forall n, k3 n = power 1 n + 3/10*h * power 2 n + 9/200*h^2 * power 3 n).
  { intro m. unfold k3, linear_system at 1. rewrite (image _ y (power 1) (power 2) (power 3) (power 4) (power 5) (3/10*h) (9/200*h^2) 0 0 0).
    - rewrite !power_S. cbn [power]. ring.
    - intro i. rewrite K1, K2. unfold a31, a32. field. }
  clearbody k3.
  assert (K4 : forall n, k4 n = power 1 n + 4/5*h * power 2 n + 8/25*h^2 * power 3 n + 4/25*h^3 * power 4 n).
  { intro m. unfold k4, linear_system at 1. rewrite (image _ y (power 1) (power 2) (power 3) (power 4) (power 5) (4/5*h) (8/25*h^2) (4/25*h^3) 0 0).
    - rewrite !power_S. cbn [power]. ring.
    - intro i. rewrite K1, K2, K3. unfold a41, a42, a43. field. }
  clearbody k4.
  assert (K5 : forall n, k5 n = power 1 n + 8/9*h * power 2 n + 32/81*h^2 * power 3 n + 424/1215*h^3 * power 4 n + -848/18225*h^4 * power 5 n).
  { intro m. unfold k5, linear_system at 1. rewrite (image _ y (power 1) (power 2) (power 3) (power 4) (power 5) (8/9*h) (32/81*h^2) (424/1215*h^3) (-848/18225*h^4) 0).
    - rewrite !power_S. cbn [power]. ring.
    - intro i. rewrite K1, K2, K3, K4. unfold a51, a52, a53, a54. field. }
  clearbody k5.
  assert (K6 : forall n, k6 n = power 1 n + h * power 2 n + h^2/2 * power 3 n + 21/55*h^3 * power 4 n + -14/275*h^4 * power 5 n + 7/550*h^5 * power 6 n).
  { intro m. unfold k6, linear_system at 1. rewrite (image _ y (power 1) (power 2) (power 3) (power 4) (power 5) h (h^2/2) (21/55*h^3) (-14/275*h^4) (7/550*h^5)).
    - rewrite !power_S. cbn [power]. ring.
    - intro i. rewrite K1, K2, K3, K4, K5. unfold a61, a62, a63, a64, a65. field. }
  clearbody k6.
  rewrite K1, K3, K4, K5, K6. unfold a71, a73, a74, a75, a76. cbn [power]. field.
Qed.
End Power.

(** The remainders of the Taylor expansions of the solution. *)
Fixpoint taylor (y : vec) (m : nat) (s : R) (j : nat) : R :=
  match m with O => y j | S m' => taylor y m' s j + s ^ (S m') / INR (fact (S m')) * power y (S m') j end.
Lemma taylor_at_0 : forall y m j, taylor y m 0 j = y j.
Proof. induction m as [|m IH]; intro j; [reflexivity|]. cbn [taylor]. rewrite IH. cbn [pow]. unfold Rdiv. ring. Qed.
Lemma taylor_derivative : forall y m s j, derivable_pt_lim (fun s => taylor y (S m) s j) s (rsum N (fun i => A j i * taylor y m s i)).
Proof.
  induction m as [|m IH]; intros s j.
  - cbn [taylor]. replace (rsum N (fun i => A j i * y i)) with (0 + (1 * / INR (fact 1) * power y 1 j)) by (change (fact 1) with 1%nat; cbn [INR]; rewrite Rinv_1, power_S; cbn [power]; ring).
    apply (derivable_pt_lim_plus (fun _ => y j) (fun s => s ^ 1 / INR (fact 1) * power y 1 j)); [apply derivable_pt_lim_const|].
    replace (1 * / INR (fact 1) * power y 1 j) with ((INR 1 * s ^ pred 1) * (/ INR (fact 1) * power y 1 j) + s ^ 1 * 0) by (cbn [pred pow INR]; ring).
    apply (derivable_pt_lim_ext (mult_fct (fun s => s ^ 1) (fct_cte (/ INR (fact 1) * power y 1 j)))); [intro x; unfold mult_fct, fct_cte, Rdiv; ring|].
    apply (derivable_pt_lim_mult (fun s => s ^ 1) (fct_cte (/ INR (fact 1) * power y 1 j)) s (INR 1 * s ^ pred 1) 0); [apply derivable_pt_lim_pow|apply derivable_pt_lim_const].
  - change (fun s => taylor y (S (S m)) s j) with (fun s => taylor y (S m) s j + s ^ (S (S m)) / INR (fact (S (S m))) * power y (S (S m)) j).
    assert (E : rsum N (fun i => A j i * taylor y (S m) s i) =
       rsum N (fun i => A j i * taylor y m s i) + s ^ (S m) / INR (fact (S m)) * power y (S (S m)) j).
    { cbn [taylor]. rewrite (rsum_ext N _ (fun i => A j i * taylor y m s i + A j i * power y (S m) i * (s ^ (S m) / INR (fact (S m))))) by (intros; ring).
      rewrite rsum_plus, rsum_scal, (power_S y (S m) j). ring. }
    rewrite E. apply (derivable_pt_lim_plus (fun s => taylor y (S m) s j) (fun s => s ^ (S (S m)) / INR (fact (S (S m))) * power y (S (S m)) j)); [exact (IH s j)|].
    set (p := power y (S (S m)) j).
    replace (s ^ (S m) / INR (fact (S m)) * p) with ((INR (S (S m)) * s ^ pred (S (S m))) * (/ INR (fact (S (S m))) * p) + s ^ (S (S m)) * 0).
    2: { cbn [pred]. rewrite (fact_simpl (S m)), mult_INR. field. split; [apply INR_fact_neq_0|apply not_0_INR; lia]. }
    apply (derivable_pt_lim_ext (mult_fct (fun s => s ^ (S (S m))) (fct_cte (/ INR (fact (S (S m))) * p)))); [intro x; unfold mult_fct, fct_cte, Rdiv; ring|].
    apply (derivable_pt_lim_mult (fun s => s ^ (S (S m))) (fct_cte (/ INR (fact (S (S m))) * p)) s (INR (S (S m)) * s ^ pred (S (S m))) 0); [apply derivable_pt_lim_pow|apply derivable_pt_lim_const].
Qed.

Variable Tend : R.
Variable Y : R -> vec.
Hypothesis HY : solves N Tend (linear_system N A) Y.
Variable B : R.
Hypothesis HB : size_at_most N Tend B Y.

Lemma taylor_remainder : forall t, 0 <= t <= Tend -> forall m s, 0 <= s -> t + s <= Tend -> forall j, (j < N)%nat ->
  Rabs (Y (t + s) j - taylor (Y t) m s j) <= (L * s) ^ (S m) * B.
Proof.
  intros t Ht.
  assert (B0 : 0 <= B) by (pose proof (HB t 0%nat Ht ltac:(lia)); pose proof (Rabs_pos (Y t 0%nat)); lra).
  assert (Dt : forall s j, 0 <= s -> t + s <= Tend -> (j < N)%nat -> derivable_pt_lim (fun s => Y (t + s) j) s (rsum N (fun i => A j i * Y (t + s) i))).
  { intros s j Hs Hle Hj. replace (rsum N (fun i => A j i * Y (t + s) i)) with (rsum N (fun i => A j i * Y (t + s) i) * (0 + 1)) by ring.
    apply (derivable_pt_lim_comp (fun s => t + s) (fun s => Y s j) s).
    - apply (derivable_pt_lim_plus (fct_cte t) id); [apply derivable_pt_lim_const|apply derivable_pt_lim_id].
    - exact (HY (t + s) j ltac:(lra) Hj). }
  induction m as [|m IH]; intros s Hs Hle j Hj.
  - cbn [taylor]. destruct (Rle_lt_or_eq_dec 0 s Hs) as [Hlt| <-]; [|rewrite Rplus_0_r, Rminus_diag_eq, Rabs_R0 by reflexivity; cbn [pow]; lra].
    destruct (MVT_cor2 (fun s => Y (t + s) j) (fun s => rsum N (fun i => A j i * Y (t + s) i)) 0 s Hlt) as (c & Ec & Hc).
    { intros c Hc. apply Dt; [lra|lra|exact Hj]. }
    cbv beta in Ec. rewrite Rplus_0_r in Ec. rewrite Ec.
    assert (Q : Rabs (rsum N (fun i => A j i * Y (t + c) i)) <= L * B) by (apply linear_bound; [exact B0|intros i Hi; apply HB; [lra|exact Hi]|exact Hj]).
    rewrite Rabs_mult, (Rabs_pos_eq (s - 0)) by lra. cbn [pow].
    assert (Rabs (rsum N (fun i => A j i * Y (t + c) i)) * (s - 0) <= L * B * (s - 0)) by (apply Rmult_le_compat_r; lra).
    assert (0 <= L * B * s) by (apply Rmult_le_pos; [apply Rmult_le_pos; assumption|lra]). lra.
  - destruct (Rle_lt_or_eq_dec 0 s Hs) as [Hlt| <-].
    2: { rewrite Rplus_0_r, taylor_at_0, Rminus_diag_eq, Rabs_R0 by reflexivity. rewrite Rmult_0_r, pow_i by lia. lra. }
    destruct (MVT_cor2 (fun s => Y (t + s) j - taylor (Y t) (S m) s j)
       (fun s => rsum N (fun i => A j i * Y (t + s) i) - rsum N (fun i => A j i * taylor (Y t) m s i)) 0 s Hlt) as (c & Ec & Hc).
    { intros c Hc. apply (derivable_pt_lim_minus (fun s => Y (t + s) j) (fun s => taylor (Y t) (S m) s j)); [apply Dt; [lra|lra|exact Hj]|apply taylor_derivative]. }
    cbv beta in Ec. rewrite Rplus_0_r, taylor_at_0, (Rminus_diag_eq (Y t j)) in Ec by reflexivity. rewrite Rminus_0_r in Ec. rewrite Ec.
    rewrite rsum_minus, (rsum_ext N _ (fun i => A j i * (Y (t + c) i - taylor (Y t) m c i))) by (intros; ring).
    assert (P0 : forall x, 0 <= x -> 0 <= (L * x) ^ S m * B).
    { intros x Hx. apply Rmult_le_pos; [|exact B0]. apply pow_le, Rmult_le_pos; assumption. }
    assert (Q : Rabs (rsum N (fun i => A j i * (Y (t + c) i - taylor (Y t) m c i))) <= L * ((L * s) ^ S m * B)).
    { apply linear_bound; [apply P0; lra| |exact Hj]. intros i Hi. eapply Rle_trans; [apply (IH c); [lra|lra|exact Hi]|].
      apply Rmult_le_compat_r; [exact B0|]. apply pow_incr. split; [apply Rmult_le_pos; lra|apply Rmult_le_compat_l; lra]. }
    rewrite Rabs_mult, (Rabs_pos_eq (s - 0)) by lra.
    assert (Rabs (rsum N (fun i => A j i * (Y (t + c) i - taylor (Y t) m c i))) * (s - 0) <= L * ((L * s) ^ S m * B) * (s - 0)) by (apply Rmult_le_compat_r; lra).
    replace ((L * s) ^ S (S m) * B) with (L * ((L * s) ^ S m * B) * (s - 0)) by (cbn [pow]; ring). assumption.
Qed.
End Linear.

Lemma linear_accurate : forall N A L Tend Y B, (1 <= N)%nat -> 0 <= L -> rows_at_most N A L -> solves N Tend (linear_system N A) Y -> size_at_most N Tend B Y ->
  forall t h, 0 <= t -> 0 < h -> t + h <= Tend ->
  close N (2 * (L * h) ^ 6 * B) (a_yout (inner_step (linear_system N A) t h (Y t) (linear_system N A t (Y t)))) (Y (t + h)).
Proof.
  intros N A L Tend Y B HN HL HA HY HB t h Ht Hh Hend j Hj. rewrite linear_step.
  pose proof (taylor_remainder N HN A L HL HA Tend Y HY B HB t ltac:(lra) 5 h ltac:(lra) Hend j Hj) as Q.
  pose proof (power_bound N A L HL HA (Y t) B) as Q2.
  assert (B0 : 0 <= B) by (pose proof (HB t 0%nat ltac:(lra) ltac:(lia)); pose proof (Rabs_pos (Y t 0%nat)); lra).
  specialize (Q2 B0 (fun i Hi => HB t i ltac:(lra) Hi) 6%nat j Hj).
  assert (P6 : 0 <= (L * h) ^ 6 * B) by (apply Rmult_le_pos; [apply pow_le; nra|exact B0]).
  assert (Q3 : Rabs (h ^ 6 / 600 * power N A (Y t) 6 j) <= (L * h) ^ 6 * B).
  { assert (H6 : 0 <= h ^ 6) by (apply pow_le; lra). rewrite Rabs_mult, (Rabs_pos_eq (h ^ 6 / 600)) by lra.
    assert (h ^ 6 / 600 * Rabs (power N A (Y t) 6 j) <= h ^ 6 * (L ^ 6 * B)).
    { apply Rmult_le_compat; [lra|apply Rabs_pos|lra|exact Q2]. }
    replace ((L * h) ^ 6 * B) with (h ^ 6 * (L ^ 6 * B)) by (rewrite Rpow_mult_distr; ring). assumption. }
  set (p6 := power N A (Y t) 6 j) in *.
  assert (E : taylor N A (Y t) 5 h j = power N A (Y t) 0 j + h * power N A (Y t) 1 j + h^2/2 * power N A (Y t) 2 j + h^3/6 * power N A (Y t) 3 j + h^4/24 * power N A (Y t) 4 j + h^5/120 * power N A (Y t) 5 j).
  { cbn [taylor]. change (fact 1) with 1%nat. change (fact 2) with 2%nat. change (fact 3) with 6%nat. change (fact 4) with 24%nat. change (fact 5) with 120%nat.
    rewrite !INR_IZR_INZ. cbn [Z.of_nat Pos.of_succ_nat Pos.succ].
    set (q1 := power N A (Y t) 1 j). set (q2 := power N A (Y t) 2 j). set (q3 := power N A (Y t) 3 j). set (q4 := power N A (Y t) 4 j). set (q5 := power N A (Y t) 5 j).
    cbn [power]. field. }
  rewrite <- E. set (x := taylor N A (Y t) 5 h j) in *.
  replace (x + h ^ 6 / 600 * p6 - Y (t + h) j) with (h ^ 6 / 600 * p6 + - (Y (t + h) j - x)) by ring.
  eapply Rle_trans; [apply Rabs_triang|]. rewrite Rabs_Ropp. lra.
Qed.
Lemma history_linear : forall N A L Tend Y B H delta l, (1 <= N)%nat -> 0 <= L -> rows_at_most N A L -> solves N Tend (linear_system N A) Y ->
  size_at_most N Tend B Y -> 0 <= Tend -> 0 <= H -> 50 * L * H <= 1 -> trajectory N (linear_system N A) l -> steps_at_most Tend H l -> starts_near N delta Y l ->
  forall i t y yp, nth_error l i = Some (t, y, yp) -> t <= Tend -> close N (linear_error L B H delta t) y (Y t).
Proof.
  intros N A L Tend Y B H delta l HN HL HA HY HB HT H0 HH Ht Hst Hd i t y yp E Hle.
  assert (B0 : 0 <= B) by (pose proof (HB 0 0%nat ltac:(lra) ltac:(lia)); pose proof (Rabs_pos (Y 0 0%nat)); lra).
  unfold linear_error.
  destruct (history_accumulates N (linear_system N A) Tend L Y H delta (2 * L * (L * H) ^ 5 * B) l HN (linear_reads N A) HL (linear_lipschitz N HN A L HL HA Tend)) with (i := i) (t := t) (y := y) (yp := yp) as (_ & X); try assumption.
  - apply Rmult_le_pos; [|exact B0]. apply Rmult_le_pos; [lra|]. apply pow_le. nra.
  - intros t0 h Hp Hh Hend. apply (close_weaken N _ _ _ _ (linear_accurate N A L Tend Y B HN HL HA HY HB t0 h Hp ltac:(lra) Hend)).
    replace (2 * (L * h) ^ 6 * B) with (2 * L * (L * h) ^ 5 * B * h) by ring.
    apply Rmult_le_compat_r; [lra|]. apply Rmult_le_compat_r; [exact B0|]. apply Rmult_le_compat_l; [lra|].
    apply pow_incr. split; [nra|apply Rmult_le_compat_l; lra].
Qed.

(** * Dense output of linear systems *)
Section LinearDense.
Variable N : nat.
Hypothesis HN : (1 <= N)%nat.
Variable A : nat -> nat -> R.
Notation f := (linear_system N A).
Notation M u := (fun j : nat => rsum N (fun i => A j i * u i)).

(** The weights of the fifth, sixth and seventh images in the interpolant. *)
Definition w5 (th : R) : R := 5112093/587608460 * th^2 + -90725539/3525650760 * th^3 + 22358351/881412690 * th^4.
Definition w6 (th : R) : R := -17546271/2938042300 * th^2 + 181174829/17628253800 * th^3 + -2325839/881412690 * th^4.
Definition w7 (th : R) : R := 6769587/2938042300 * th^2 + -110615467/17628253800 * th^3 + 13999589/3525650760 * th^4.
Lemma w_bounds : forall th, 0 <= th <= 1 -> Rabs (w5 th) <= 1 / 10 /\ Rabs (w6 th) <= 1 / 10 /\ Rabs (w7 th) <= 1 / 10.
Proof.
  intros th Hth. assert (P2 : 0 <= th^2 <= 1) by (cbn [pow]; nra). assert (P3 : 0 <= th^3 <= 1) by (cbn [pow] in *; nra). assert (P4 : 0 <= th^4 <= 1) by (cbn [pow] in *; nra).
  unfold w5, w6, w7. repeat split; apply Rabs_le; lra.
Qed.

(** The interpolant on one step: the Taylor polynomial of degree four, and three terms of
    higher degree. *)
Definition dense_series (y : vec) (h th : R) (n : nat) : R :=
  power N A y 0 n + (h * th) * power N A y 1 n + (h * th)^2/2 * power N A y 2 n + (h * th)^3/6 * power N A y 3 n + (h * th)^4/24 * power N A y 4 n
  + h^5 * w5 th * power N A y 5 n + h^6 * w6 th * power N A y 6 n + h^7 * w7 th * power N A y 7 n.

Lemma image6 : forall (g u0 u1 u2 u3 u4 u5 u6 : vec) x1 x2 x3 x4 x5 x6,
  (forall n, g n = u0 n + x1 * u1 n + x2 * u2 n + x3 * u3 n + x4 * u4 n + x5 * u5 n + x6 * u6 n) ->
  forall n, M g n = M u0 n + x1 * M u1 n + x2 * M u2 n + x3 * M u3 n + x4 * M u4 n + x5 * M u5 n + x6 * M u6 n.
Proof.
  intros g u0 u1 u2 u3 u4 u5 u6 x1 x2 x3 x4 x5 x6 Hg n. cbv beta.
  rewrite (rsum_ext N _ (fun i => A n i * u0 i + A n i * u1 i * x1 + A n i * u2 i * x2 + A n i * u3 i * x3 + A n i * u4 i * x4 + A n i * u5 i * x5 + A n i * u6 i * x6))
    by (intros i _; rewrite Hg; ring).
  rewrite !rsum_plus, !rsum_scal. ring.
Qed.

Lemma linear_stages : forall y T h n, let a := inner_step f T h y (f T y) in
  a_k3 a n = power N A y 1 n + 3/10*h * power N A y 2 n + 9/200*h^2 * power N A y 3 n /\
  a_k4 a n = power N A y 1 n + 4/5*h * power N A y 2 n + 8/25*h^2 * power N A y 3 n + 4/25*h^3 * power N A y 4 n /\
  a_k5 a n = power N A y 1 n + 8/9*h * power N A y 2 n + 32/81*h^2 * power N A y 3 n + 424/1215*h^3 * power N A y 4 n + -848/18225*h^4 * power N A y 5 n /\
  a_k6 a n = power N A y 1 n + h * power N A y 2 n + h^2/2 * power N A y 3 n + 21/55*h^3 * power N A y 4 n + -14/275*h^4 * power N A y 5 n + 7/550*h^5 * power N A y 6 n.
Proof.
  intros y T h n. unfold inner_step. cbn [a_k3 a_k4 a_k5 a_k6]. cbv zeta. cbn [a_k3 a_k4 a_k5 a_k6].
  set (k2 := linear_system N A (T + c2 * h) _). set (k3 := linear_system N A (T + c3 * h) _). set (k4 := linear_system N A (T + c4 * h) _).
  set (k5 := linear_system N A (T + c5 * h) _). set (k6 := linear_system N A (T + h) _).
  assert (K1 : forall n, linear_system N A T y n = power N A y 1 n) by reflexivity.
  assert (K2 : forall n, k2 n = power N A y 1 n + h/5 * power N A y 2 n).
  { intro m. unfold k2, linear_system at 1. rewrite (image N A _ y (power N A y 1) (power N A y 2) (power N A y 3) (power N A y 4) (power N A y 5) (h/5) 0 0 0 0).
    - rewrite !power_S. cbn [power]. ring.
    - intro i. rewrite K1. unfold a21. field. }
  clearbody k2.
  assert (K3 : forall n, k3 n = power N A y 1 n + 3/10*h * power N A y 2 n + 9/200*h^2 * power N A y 3 n).
  { intro m. unfold k3, linear_system at 1. rewrite (image N A _ y (power N A y 1) (power N A y 2) (power N A y 3) (power N A y 4) (power N A y 5) (3/10*h) (9/200*h^2) 0 0 0).
    - rewrite !power_S. cbn [power]. ring.
    - intro i. rewrite K1, K2. unfold a31, a32. field. }
  clearbody k3.
  assert (K4 : forall n, k4 n = power N A y 1 n + 4/5*h * power N A y 2 n + 8/25*h^2 * power N A y 3 n + 4/25*h^3 * power N A y 4 n).
  { intro m. unfold k4, linear_system at 1. rewrite (image N A _ y (power N A y 1) (power N A y 2) (power N A y 3) (power N A y 4) (power N A y 5) (4/5*h) (8/25*h^2) (4/25*h^3) 0 0).
    - rewrite !power_S. cbn [power]. ring.
    - intro i. rewrite K1, K2, K3. unfold a41, a42, a43. field. }
  clearbody k4.
  assert (K5 : forall n, k5 n = power N A y 1 n + 8/9*h * power N A y 2 n + 32/81*h^2 * power N A y 3 n + 424/1215*h^3 * power N A y 4 n + -848/18225*h^4 * power N A y 5 n).
  { intro m. unfold k5, linear_system at 1. rewrite (image N A _ y (power N A y 1) (power N A y 2) (power N A y 3) (power N A y 4) (power N A y 5) (8/9*h) (32/81*h^2) (424/1215*h^3) (-848/18225*h^4) 0).
    - rewrite !power_S. cbn [power]. ring.
    - intro i. rewrite K1, K2, K3, K4. unfold a51, a52, a53, a54. field. }
  clearbody k5.
  assert (K6 : forall n, k6 n = power N A y 1 n + h * power N A y 2 n + h^2/2 * power N A y 3 n + 21/55*h^3 * power N A y 4 n + -14/275*h^4 * power N A y 5 n + 7/550*h^5 * power N A y 6 n).
  { intro m. unfold k6, linear_system at 1. rewrite (image N A _ y (power N A y 1) (power N A y 2) (power N A y 3) (power N A y 4) (power N A y 5) h (h^2/2) (21/55*h^3) (-14/275*h^4) (7/550*h^5)).
    - rewrite !power_S. cbn [power]. ring.
    - intro i. rewrite K1, K2, K3, K4, K5. unfold a61, a62, a63, a64, a65. field. }
  split; [apply K3|split; [apply K4|split; [apply K5|apply K6]]].
Qed.

Lemma linear_dense : forall y t h yp y' yp' T, 0 < h ->
  (forall j, (j < N)%nat -> yp j = f t y j) -> (forall j, (j < N)%nat -> y' j = a_yout (inner_step f t h y yp) j) ->
  (forall j, (j < N)%nat -> yp' j = f (t + h) y' j) ->
  forall j, (j < N)%nat -> interpolant f (t, y, yp) (t + h, y', yp') j T = dense_series y h ((T - t) / h) j.
Proof.
  intros y t h yp y' yp' T Hh Hyp Hy' Hyp' j Hj.
  assert (X : forall n, (n < N)%nat -> y' n = a_yout (inner_step f t h y (f t y)) n).
  { intros n Hn. rewrite (Hy' n Hn). destruct (inner_step_ext N f t h y y yp (f t y) (linear_reads N A) (fun _ _ => eq_refl) Hyp n Hn) as (Q & _). exact Q. }
  destruct (inner_step_ext N f t h y y yp (f t y) (linear_reads N A) (fun _ _ => eq_refl) Hyp j Hj) as (_ & _ & E3 & E4 & E5 & E6).
  destruct (linear_stages y t h j) as (K3 & K4 & K5 & K6). cbv zeta in K3, K4, K5, K6.
  assert (E7 : yp' j = power N A y 1 j + h * power N A y 2 j + h^2/2 * power N A y 3 j + h^3/6 * power N A y 4 j + h^4/24 * power N A y 5 j + h^5/120 * power N A y 6 j + h^6/600 * power N A y 7 j).
  { rewrite (Hyp' j Hj). rewrite (linear_reads N A (t + h) y' _ X j Hj). unfold linear_system at 1.
    rewrite (image6 _ (power N A y 0) (power N A y 1) (power N A y 2) (power N A y 3) (power N A y 4) (power N A y 5) (power N A y 6) h (h^2/2) (h^3/6) (h^4/24) (h^5/120) (h^6/600) (linear_step N A y t h) j).
    rewrite <- !power_S. reflexivity. }
  assert (E1 : yp j = power N A y 1 j) by (rewrite (Hyp j Hj); reflexivity).
  unfold interpolant. replace (t + h - t) with h by ring. rewrite E3, E4, E5, E6, K3, K4, K5, K6, E7, E1, (X j Hj), linear_step.
  change (y j) with (power N A y 0 j). unfold dense_series, w5, w6, w7, d1, d3, d4, d5, d6, d7.
  set (th := (T - t) / h).
  generalize (power N A y 0 j) (power N A y 1 j) (power N A y 2 j) (power N A y 3 j) (power N A y 4 j) (power N A y 5 j) (power N A y 6 j) (power N A y 7 j).
  intros. field.
Qed.

Variable L : R.
Hypothesis HL : 0 <= L.
Hypothesis HA : rows_at_most N A L.

Lemma power_minus : forall u v k n, power N A u k n - power N A v k n = power N A (fun j => u j - v j) k n.
Proof.
  intros u v. induction k as [|k IH]; intro n; [reflexivity|]. rewrite !power_S, rsum_minus. apply rsum_ext. intros i _. rewrite <- IH. ring.
Qed.

Lemma series_term : forall y h c e D k j, 0 <= h -> 0 <= D -> (forall i, (i < N)%nat -> Rabs (y i) <= D) -> (j < N)%nat -> Rabs c <= e ->
  Rabs (h ^ k * c * power N A y k j) <= e * ((L * h) ^ k * D).
Proof.
  intros y h c e D k j Hh HD Hy Hj Hc. pose proof (power_bound N A L HL HA y D HD Hy k j Hj) as Q.
  replace (e * ((L * h) ^ k * D)) with (h ^ k * e * (L ^ k * D)) by (rewrite Rpow_mult_distr; ring).
  apply abs_mul_le; [|exact Q]. rewrite Rabs_mult, Rabs_pos_eq by (apply pow_le; exact Hh). apply Rmult_le_compat_l; [apply pow_le; exact Hh|exact Hc].
Qed.

(** The interpolant depends on the point of departure continuously. *)
Lemma series_stable : forall u v h th D, 0 <= h -> 50 * L * h <= 1 -> 0 <= th <= 1 -> close N D u v -> close N (2 * D) (dense_series u h th) (dense_series v h th).
Proof.
  intros u v h th D Hh Hsm Hth Hc j Hj. pose proof (close_pos N D u v HN Hc) as HD. unfold dense_series.
  assert (P : forall k, th ^ k <= 1 /\ 0 <= th ^ k).
  { intro k. split; [|apply pow_le; lra]. rewrite <- (pow1 k). apply pow_incr. lra. }
  set (z := fun i => u i - v i). assert (Hz : forall i, (i < N)%nat -> Rabs (z i) <= D) by exact Hc.
  destruct (w_bounds th Hth) as (W5 & W6 & W7).
  match goal with |- Rabs ?e <= _ => replace e with (z j + h^1 * th * power N A z 1 j + h^2 * (th^2/2) * power N A z 2 j + h^3 * (th^3/6) * power N A z 3 j + h^4 * (th^4/24) * power N A z 4 j
    + h^5 * w5 th * power N A z 5 j + h^6 * w6 th * power N A z 6 j + h^7 * w7 th * power N A z 7 j) end.
  2: { change (z j) with (power N A z 0 j). unfold z. rewrite <- !power_minus.
       generalize (power N A u 0 j) (power N A u 1 j) (power N A u 2 j) (power N A u 3 j) (power N A u 4 j) (power N A u 5 j) (power N A u 6 j) (power N A u 7 j).
       generalize (power N A v 0 j) (power N A v 1 j) (power N A v 2 j) (power N A v 3 j) (power N A v 4 j) (power N A v 5 j) (power N A v 6 j) (power N A v 7 j). intros. field. }
  assert (Q : Rabs (z j + h^1 * th * power N A z 1 j + h^2 * (th^2/2) * power N A z 2 j + h^3 * (th^3/6) * power N A z 3 j + h^4 * (th^4/24) * power N A z 4 j
    + h^5 * w5 th * power N A z 5 j + h^6 * w6 th * power N A z 6 j + h^7 * w7 th * power N A z 7 j) <=
    D + 1 * ((L * h)^1 * D) + 1 * ((L * h)^2 * D) + 1 * ((L * h)^3 * D) + 1 * ((L * h)^4 * D) + 1 * ((L * h)^5 * D) + 1 * ((L * h)^6 * D) + 1 * ((L * h)^7 * D)).
  { repeat apply abs_add_le; try (apply series_term; try assumption); [exact (Hz j Hj)|..]; try lra; rewrite ?Rabs_pos_eq;
      pose proof (P 2%nat); pose proof (P 3%nat); pose proof (P 4%nat); lra. }
  eapply Rle_trans; [exact Q|]. clear Q.
  assert (Hx : 0 <= L * h <= 1 / 50) by (split; [apply Rmult_le_pos; assumption|lra]).
  assert (Hk : forall k, (L * h) ^ S k * D <= 1 / 50 * D).
  { intro k. apply Rmult_le_compat_r; [exact HD|]. cbn [pow]. assert ((L * h) ^ k <= 1) by (rewrite <- (pow1 k); apply pow_incr; lra).
    pose proof (pow_le (L * h) k ltac:(lra)). nra. }
  pose proof (Hk 0%nat). pose proof (Hk 1%nat). pose proof (Hk 2%nat). pose proof (Hk 3%nat). pose proof (Hk 4%nat). pose proof (Hk 5%nat). pose proof (Hk 6%nat). lra.
Qed.

Variable Tend : R.
Variable Y : R -> vec.
Hypothesis HY : solves N Tend f Y.
Variable B : R.
Hypothesis HB : size_at_most N Tend B Y.

(** On the solution itself the interpolant is accurate to fifth order. *)
Lemma series_accurate : forall t h th, 0 <= t -> 0 < h -> t + h <= Tend -> 50 * L * h <= 1 -> 0 <= th <= 1 ->
  close N (2 * (L * h) ^ 5 * B) (dense_series (Y t) h th) (Y (t + h * th)).
Proof.
  intros t h th Ht Hh Hend Hsm Hth j Hj.
  assert (Hs : 0 <= h * th <= h) by nra.
  pose proof (taylor_remainder N HN A L HL HA Tend Y HY B HB t ltac:(lra) 4 (h * th) ltac:(lra) ltac:(lra) j Hj) as Q.
  assert (B0 : 0 <= B) by (pose proof (HB t 0%nat ltac:(lra) ltac:(lia)); pose proof (Rabs_pos (Y t 0%nat)); lra).
  destruct (w_bounds th Hth) as (W5 & W6 & W7).
  assert (Hy : forall i, (i < N)%nat -> Rabs (Y t i) <= B) by (intros i Hi; apply HB; [lra|exact Hi]).
  pose proof (series_term (Y t) h (w5 th) (1/10) B 5 j ltac:(lra) B0 Hy Hj W5) as S5.
  pose proof (series_term (Y t) h (w6 th) (1/10) B 6 j ltac:(lra) B0 Hy Hj W6) as S6.
  pose proof (series_term (Y t) h (w7 th) (1/10) B 7 j ltac:(lra) B0 Hy Hj W7) as S7.
  assert (Hx : 0 <= L * h <= 1 / 50) by (split; [apply Rmult_le_pos; lra|lra]).
  set (z5 := (L * h) ^ 5 * B) in *. assert (Z5 : 0 <= z5) by (unfold z5; apply Rmult_le_pos; [apply pow_le; lra|exact B0]).
  assert (Z6 : (L * h) ^ 6 * B <= z5) by (replace ((L * h) ^ 6 * B) with (L * h * z5) by (unfold z5; ring); nra).
  assert (Z7 : (L * h) ^ 7 * B <= z5) by (replace ((L * h) ^ 7 * B) with (L * h * (L * h) * z5) by (unfold z5; ring); assert (0 <= L * h * (L * h) <= 1) by nra; nra).
  assert (Zs : (L * (h * th)) ^ 5 * B <= z5).
  { unfold z5. apply Rmult_le_compat_r; [exact B0|]. apply pow_incr. split; [apply Rmult_le_pos; lra|apply Rmult_le_compat_l; lra]. }
  assert (E : taylor N A (Y t) 4 (h * th) j = power N A (Y t) 0 j + (h * th) * power N A (Y t) 1 j + (h * th)^2/2 * power N A (Y t) 2 j + (h * th)^3/6 * power N A (Y t) 3 j + (h * th)^4/24 * power N A (Y t) 4 j).
  { cbn [taylor]. change (fact 1) with 1%nat. change (fact 2) with 2%nat. change (fact 3) with 6%nat. change (fact 4) with 24%nat.
    rewrite !INR_IZR_INZ. cbn [Z.of_nat Pos.of_succ_nat Pos.succ].
    set (q1 := power N A (Y t) 1 j). set (q2 := power N A (Y t) 2 j). set (q3 := power N A (Y t) 3 j). set (q4 := power N A (Y t) 4 j).
    cbn [power]. field. }
  unfold dense_series. rewrite <- E. set (x := taylor N A (Y t) 4 (h * th) j) in *.
  replace (x + h ^ 5 * w5 th * power N A (Y t) 5 j + h ^ 6 * w6 th * power N A (Y t) 6 j + h ^ 7 * w7 th * power N A (Y t) 7 j - Y (t + h * th) j)
    with (- (Y (t + h * th) j - x) + h ^ 5 * w5 th * power N A (Y t) 5 j + h ^ 6 * w6 th * power N A (Y t) 6 j + h ^ 7 * w7 th * power N A (Y t) 7 j) by ring.
  rewrite <- Rabs_Ropp in Q.
  pose proof (abs_add_le _ _ _ _ (abs_add_le _ _ _ _ (abs_add_le _ _ _ _ Q S5) S6) S7) as X.
  eapply Rle_trans; [exact X|]. replace (2 * (L * h) ^ 5 * B) with (2 * z5) by (unfold z5; ring). lra.
Qed.
End LinearDense.

Lemma history_linear_dense : forall N A L Tend Y B H delta l, (1 <= N)%nat -> 0 <= L -> rows_at_most N A L -> solves N Tend (linear_system N A) Y ->
  size_at_most N Tend B Y -> 0 <= Tend -> 0 <= H -> 50 * L * H <= 1 -> trajectory N (linear_system N A) l -> steps_at_most Tend H l -> starts_near N delta Y l ->
  forall i p q T, nth_error l i = Some p -> nth_error l (S i) = Some q -> time_of p <= T <= time_of q -> time_of q <= Tend ->
  close N (2 * linear_error L B H delta T + 2 * (L * H) ^ 5 * B) (fun j => interpolant (linear_system N A) p q j T) (Y T).
Proof.
  intros N A L Tend Y B H delta l HN HL HA HY HB HTe H0 HH Ht Hst Hd i ((t, y), yp) ((t', y'), yp') T Ep Eq HT Hle j Hj.
  unfold time_of in HT, Hle. cbn [fst] in HT, Hle.
  pose proof (history_linear N A L Tend Y B H delta l HN HL HA HY HB HTe H0 HH Ht Hst Hd i t y yp Ep ltac:(lra)) as Hc.
  assert (Hp : 0 <= t).
  { destruct (traj_start_zero N _ l Ht) as (y0 & yp0 & l' & ->). destruct i as [|i]; [injection Ep as <- _ _; lra|].
    pose proof (traj_increasing N _ _ Ht 0 (S i) (0, y0, yp0) (t, y, yp) ltac:(lia) eq_refl Ep) as Q. unfold time_of in Q. cbn [fst] in Q. lra. }
  destruct (traj_consecutive N (linear_system N A) l Ht i t y yp t' y' yp' Ep Eq) as (Hlt & Hy).
  pose proof (Hst i _ _ Ep Eq Hle) as Hstep. unfold time_of in Hstep. cbn [fst] in Hstep.
  pose proof (traj_derivative N (linear_system N A) l Ht t y yp (nth_error_In _ _ Ep)) as Hder.
  pose proof (traj_derivative N (linear_system N A) l Ht t' y' yp' (nth_error_In _ _ Eq)) as Hder'.
  remember (t' - t) as h eqn:Eh. assert (Et : t' = t + h) by lra. subst t'. assert (Hh : 0 < h) by lra.
  assert (Hsm : 50 * L * h <= 1) by nra.
  assert (B0 : 0 <= B) by (pose proof (HB t 0%nat ltac:(lra) ltac:(lia)); pose proof (Rabs_pos (Y t 0%nat)); lra).
  cbv beta. match goal with |- Rabs (?x - _) <= _ => replace x with (dense_series N A y h ((T - t) / h) j) by (symmetry; exact (linear_dense N A y t h yp y' yp' T Hh Hder Hy Hder' j Hj)) end.
  assert (Hth : 0 <= (T - t) / h <= 1).
  { split; [apply Rmult_le_pos; [lra|apply Rlt_le, Rinv_0_lt_compat; exact Hh]|].
    apply (Rmult_le_reg_r h); [exact Hh|]. unfold Rdiv. rewrite Rmult_assoc, Rinv_l by lra. lra. }
  pose proof (series_stable N HN A L HL HA y (Y t) h _ _ ltac:(lra) Hsm Hth Hc j Hj) as X1.
  pose proof (series_accurate N HN A L HL HA Tend Y HY B HB t h _ Hp Hh ltac:(lra) Hsm Hth j Hj) as X2.
  replace (t + h * ((T - t) / h)) with T in X2 by (field; lra).
  set (x := dense_series N A y h ((T - t) / h) j) in *. set (x0 := dense_series N A (Y t) h ((T - t) / h) j) in *.
  replace (x - Y T j) with ((x - x0) + (x0 - Y T j)) by ring.
  eapply Rle_trans; [exact (abs_add_le _ _ _ _ X1 X2)|].
  assert (Mono : linear_error L B H delta t <= linear_error L B H delta T).
  { pose proof (close_pos N _ _ _ HN Hc) as HD. unfold linear_error in *. set (c := 2 * L * (L * H) ^ 5 * B) in *.
    assert (CH : 0 <= c) by (unfold c; apply Rmult_le_pos; [|exact B0]; apply Rmult_le_pos; [lra|apply pow_le; nra]).
    assert (Hexp : exp (4 * L * t) <= exp (4 * L * T)).
    { destruct (Req_dec (4 * L * t) (4 * L * T)) as [->|Ne]; [lra|]. apply Rlt_le, exp_increasing. assert (4 * L * t <= 4 * L * T) by nra. lra. }
    pose proof (exp_pos (4 * L * t)) as Pe.
    assert (0 <= delta + c * t) by (apply (Rmult_le_reg_r (exp (4 * L * t))); [exact Pe|rewrite Rmult_0_l; exact HD]).
    assert (c * t <= c * T) by (apply Rmult_le_compat_l; lra).
    apply Rmult_le_compat; lra. }
  assert (P5 : 2 * (L * h) ^ 5 * B <= 2 * (L * H) ^ 5 * B).
  { apply Rmult_le_compat_r; [exact B0|]. apply Rmult_le_compat_l; [lra|]. apply pow_incr. split; [apply Rmult_le_pos; lra|apply Rmult_le_compat_l; lra]. }
  lra.
Qed.
