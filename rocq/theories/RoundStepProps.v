(** The integrator in double precision (C121). *)
From Coq Require Import Reals List ZArith Lia Lra.
From Flocq Require Import Core.
From Verif Require Import Base AlgebraModel IntegratorModel IntegratorSpec ConvergeSpec ConvergeProofs RoundSpec RoundProofs AlgebraRoundSpec AlgebraRoundProofs RoundStepModel RoundStepSpec RoundStepProofs.
Import ListNotations.
Local Open Scope R_scope.

(** Without rounding the step is the step of the other properties, and the points form a
    history of the integrator. *)
Theorem C121_exact : forall f,
  (forall T h y dydx, r_inner_step (fun x => x) f T h y dydx = inner_step f T h y dydx) /\
  forall N y0 hs, Forall (fun h => 0 < h) hs ->
    let (p, l) := r_points (fun x => x) f y0 hs in trajectory N f (rev (p :: l)).
Proof.
  intro f. split; [reflexivity|]. intros N y0 hs. induction hs as [|h hs IH]; intro Hhs.
  - cbn [r_points rev app]. apply traj_start. reflexivity.
  - specialize (IH (Forall_inv_tail Hhs)). pose proof (Forall_inv Hhs) as Hh. cbv beta in Hh. cbn [r_points].
    destruct (r_points (fun x => x) f y0 hs) as (((t, y), yp), l).
    change (rev (?a :: ?b :: l)) with ((rev l ++ [b]) ++ [a]).
    cbn [rev] in IH |- *. rewrite <- app_assoc. cbn [app]. apply traj_step; [exact IH|exact Hh|reflexivity|reflexivity].
Qed.
Print Assumptions C121_exact.

(** One step ends near the exact step from the same point. *)
Theorem C121_step : forall rnd u eta N f rf Tend L phi Bs T h y yp B G, accurate rnd u eta -> u <= 1 / 100000 -> (1 <= N)%nat -> 0 <= L ->
  lipschitz N Tend L f -> near_rhs N Tend Bs phi f rf -> 0 <= T -> 0 < h -> (T + h) * (1 + 10 * u) <= Tend -> 50 * L * h <= 1 -> eta <= u * h -> eta <= u ->
  (forall j, (j < N)%nat -> Rabs (y j) <= B) -> (forall j, (j < N)%nat -> Rabs (f T y j) <= G) -> close N phi yp (f T y) ->
  u * (T + 9 * B) <= 1 / 10 -> B + 1 + 60 * h * (G + 1) + 80 * h * phi <= Bs ->
  close N (step_rounding u phi B G T h) (a_yout (r_inner_step rnd rf T h y yp)) (a_yout (inner_step f T h y (f T y))).
Proof. exact rounded_step_near. Qed.
Print Assumptions C121_step.

(** Every stored point is near the solution. *)
Theorem C121_error : forall rnd u eta N f rf Tend L phi Bs F B Y H hmin delta y0,
  accurate rnd u eta -> u <= 1 / 100000 -> (1 <= N)%nat -> 0 <= L -> lipschitz N Tend L f -> 0 <= phi -> near_rhs N Tend Bs phi f rf ->
  solves N Tend f Y -> speed_at_most N Tend F f Y -> size_at_most N Tend B Y ->
  0 < hmin -> 0 <= H -> 50 * L * H <= 1 -> eta <= u * hmin -> eta <= u -> 0 <= Tend -> 4 * u * Tend <= hmin ->
  u * (Tend + 9 * (B + 1)) <= 1 / 10 -> B + 2 + 60 * H * (F + L + 1) + 80 * H * phi <= Bs ->
  close N delta y0 (Y 0) ->
  let bound := rounded_error u phi L F B Tend hmin (L * (5 + 101 * F) * H) delta in
  bound Tend <= 1 ->
  forall hs, Forall (fun h => hmin <= h <= H) hs -> forall p l, r_points rnd rf y0 hs = (p, l) -> time_of p * (1 + 20 * u) <= Tend ->
  forall t y yp, In (t, y, yp) (p :: l) -> 0 <= t <= Tend /\ close N (bound t) y (Y t).
Proof.
  intros rnd u eta N f rf Tend L phi Bs F B Y H hmin delta y0 Hrnd Hu HN HL Hlip P0 Hrf HY HF HB Hm H0 HH Hem Heu HTe HuT HuB HBs Hd bound Hb hs Hhs ((t0, y1), yp1) l E Hend t y yp Hin.
  assert (F0 : 0 <= F) by (pose proof (HF 0 0%nat ltac:(lra) ltac:(lia)); pose proof (Rabs_pos (f 0 (Y 0) 0%nat)); lra).
  assert (LF : 0 <= L * (5 + 101 * F)) by (apply Rmult_le_pos; lra).
  unfold time_of in Hend. cbn [fst] in Hend.
  destruct (rounded_history rnd u eta N f rf Tend L phi Bs F B Y H hmin (L * (5 + 101 * F) * H) delta y0) with (hs := hs) (t := t0) (y := y1) (yp := yp1) (l := l) as (X1 & X2); try assumption.
  - apply Rmult_le_pos; assumption.
  - intros s h Hs Hh Hle. assert (50 * L * h <= 50 * L * H) by (apply Rmult_le_compat_l; lra).
    apply (close_weaken N _ _ _ _ (step_accurate N HN f Tend L HL Hlip s h Hs ltac:(lra) Hle ltac:(lra) Y F HY HF)).
    apply Rmult_le_compat_r; [lra|]. apply Rmult_le_compat_l; lra.
  - destruct (X2 Hend) as (Y1 & Y2). destruct Hin as [Q|Q].
    + injection Q as Q1 Q2 Q3. subst t0 y1 yp1. split; [|exact Y1]. pose proof (proj1 Hrnd). assert (0 <= t * (20 * u)) by (apply Rmult_le_pos; lra). lra.
    + exact (Y2 t y yp Q).
Qed.
Print Assumptions C121_error.

(** For linear systems the part of the error that is not due to rounding is of fifth order. *)
Theorem C121_linear : forall rnd u eta N A rf Tend L phi Bs B Y H hmin delta y0,
  accurate rnd u eta -> u <= 1 / 100000 -> (1 <= N)%nat -> 0 <= L -> rows_at_most N A L -> 0 <= phi -> near_rhs N Tend Bs phi (linear_system N A) rf ->
  solves N Tend (linear_system N A) Y -> size_at_most N Tend B Y ->
  0 < hmin -> 0 <= H -> 50 * L * H <= 1 -> eta <= u * hmin -> eta <= u -> 0 <= Tend -> 4 * u * Tend <= hmin ->
  u * (Tend + 9 * (B + 1)) <= 1 / 10 -> B + 2 + 60 * H * (L * B + L + 1) + 80 * H * phi <= Bs ->
  close N delta y0 (Y 0) ->
  let bound := rounded_error u phi L (L * B) B Tend hmin (2 * L * (L * H) ^ 5 * B) delta in
  bound Tend <= 1 ->
  forall hs, Forall (fun h => hmin <= h <= H) hs -> forall p l, r_points rnd rf y0 hs = (p, l) -> time_of p * (1 + 20 * u) <= Tend ->
  forall t y yp, In (t, y, yp) (p :: l) -> 0 <= t <= Tend /\ close N (bound t) y (Y t).
Proof.
  intros rnd u eta N A rf Tend L phi Bs B Y H hmin delta y0 Hrnd Hu HN HL HA P0 Hrf HY HB Hm H0 HH Hem Heu HTe HuT HuB HBs Hd bound Hb hs Hhs ((t0, y1), yp1) l E Hend t y yp Hin.
  assert (B0 : 0 <= B) by (pose proof (HB 0 0%nat ltac:(lra) ltac:(lia)); pose proof (Rabs_pos (Y 0 0%nat)); lra).
  assert (LH : 0 <= L * H) by (apply Rmult_le_pos; assumption).
  assert (LF : 0 <= 2 * L * (L * H) ^ 5) by (apply Rmult_le_pos; [lra|apply pow_le; exact LH]).
  unfold time_of in Hend. cbn [fst] in Hend.
  destruct (rounded_history rnd u eta N (linear_system N A) rf Tend L phi Bs (L * B) B Y H hmin (2 * L * (L * H) ^ 5 * B) delta y0) with (hs := hs) (t := t0) (y := y1) (yp := yp1) (l := l) as (X1 & X2); try assumption.
  - apply linear_lipschitz; assumption.
  - intros s j Hs Hj. unfold linear_system. apply (linear_bound N A L HA); [exact B0|intros i Hi; apply HB; assumption|exact Hj].
  - apply Rmult_le_pos; assumption.
  - intros s h Hs Hh Hle.
    apply (close_weaken N _ _ _ _ (linear_accurate N A L Tend Y B HN HL HA HY HB s h Hs ltac:(lra) Hle)).
    replace (2 * (L * h) ^ 6 * B) with (2 * L * (L * h) ^ 5 * B * h) by ring.
    apply Rmult_le_compat_r; [lra|]. apply Rmult_le_compat_r; [exact B0|]. apply Rmult_le_compat_l; [lra|].
    apply pow_incr. split; [apply Rmult_le_pos; lra|apply Rmult_le_compat_l; lra].
  - destruct (X2 Hend) as (Y1 & Y2). destruct Hin as [Q|Q].
    + injection Q as Q1 Q2 Q3. subst t0 y1 yp1. split; [|exact Y1]. pose proof (proj1 Hrnd). assert (0 <= t * (20 * u)) by (apply Rmult_le_pos; lra). lra.
    + exact (Y2 t y yp Q).
Qed.
Print Assumptions C121_linear.

(** Smaller steps are not always better: with steps of 2^-60 the solution 1 + t of y' = 1
    stays at its initial value for 2^53 steps, while the time advances. *)
Lemma stays_1 : forall x, Rabs x <= bpow radix2 (-55) -> b64 (1 + x) = 1.
Proof.
  intros x Hx. assert (V : Valid_exp (FLT_exp (-1074) 53)) by (apply FLT_exp_valid; reflexivity).
  pose proof (bpow_gt_0 radix2 (-55)) as P.
  assert (E53 : bpow radix2 (-53) = 4 * bpow radix2 (-55)) by (change (-53)%Z with (2 + -55)%Z; rewrite bpow_plus; change (bpow radix2 2) with 4; ring).
  assert (F1 : generic_format radix2 (FLT_exp (-1074) 53) 1) by (apply fmt_of; exact b64_1).
  apply Rcomplements.Rabs_le_between in Hx.
  apply Rle_antisym.
  - apply round_N_le_midp; [exact V|exact F1|]. rewrite succ_eq_pos by lra.
    assert (U1 : ulp radix2 (FLT_exp (-1074) 53) 1 = 2 * bpow radix2 (-53)).
    { change 1 with (bpow radix2 0). rewrite ulp_bpow. change (FLT_exp (-1074) 53 (0 + 1)) with (1 + -53)%Z. rewrite bpow_plus. reflexivity. }
    rewrite U1. lra.
  - apply round_N_ge_midp; [exact V|exact F1|]. 
    assert (U1 : pred radix2 (FLT_exp (-1074) 53) 1 = 1 - bpow radix2 (-53)).
    { change 1 with (bpow radix2 0). rewrite pred_bpow. reflexivity. }
    rewrite U1. lra.
Qed.
Lemma term_small : forall a, Rabs a <= 1 -> Rabs (r_term b64 (bpow radix2 (-60)) a 1) <= bpow radix2 (-55).
Proof.
  intros a Ha. unfold r_term. rewrite Rmult_1_r, b64_idem.
  assert (A : Rabs (b64 a) <= 1).
  { apply Rcomplements.Rabs_le_between in Ha. apply Rabs_le. split.
    - assert (M : b64 (-1) = -1) by (apply (b64_int (-1)%Z); vm_compute; first [reflexivity|discriminate]).
      replace (- (1)) with (-1) by ring. rewrite <- M. apply b64_le. lra.
    - rewrite <- b64_1. apply b64_le. lra. }
  pose proof (bpow_gt_0 radix2 (-60)) as P. apply Rle_trans with (bpow radix2 (-60)); [|apply bpow_le; lia].
  apply Rcomplements.Rabs_le_between in A. apply Rabs_le. split.
  - assert (E : b64 (-1 * bpow radix2 (-60)) = -1 * bpow radix2 (-60)) by (apply (b64_float (-1) (-60)); [vm_compute; reflexivity|lia]).
    replace (- bpow radix2 (-60)) with (-1 * bpow radix2 (-60)) by ring. rewrite <- E. apply b64_le. rewrite (Rmult_comm (bpow radix2 (-60))). apply Rmult_le_compat_r; lra.
  - rewrite <- (b64_bpow (-60)) at 2 by lia. apply b64_le. replace (bpow radix2 (-60)) with (bpow radix2 (-60) * 1) at 2 by ring. apply Rmult_le_compat_l; lra.
Qed.
Theorem C121_tiny_steps_refuted : forall n, (Z.of_nat n < 2 ^ 53)%Z ->
  exists y yp l, r_points b64 (fun _ _ _ => 1) (fun _ => 1) (repeat (bpow radix2 (-60)) n) = ((INR n * bpow radix2 (-60), y, yp), l) /\ forall j, y j = 1.
Proof.
  intro n. induction n as [|n IH]; intro Hn.
  - exists (fun _ => 1), (fun _ => 1), []. cbn [repeat r_points INR]. rewrite Rmult_0_l. split; reflexivity.
  - destruct (IH ltac:(lia)) as (y & yp & l & E & Ey). cbn [repeat].
    pose proof (points_derivative b64 (fun _ _ _ => 1) (fun _ => 1) (repeat (bpow radix2 (-60)) n)) as Hd.
    cbn [r_points]. rewrite E in Hd |- *. subst yp.
    eexists _, _, _. split; [|].
    + f_equal. f_equal. f_equal. rewrite S_INR. replace (INR n * bpow radix2 (-60) + bpow radix2 (-60)) with (IZR (Z.of_nat (S n)) * bpow radix2 (-60)) by (rewrite <- INR_IZR_INZ, S_INR; ring).
      rewrite b64_float by lia. rewrite <- INR_IZR_INZ, S_INR. reflexivity.
    + intro j. unfold r_inner_step. cbn [a_yout r_sum]. rewrite Ey.
      assert (S : forall a, Rabs a <= 1 -> b64 (1 + r_term b64 (bpow radix2 (-60)) a 1) = 1) by (intros a Ha; apply stays_1, term_small, Ha).
      rewrite !S; [reflexivity|..]; unfold a71, a73, a74, a75, a76; apply Rabs_le; lra.
Qed.
Print Assumptions C121_tiny_steps_refuted.

(** y' = y/100 with y(0) = 1 in double precision, one step of size 1. *)
Lemma u64_tiny : 0 < u64 <= 1 / 100000.
Proof.
  split; [apply bpow_gt_0|]. apply Rle_trans with (bpow radix2 (-17)); [apply bpow_le; lia|].
  change (bpow radix2 (-17)) with (/ IZR (Z.pow_pos 2 17)). change (Z.pow_pos 2 17) with 131072%Z. lra.
Qed.
Example C121_example : let A := fun _ _ : nat => 1/100 in let f := linear_system 1 A in let rf := fun (_ : R) (y : vec) (_ : nat) => b64 (1/100 * y 0%nat) in
  let Y := fun (t : R) (_ : nat) => exp (t / 100) in
  accurate b64 u64 eta64 /\ u64 <= 1 / 100000 /\ rows_at_most 1 A (1/100) /\ lipschitz 1 (3/2) (1/100) f /\ near_rhs 1 (3/2) 70 (1/1000) f rf /\
  solves 1 (3/2) f Y /\ speed_at_most 1 (3/2) (3/100) f Y /\ size_at_most 1 (3/2) 3 Y /\
  eta64 <= u64 * 1 /\ 4 * u64 * (3/2) <= 1 /\ u64 * (3/2 + 9 * (3 + 1)) <= 1 / 10 /\ 3 + 2 + 60 * 1 * (3/100 + 1/100 + 1) + 80 * 1 * (1/1000) <= 70 /\
  close 1 0 (fun _ => 1) (Y 0) /\ rounded_error u64 (1/1000) (1/100) (3/100) 3 (3/2) 1 (1/100 * (5 + 101 * (3/100)) * 1) 0 (3/2) <= 1 /\
  exists y yp l, r_points b64 rf (fun _ => 1) [1] = ((1, y, yp), l) /\ 1 * (1 + 20 * u64) <= 3/2.
Proof.
  pose proof u64_tiny as U. cbv zeta.
  assert (HA : rows_at_most 1 (fun _ _ : nat => 1/100) (1/100)).
  { intros j _. unfold rsum. cbn [seq map fold_right]. rewrite Rabs_pos_eq by lra. lra. }
  assert (Eu : eta64 <= u64) by (apply bpow_le; lia).
  assert (Ex : forall t, 0 <= t <= 3/2 -> 0 < exp (t / 100) <= 3).
  { intros t Ht. split; [apply exp_pos|]. apply Rle_trans with (exp 1); [|exact exp_le_3]. apply Rlt_le, exp_increasing. lra. }
  assert (Ef : forall t (y : vec) j, linear_system 1 (fun _ _ => 1/100) t y j = 1/100 * y 0%nat).
  { intros t y j. unfold linear_system, rsum. cbn [seq map fold_right]. ring. }
  repeat match goal with |- _ /\ _ => split end.
  - exact b64_accurate.
  - lra.
  - exact HA.
  - apply linear_lipschitz; [lia|lra|exact HA].
  - intros t y Ht Hy j Hj. rewrite Ef. destruct (b64_accurate) as (_ & _ & Q). specialize (Q (1/100 * y 0%nat)).
    rewrite Rabs_mult, (Rabs_pos_eq (1/100)) in Q by lra. specialize (Hy 0%nat ltac:(lia)).
    assert (u64 * (1/100 * Rabs (y 0%nat)) <= 1/100000 * 1) by (apply Rmult_le_compat; [lra|pose proof (Rabs_pos (y 0%nat)); lra|lra|lra]). lra.
  - intros t j Ht Hj. rewrite Ef. replace (1/100 * exp (t / 100)) with (exp (t / 100) * (1 / 100)) by ring.
    apply (derivable_pt_lim_comp (fun s => s / 100) exp t); [|apply derivable_pt_lim_exp].
    replace (1 / 100) with (1 * / 100 + t * 0) by field.
    apply (derivable_pt_lim_mult id (fct_cte (/ 100)) t 1 0); [apply derivable_pt_lim_id|apply derivable_pt_lim_const].
  - intros t j Ht Hj. rewrite Ef. pose proof (Ex t Ht). rewrite Rabs_pos_eq by lra. lra.
  - intros t j Ht Hj. pose proof (Ex t Ht). rewrite Rabs_pos_eq by lra. lra.
  - lra.
  - lra.
  - lra.
  - lra.
  - intros j Hj. replace (0 / 100) with 0 by field. rewrite exp_0, Rminus_diag_eq, Rabs_R0 by reflexivity. lra.
  - unfold rounded_error, round_rate.
    assert (X : exp (8 * (1/100) * (3/2)) <= 3) by (apply Rle_trans with (exp 1); [apply Rlt_le, exp_increasing; lra|exact exp_le_3]).
    pose proof (exp_pos (8 * (1/100) * (3/2))) as X0.
    apply Rle_trans with (1/3 * 3); [|lra]. apply Rmult_le_compat; [|lra| |exact X]; lra.
  - eexists _, _, _. split; [|lra]. cbn [r_points]. rewrite Rplus_0_l, b64_1. reflexivity.
Qed.
