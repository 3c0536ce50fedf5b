(** Property C115: the integrator solves the differential equation. *)
From Coq Require Import ZArith Reals Lia Lra Psatz.
From Verif Require Import Base AlgebraModel IntegratorModel IntegratorSpec IntegratorProofs StepProofs DenseProofs TableauProofs IntegratorUse IntegratorProps ConvergeSpec ConvergeProofs.
Local Open Scope R_scope.

(** C115.  Whatever calls were made and whatever steps the step size control chose: if [f] is
    Lipschitz and the steps are at most [H], every stored point is near the solution [Y]. *)
Theorem C115_error : forall N f Tend L F Y H delta eps fuel tol y0 cs s, fits N cs -> reads_components N f ->
  0 <= L -> lipschitz N Tend L f -> solves N Tend f Y -> speed_at_most N Tend F f Y -> 50 * L * H <= 1 ->
  after N f eps fuel tol y0 cs s ->
  exists l, represents N (k_store s) l /\
    (steps_at_most Tend H l -> starts_near N delta Y l ->
     forall t y yp, In (t, y, yp) l -> t <= Tend -> close N (global_error L F H delta t) y (Y t)).
Proof.
  intros N f Tend L F Y H delta eps fuel tol y0 cs s Hfit Hf HL Hlip HY HF HH Ha.
  destruct (C36_history N f eps fuel tol y0 cs _ Hfit Hf Ha) as (s1 & l & E & R & Ht & _). injection E as E. subst s1.
  destruct Hfit as (HN & _). exists l. split; [exact R|]. intros Hst Hd t y yp Hin Hle.
  apply In_nth_error in Hin. destruct Hin as (i & Ei).
  exact (proj2 (history_converges N f Tend L F Y H delta l HN Hf HL Hlip HY HF HH Ht Hst Hd i t y yp Ei Hle)).
Qed.
Print Assumptions C115_error.

(** Dense output between the stored points is near the solution as well. *)
Theorem C115_dense : forall N f Tend L F Y H delta eps fuel tol y0 cs s, fits N cs -> reads_components N f -> (forall c, In c cs -> keeps_dense c) ->
  0 <= L -> lipschitz N Tend L f -> solves N Tend f Y -> speed_at_most N Tend F f Y -> 50 * L * H <= 1 ->
  after N f eps fuel tol y0 cs s ->
  exists l, represents N (k_store s) l /\
    (steps_at_most Tend H l -> starts_near N delta Y l ->
     forall k p q T, nth_error l k = Some p -> nth_error l (S k) = Some q -> time_of p < T <= time_of q -> time_of q <= Tend ->
     exists row, output_dense N s 0 [T] = Ok [row] /\ length row = N /\
       close N (2 * global_error L F H delta T + (11 * F + 1) * H) (fun j => nth j row 0) (Y T)).
Proof.
  intros N f Tend L F Y H delta eps fuel tol y0 cs s Hfit Hf Hk HL Hlip HY HF HH Ha.
  destruct (C38_value N f eps fuel tol y0 cs s Hfit Hf Hk Ha) as (l & R & Ht & X). destruct Hfit as (HN & _).
  exists l. split; [exact R|]. intros Hst Hd k p q T Ep Eq HT Hle.
  exists (interpolant_row N f p q T). split; [exact (X k p q T Ep Eq HT)|]. unfold interpolant_row. split; [rewrite map_length, seq_length; reflexivity|].
  intros j Hj. rewrite (nth_indep _ 0 (interpolant f p q N T)) by (rewrite map_length, seq_length; exact Hj).
  change (interpolant f p q N T) with ((fun j => interpolant f p q j T) N). rewrite map_nth, seq_nth by exact Hj. cbn [plus].
  exact (history_dense N f Tend L F Y H delta l HN Hf HL Hlip HY HF HH Ht Hst Hd k p q T Ep Eq ltac:(lra) Hle j Hj).
Qed.
Print Assumptions C115_dense.

(** Convergence: any accuracy is reached, at the stored points and in between, by every
    history with small enough steps that starts at the initial value of [Y]. *)
Theorem C115_converges : forall N f Tend L F Y e, (1 <= N)%nat -> reads_components N f -> 0 <= Tend ->
  0 <= L -> lipschitz N Tend L f -> solves N Tend f Y -> speed_at_most N Tend F f Y -> 0 < e ->
  exists H, 0 < H /\ forall eps fuel tol y0 cs s, fits N cs -> (forall c, In c cs -> keeps_dense c) -> after N f eps fuel tol y0 cs s ->
  exists l, represents N (k_store s) l /\
    (steps_at_most Tend H l -> starts_near N 0 Y l ->
     (forall t y yp, In (t, y, yp) l -> t <= Tend -> close N e y (Y t)) /\
     (forall k p q T, nth_error l k = Some p -> nth_error l (S k) = Some q -> time_of p < T <= time_of q -> time_of q <= Tend ->
      exists row, output_dense N s 0 [T] = Ok [row] /\ length row = N /\ close N e (fun j => nth j row 0) (Y T))).
Proof.
  intros N f Tend L F Y e HN Hf HT HL Hlip HY HF He.
  assert (F0 : 0 <= F) by (pose proof (HF 0 0%nat ltac:(lra) ltac:(lia)); pose proof (Rabs_pos (f 0 (Y 0) 0%nat)); lra).
  set (E := exp (4 * L * Tend)). assert (E0 : 0 < E) by apply exp_pos.
  set (c := L * (5 + 101 * F)). assert (C0 : 0 <= c) by (unfold c; nra).
  set (K := 50 * L + (2 * (c * Tend * E) + (11 * F + 1)) / e + 1).
  assert (CE : 0 <= c * Tend * E) by (apply Rmult_le_pos; [nra|lra]).
  assert (Q : 0 <= (2 * (c * Tend * E) + (11 * F + 1)) / e) by (apply Rmult_le_pos; [lra|apply Rlt_le, Rinv_0_lt_compat; exact He]).
  assert (K0 : 0 < K) by (unfold K; lra).
  assert (KI : 0 < / K) by (apply Rinv_0_lt_compat; exact K0).
  assert (B1 : 50 * L * / K <= 1).
  { apply (Rmult_le_reg_r K); [exact K0|]. rewrite Rmult_assoc, Rinv_l by lra. unfold K. lra. }
  assert (B2 : (2 * (c * Tend * E) + (11 * F + 1)) * / K <= e).
  { apply (Rmult_le_reg_r K); [exact K0|]. rewrite Rmult_assoc, Rinv_l by lra. rewrite Rmult_1_r.
    replace (2 * (c * Tend * E) + (11 * F + 1)) with (e * ((2 * (c * Tend * E) + (11 * F + 1)) / e)) at 1 by (field; lra).
    apply Rmult_le_compat_l; [lra|]. unfold K. lra. }
  exists (/ K). split; [exact KI|]. intros eps fuel tol y0 cs s Hfit Hk Ha.
  assert (G : forall t, 0 <= t <= Tend -> global_error L F (/ K) 0 t <= (c * Tend * E) * / K).
  { intros t Ht. unfold global_error. fold c. rewrite Rplus_0_l.
    assert (exp (4 * L * t) <= E).
    { unfold E. destruct (Req_dec (4 * L * t) (4 * L * Tend)) as [-> | Ne]; [lra|]. apply Rlt_le, exp_increasing. assert (4 * L * t <= 4 * L * Tend) by nra. lra. }
    replace (c * Tend * E * / K) with ((c * / K * Tend) * E) by ring.
    assert (0 <= c * / K) by nra. assert (0 <= c * / K * t) by (apply Rmult_le_pos; lra).
    assert (c * / K * t <= c * / K * Tend) by (apply Rmult_le_compat_l; lra).
    pose proof (exp_pos (4 * L * t)). apply Rmult_le_compat; lra. }
  destruct (C38_value N f eps fuel tol y0 cs s Hfit Hf Hk Ha) as (l & R & Ht & X).
  exists l. split; [exact R|]. intros Hst Hd.
  assert (B3 : (c * Tend * E) * / K * 2 + (11 * F + 1) * / K <= e) by lra.
  assert (B4 : 0 <= c * Tend * E * / K) by (apply Rmult_le_pos; lra).
  assert (B5 : 0 <= (11 * F + 1) * / K) by (apply Rmult_le_pos; lra).
  split.
  - intros t y yp Hin Hle. apply In_nth_error in Hin. destruct Hin as (i & Ei).
    destruct (history_converges N f Tend L F Y (/ K) 0 l HN Hf HL Hlip HY HF B1 Ht Hst Hd i t y yp Ei Hle) as (Hp & Hc).
    apply (close_weaken N _ e _ _ Hc). pose proof (G t ltac:(lra)) as Gt. unfold global_error in Gt. lra.
  - intros k p q T Ep Eq HTT Hle. exists (interpolant_row N f p q T). split; [exact (X k p q T Ep Eq HTT)|].
    unfold interpolant_row. split; [rewrite map_length, seq_length; reflexivity|].
    intros j Hj. rewrite (nth_indep _ 0 (interpolant f p q N T)) by (rewrite map_length, seq_length; exact Hj).
    change (interpolant f p q N T) with ((fun j => interpolant f p q j T) N). rewrite map_nth, seq_nth by exact Hj. cbn [plus].
    pose proof (history_dense N f Tend L F Y (/ K) 0 l HN Hf HL Hlip HY HF B1 Ht Hst Hd k p q T Ep Eq ltac:(lra) Hle j Hj) as D.
    destruct p as ((t, y), yp). unfold time_of in HTT. cbn [fst] in HTT.
    destruct q as ((t', y'), yp'). unfold time_of in *. cbn [fst] in *.
    destruct (history_converges N f Tend L F Y (/ K) 0 l HN Hf HL Hlip HY HF B1 Ht Hst Hd k t y yp Ep ltac:(lra)) as (Hp & _).
    pose proof (G T ltac:(lra)) as Gt. unfold global_error in Gt. lra.
Qed.
Print Assumptions C115_converges.

(** For linear systems the error is of fifth order in the step size. *)
Theorem C115_fifth_order : forall N A Tend L B Y H delta eps fuel tol y0 cs s, fits N cs -> 0 <= Tend -> 0 <= H ->
  0 <= L -> rows_at_most N A L -> solves N Tend (linear_system N A) Y -> size_at_most N Tend B Y -> 50 * L * H <= 1 ->
  after N (linear_system N A) eps fuel tol y0 cs s ->
  exists l, represents N (k_store s) l /\
    (steps_at_most Tend H l -> starts_near N delta Y l ->
     forall t y yp, In (t, y, yp) l -> t <= Tend -> close N (linear_error L B H delta t) y (Y t)).
Proof.
  intros N A Tend L B Y H delta eps fuel tol y0 cs s Hfit HT H0 HL HA HY HB HH Ha.
  destruct (C36_history N _ eps fuel tol y0 cs _ Hfit (linear_reads N A) Ha) as (s1 & l & E & R & Ht & _). injection E as E. subst s1.
  destruct Hfit as (HN & _). exists l. split; [exact R|]. intros Hst Hd t y yp Hin Hle.
  apply In_nth_error in Hin. destruct Hin as (i & Ei).
  exact (history_linear N A L Tend Y B H delta l HN HL HA HY HB HT H0 HH Ht Hst Hd i t y yp Ei Hle).
Qed.
Print Assumptions C115_fifth_order.

(** For linear systems the values between the stored points are of fifth order as well. *)
Theorem C115_dense_fifth_order : forall N A Tend L B Y H delta eps fuel tol y0 cs s, fits N cs -> (forall c, In c cs -> keeps_dense c) -> 0 <= Tend -> 0 <= H ->
  0 <= L -> rows_at_most N A L -> solves N Tend (linear_system N A) Y -> size_at_most N Tend B Y -> 50 * L * H <= 1 ->
  after N (linear_system N A) eps fuel tol y0 cs s ->
  exists l, represents N (k_store s) l /\
    (steps_at_most Tend H l -> starts_near N delta Y l ->
     forall k p q T, nth_error l k = Some p -> nth_error l (S k) = Some q -> time_of p < T <= time_of q -> time_of q <= Tend ->
     exists row, output_dense N s 0 [T] = Ok [row] /\ length row = N /\
       close N (2 * linear_error L B H delta T + 2 * (L * H) ^ 5 * B) (fun j => nth j row 0) (Y T)).
Proof.
  intros N A Tend L B Y H delta eps fuel tol y0 cs s Hfit Hk HT0 H0 HL HA HY HB HH Ha.
  destruct (C38_value N _ eps fuel tol y0 cs s Hfit (linear_reads N A) Hk Ha) as (l & R & Ht & X). destruct Hfit as (HN & _).
  exists l. split; [exact R|]. intros Hst Hd k p q T Ep Eq HT Hle.
  exists (interpolant_row N (linear_system N A) p q T). split; [exact (X k p q T Ep Eq HT)|]. unfold interpolant_row. split; [rewrite map_length, seq_length; reflexivity|].
  intros j Hj. rewrite (nth_indep _ 0 (interpolant (linear_system N A) p q N T)) by (rewrite map_length, seq_length; exact Hj).
  change (interpolant (linear_system N A) p q N T) with ((fun j => interpolant (linear_system N A) p q j T) N). rewrite map_nth, seq_nth by exact Hj. cbn [plus].
  exact (history_linear_dense N A L Tend Y B H delta l HN HL HA HY HB HT0 H0 HH Ht Hst Hd k p q T Ep Eq ltac:(lra) Hle j Hj).
Qed.
Print Assumptions C115_dense_fifth_order.

(** y' = y/100 with y(0) = 1: one step of size 1 is taken. *)
Definition f_slow : R -> vec -> vec := linear_system 1 (fun _ _ => 1/100).
Lemma f_slow_eq : forall t y j, f_slow t y j = 1/100 * y 0%nat.
Proof. intros t y j. unfold f_slow, linear_system, rsum. cbn [seq map fold_right]. ring. Qed.
Example C115_example : forall eps, exists s y1 p1, fits 1 [CStep] /\ reads_components 1 f_slow /\ (forall c, In c [CStep] -> keeps_dense c) /\
  rows_at_most 1 (fun _ _ => 1/100) (1/100) /\ lipschitz 1 1 (1/100) f_slow /\ solves 1 1 f_slow (fun t _ => exp (t / 100)) /\
  speed_at_most 1 1 1 f_slow (fun t _ => exp (t / 100)) /\ size_at_most 1 1 3 (fun t _ => exp (t / 100)) /\
  50 * (1/100) * 1 <= 1 /\ after 1 f_slow eps 1 1 (fun _ => 1) [CStep] s /\
  (let l := [(0, fun _ => 1, f_slow 0 (fun _ => 1)); (1, y1, p1)] in
   represents 1 (k_store s) l /\ steps_at_most 1 1 l /\ starts_near 1 0 (fun t _ => exp (t / 100)) l).
Proof.
  intro eps. assert (Hf : reads_components 1 f_slow) by apply linear_reads.
  assert (HB : (Z.of_nat 1 * (4 + 1000) < 2 ^ 32)%Z) by reflexivity.
  destruct (init_inv 1 (le_n 1) f_slow 4 (set_equation (new_rk 1) f_slow) (fun _ => 1) HB ltac:(lia) (new_pre 1 (le_n 1) f_slow 4 1 ltac:(lia)))
    as (s0 & E0 & I0 & D0 & O0 & C0).
  assert (Pr0 : k_par s0 = default_params 1).
  { unfold rk_initial_value in E0. destruct (initial_value _ _ _ _); try discriminate E0. injection E0 as E0. subst s0. reflexivity. }
  assert (C1 : c_opt (k_ctrl s0) = 1) by (rewrite C0; reflexivity).
  pose (a0 := inner_step f_slow 0 1 (fun _ => 1) (fun _ => 1/100)).
  pose (q0 := a_yerr a0 0%nat / (1 + 1 * Rmax (Rabs 1) (Rabs (a_yout a0 0%nat)))).
  assert (Hq : -1 <= q0 <= 1).
  { unfold q0. pose proof (Rmax_l (Rabs 1) (Rabs (a_yout a0 0%nat))) as M. rewrite Rabs_R1 in *.
    set (M0 := Rmax 1 (Rabs (a_yout a0 0%nat))) in *.
    assert (Y0 : -1 <= a_yerr a0 0%nat <= 1).
    { unfold a0, inner_step. cbn [a_yerr]. rewrite !f_slow_eq. unfold c2, c3, c4, c5, a21, a31, a32, a41, a42, a43, a51, a52, a53, a54, a61, a62, a63, a64, a65, a71, a73, a74, a75, a76, e1, e3, e4, e5, e6, e7. lra. }
    split.
    - apply (Rmult_le_reg_r (1 + 1 * M0)); [lra|]. unfold Rdiv. rewrite Rmult_assoc, Rinv_l by lra. lra.
    - apply (Rmult_le_reg_r (1 + 1 * M0)); [lra|]. unfold Rdiv. rewrite Rmult_assoc, Rinv_l by lra. lra. }
  assert (Hx : sqrt ((0 + q0 * q0) / INR 1) <= 1).
  { rewrite <- sqrt_1. apply sqrt_le_1_alt. cbn [INR]. unfold Rdiv. rewrite Rinv_1. nra. }
  destruct (step_point 1 f_slow 4 eps s0 [] 0 (fun _ => 1) _ (sqrt ((0 + q0 * q0) / INR 1)) (le_n 1) Hf HB I0 ltac:(cbn [length]; lia) Hx)
    as (s1 & q & y1 & p1 & E1 & I1 & _).
  { intros v w Ev Ew. rewrite C1, Pr0. cbv zeta.
    assert (Ev0 : v 0%nat = 1) by (apply (Ev 0%nat); lia).
    assert (Ew0 : w 0%nat = 1/100) by (rewrite (Ew 0%nat ltac:(lia)), f_slow_eq; ring).
    assert (Ya : a_yerr (inner_step f_slow 0 1 v w) 0%nat = a_yerr a0 0%nat) by (unfold a0, inner_step; cbn [a_yerr]; rewrite !f_slow_eq, Ev0, Ew0; reflexivity).
    assert (Yo : a_yout (inner_step f_slow 0 1 v w) 0%nat = a_yout a0 0%nat) by (unfold a0, inner_step; cbn [a_yout]; rewrite !f_slow_eq, Ev0, Ew0; reflexivity).
    unfold estimate_error, error_sum, sk. rewrite Ya, Yo, Ev0. cbn [default_params g_atol g_rtol].
    destruct (Req_EM_T _ 0) as [Z0|Z0].
    - pose proof (Rmax_l (Rabs 1) (Rabs (a_yout a0 0%nat))) as M. rewrite Rabs_R1 in M, Z0. lra.
    - reflexivity. }
  exists s1, y1, p1.
  split. { split; [lia|]. split; [reflexivity|]. intros c [<-|[]]; exact Logic.I. }
  split; [exact Hf|]. split. { intros c [<-|[]]. exact Logic.I. }
  assert (HA : rows_at_most 1 (fun _ _ => 1/100) (1/100)).
  { intros j _. unfold rsum. cbn [seq map fold_right]. rewrite Rabs_pos_eq by lra. lra. }
  assert (Ex : forall t, 0 <= t <= 1 -> 0 < exp (t / 100) <= 3).
  { intros t Ht. split; [apply exp_pos|]. apply Rle_trans with (exp 1); [|exact exp_le_3].
    destruct (Req_dec (t / 100) 1) as [->|Ne]; [lra|]. apply Rlt_le, exp_increasing. lra. }
  split; [exact HA|]. split; [exact (linear_lipschitz 1 (le_n 1) _ (1/100) ltac:(lra) HA 1)|].
  split. { intros t j _ _. rewrite f_slow_eq.
    replace (1/100 * exp (t / 100)) with (exp (t / 100) * (1 / 100)) by ring.
    apply (derivable_pt_lim_comp (fun t => t / 100) exp t (1/100) (exp (t / 100))).
    - replace (1/100) with (1 * / 100 + t * 0) by field. apply (derivable_pt_lim_mult id (fct_cte (/ 100)) t 1 0); [apply derivable_pt_lim_id|apply derivable_pt_lim_const].
    - apply derivable_pt_lim_exp. }
  split. { intros t j Ht _. rewrite f_slow_eq. pose proof (Ex t Ht). rewrite Rabs_pos_eq; lra. }
  split. { intros t j Ht _. pose proof (Ex t Ht). rewrite Rabs_pos_eq; lra. }
  split; [lra|]. split.
  { unfold after. cbn [do_calls do_call]. rewrite E0.
    change (match rk_step 1 eps 1 s0 with Some (UB, _) => Some UB | Some (_, s') => Some (Ok s') | None => None end) with (do_call 1 eps 1 s0 CStep).
    rewrite E1. reflexivity. }
  cbv zeta. rewrite C1, Rplus_0_l in I1. cbn [app] in I1.
  split; [exact (sinv_represents 1 (le_n 1) 4 _ _ ltac:(reflexivity) (ri_store _ _ _ _ _ I1))|]. split.
  - intros i p r Ep Er _. destruct i as [|[|i]]; cbn [nth_error] in Ep, Er; [|discriminate Er|destruct i; discriminate Er].
    injection Ep as <-. injection Er as <-. unfold time_of. cbn [fst]. lra.
  - intros p Ep. injection Ep as <-. intros j Hj. cbn [fst snd]. unfold Rdiv. rewrite Rmult_0_l, exp_0, Rminus_diag_eq, Rabs_R0 by reflexivity. lra.
Qed.
(** The bound after this step. *)
Example C115_bound_example : linear_error (1/100) 3 1 0 1 < 1 / 10 ^ 10.
Proof.
  unfold linear_error. assert (exp (4 * (1/100) * 1) <= 3).
  { apply Rle_trans with (exp 1); [|exact exp_le_3]. apply Rlt_le, exp_increasing. lra. }
  replace ((0 + 2 * (1/100) * (1/100 * 1) ^ 5 * 3 * 1)) with (6 / 10 ^ 12) by field. lra.
Qed.
