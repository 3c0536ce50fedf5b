(** Property C122: the integrator is of fifth order. *)
From Coq Require Import ZArith Reals Lia Lra.
From Coquelicot Require Import Coquelicot.
From Verif Require Import Base AlgebraModel IntegratorModel IntegratorSpec IntegratorProofs StepProofs DenseProofs TableauProofs IntegratorUse IntegratorProps ConvergeSpec ConvergeProofs AlgebraRoundSpec RoundStepModel RoundStepSpec RoundStepProofs OrderSpec OrderProofs.
Import ListNotations.
Local Open Scope R_scope.

(** C122.  If the right-hand side is Lipschitz and has a smooth Jacobian along a smooth
    solution, one step from the solution misses it by at most a multiple of h^6, and the
    dense output within the step by at most a multiple of h^5. *)
Theorem C122_step : forall N f Tend L M rho K D J, (1 <= N)%nat -> 0 <= Tend -> 0 <= L -> lipschitz N Tend L f -> solves N Tend f (D 0%nat) ->
  derivatives N Tend 6 M D -> smooth_matrix N Tend M J -> 0 < rho -> jacobian N Tend rho K f (D 0%nat) (J 0%nat) ->
  exists C, 0 <= C /\ forall t h y yp, 0 <= t -> 0 < h -> t + h <= Tend -> y = D 0%nat t -> yp = f t y ->
    let a := inner_step f t h y yp in
    close N (C * h ^ 6) (a_yout a) (D 0%nat (t + h)) /\
    forall T, t <= T <= t + h -> close N (C * h ^ 5) (fun j => interpolant f (t, y, yp) (t + h, a_yout a, a_dydxout a) j T) (D 0%nat T).
Proof.
  intros N f Tend L M rho K D J HN HT HL Hlip HY HD HJ Hrho Hjac.
  destruct (step_order N f Tend L M rho K D J HN HT HL Hlip HY HD HJ Hrho Hjac) as (C & HC & Loc).
  exists C. split; [exact HC|]. intros t h y yp Ht Hh Hle -> ->. destruct (Loc t h Ht Hh Hle) as (A & B). split; [exact A|].
  intros T HTT. assert (Hth : 0 <= (T - t) / h <= 1).
  { split; [apply Rmult_le_pos; [lra|apply Rlt_le, Rinv_0_lt_compat; exact Hh]|].
    apply (Rmult_le_reg_r h); [exact Hh|]. unfold Rdiv. rewrite Rmult_assoc, Rinv_l by lra. lra. }
  specialize (B _ Hth). replace (t + (T - t) / h * h) with T in B by (field; lra).
  intros j Hj. specialize (B j Hj). cbv beta. unfold interpolant. replace (t + h - t) with h by ring. exact B.
Qed.
Print Assumptions C122_step.

(** Whatever calls were made and whatever steps the step size control chose: the error of
    every stored point is of fifth order in the largest step. *)
Theorem C122_fifth_order : forall N f Tend L M rho K D J, reads_components N f -> 0 <= Tend -> 0 <= L -> lipschitz N Tend L f -> solves N Tend f (D 0%nat) ->
  derivatives N Tend 6 M D -> smooth_matrix N Tend M J -> 0 < rho -> jacobian N Tend rho K f (D 0%nat) (J 0%nat) ->
  exists C, 0 <= C /\ forall H delta eps fuel tol y0 cs s, fits N cs -> 0 <= H -> 50 * L * H <= 1 -> after N f eps fuel tol y0 cs s ->
  exists l, represents N (k_store s) l /\
    (steps_at_most Tend H l -> starts_near N delta (D 0%nat) l ->
     forall t y yp, In (t, y, yp) l -> t <= Tend -> close N (order_error C L H delta t) y (D 0%nat t)).
Proof.
  intros N f Tend L M rho K D J Hf HT HL Hlip HY HD HJ Hrho Hjac.
  destruct N as [|n]; [exists 0; split; [lra|]; intros H delta eps fuel tol y0 cs s (HN & _); lia|].
  destruct (history_order (S n) f Tend L M rho K D J ltac:(lia) Hf HT HL Hlip HY HD HJ Hrho Hjac) as (C & HC & X).
  exists C. split; [exact HC|]. intros H delta eps fuel tol y0 cs s Hfit H0 HH Ha.
  destruct (C36_history (S n) f eps fuel tol y0 cs _ Hfit Hf Ha) as (s1 & l & E & Rp & Ht & _). injection E as E. subst s1.
  exists l. split; [exact Rp|]. intros Hst Hd t y yp Hin Hle. apply In_nth_error in Hin. destruct Hin as (i & Ei).
  exact (proj2 (proj1 (X H delta l H0 HH Ht Hst Hd) i t y yp Ei Hle)).
Qed.
Print Assumptions C122_fifth_order.

(** So is the error of the dense output. *)
Theorem C122_dense : forall N f Tend L M rho K D J, reads_components N f -> 0 <= Tend -> 0 <= L -> lipschitz N Tend L f -> solves N Tend f (D 0%nat) ->
  derivatives N Tend 6 M D -> smooth_matrix N Tend M J -> 0 < rho -> jacobian N Tend rho K f (D 0%nat) (J 0%nat) ->
  exists C, 0 <= C /\ forall H delta eps fuel tol y0 cs s, fits N cs -> (forall c, In c cs -> keeps_dense c) -> 0 <= H -> 50 * L * H <= 1 -> after N f eps fuel tol y0 cs s ->
  exists l, represents N (k_store s) l /\
    (steps_at_most Tend H l -> starts_near N delta (D 0%nat) l ->
     forall k p q T, nth_error l k = Some p -> nth_error l (S k) = Some q -> time_of p < T <= time_of q -> time_of q <= Tend ->
     exists row, output_dense N s 0 [T] = Ok [row] /\ length row = N /\
       close N (2 * order_error C L H delta T + C * H ^ 5) (fun j => nth j row 0) (D 0%nat T)).
Proof.
  intros N f Tend L M rho K D J Hf HT0 HL Hlip HY HD HJ Hrho Hjac.
  destruct N as [|n]; [exists 0; split; [lra|]; intros H delta eps fuel tol y0 cs s (HN & _); lia|]. remember (S n) as N eqn:EN. assert (HN : (1 <= N)%nat) by lia. clear n EN.
  destruct (history_order N f Tend L M rho K D J HN Hf HT0 HL Hlip HY HD HJ Hrho Hjac) as (C & HC & X0).
  exists C. split; [exact HC|]. intros H delta eps fuel tol y0 cs s Hfit Hk H0 HH Ha.
  destruct (C38_value N f eps fuel tol y0 cs s Hfit Hf Hk Ha) as (l & Rp & Ht & X).
  exists l. split; [exact Rp|]. intros Hst Hd k p q T Ep Eq HT Hle.
  exists (interpolant_row N f p q T). split; [exact (X k p q T Ep Eq HT)|]. unfold interpolant_row. split; [rewrite map_length, seq_length; reflexivity|].
  intros j Hj. rewrite (nth_indep _ 0 (interpolant f p q N T)) by (rewrite map_length, seq_length; exact Hj).
  change (interpolant f p q N T) with ((fun j => interpolant f p q j T) N). rewrite map_nth, seq_nth by exact Hj. cbn [plus].
  exact (proj2 (X0 H delta l H0 HH Ht Hst Hd) k p q T Ep Eq ltac:(lra) Hle j Hj).
Qed.
Print Assumptions C122_dense.

(** With rounding (C121) the error of rounding is added. *)
Theorem C122_rounded : forall N f Tend L M rho K D J, (1 <= N)%nat -> 0 <= Tend -> 0 <= L -> lipschitz N Tend L f -> solves N Tend f (D 0%nat) ->
  derivatives N Tend 6 M D -> smooth_matrix N Tend M J -> 0 < rho -> jacobian N Tend rho K f (D 0%nat) (J 0%nat) ->
  exists C, 0 <= C /\ forall rnd u eta rf phi Bs F B H hmin delta y0,
  accurate rnd u eta -> u <= 1 / 100000 -> 0 <= phi -> near_rhs N Tend Bs phi f rf -> speed_at_most N Tend F f (D 0%nat) -> size_at_most N Tend B (D 0%nat) ->
  0 < hmin -> 0 <= H -> 50 * L * H <= 1 -> eta <= u * hmin -> eta <= u -> 4 * u * Tend <= hmin ->
  u * (Tend + 9 * (B + 1)) <= 1 / 10 -> B + 2 + 60 * H * (F + L + 1) + 80 * H * phi <= Bs -> close N delta y0 (D 0%nat 0) ->
  let bound := rounded_error u phi L F B Tend hmin (C * H ^ 5) delta in
  bound Tend <= 1 ->
  forall hs, Forall (fun h => hmin <= h <= H) hs -> forall p l, r_points rnd rf y0 hs = (p, l) -> time_of p * (1 + 20 * u) <= Tend ->
  forall t y yp, In (t, y, yp) (p :: l) -> 0 <= t <= Tend /\ close N (bound t) y (D 0%nat t).
Proof.
  intros N f Tend L M rho K D J HN HTe HL Hlip HY HD HJ Hrho Hjac.
  destruct (step_order N f Tend L M rho K D J HN HTe HL Hlip HY HD HJ Hrho Hjac) as (C & HC & Loc).
  exists C. split; [exact HC|].
  intros rnd u eta rf phi Bs F B H hmin delta y0 Hrnd Hu P0 Hrf HF HB Hm H0 HH Hem Heu HuT HuB HBs Hd bound Hb hs Hhs ((t0, y1), yp1) l E Hend t y yp Hin.
  unfold time_of in Hend. cbn [fst] in Hend.
  destruct (rounded_history rnd u eta N f rf Tend L phi Bs F B (D 0%nat) H hmin (C * H ^ 5) delta y0) with (hs := hs) (t := t0) (y := y1) (yp := yp1) (l := l) as (X1 & X2); try assumption.
  - apply Rmult_le_pos; [exact HC|apply pow_le; exact H0].
  - intros s h Hs Hh Hle. apply (close_weaken N _ _ _ _ (proj1 (Loc s h Hs ltac:(lra) Hle))).
    replace (C * h ^ 6) with (C * h ^ 5 * h) by ring. apply Rmult_le_compat_r; [lra|]. apply Rmult_le_compat_l; [exact HC|]. apply pow_incr. lra.
  - destruct (X2 Hend) as (Y1 & Y2). destruct Hin as [Q|Q].
    + injection Q as Q1 Q2 Q3. subst t0 y1 yp1. split; [|exact Y1]. pose proof (proj1 Hrnd). assert (0 <= t * (20 * u)) by (apply Rmult_le_pos; lra). lra.
    + exact (Y2 t y yp Q).
Qed.
Print Assumptions C122_rounded.

(** The nonlinear equation y' = sqrt(1 + y^2)/100 with the solution sinh(t/100). *)
Definition f_curve : R -> vec -> vec := fun _ y _ => sqrt (1 + y 0%nat ^ 2) / 100.
Definition sh (x : R) : R := (exp x - exp (- x)) / 2.
Definition ch (x : R) : R := (exp x + exp (- x)) / 2.
Lemma ch_sh : forall x, ch x ^ 2 = 1 + sh x ^ 2.
Proof. intro x. unfold ch, sh. assert (exp x * exp (- x) = 1) by (rewrite <- exp_plus, Rplus_opp_r; apply exp_0). cbn [pow]. nra. Qed.
Lemma ch_pos : forall x, 1 <= ch x.
Proof.
  intro x. pose proof (ch_sh x). pose proof (pow2_ge_0 (sh x)). assert (0 < ch x) by (unfold ch; pose proof (exp_pos x); pose proof (exp_pos (- x)); lra).
  cbn [pow] in *. nra.
Qed.
Lemma sh_ch : forall x, Rabs (sh x) <= ch x.
Proof. intro x. unfold ch, sh. pose proof (exp_pos x). pose proof (exp_pos (- x)). apply Rabs_le. lra. Qed.
Lemma ch_3 : forall x, 0 <= x <= 1 -> ch x <= 3.
Proof.
  intros x Hx. unfold ch. assert (exp x <= exp 1) by (destruct (Req_dec x 1) as [->|Ne]; [lra|apply Rlt_le, exp_increasing; lra]).
  assert (exp (- x) <= exp 0) by (destruct (Req_dec x 0) as [->|Ne]; [rewrite Ropp_0; lra|apply Rlt_le, exp_increasing; lra]).
  rewrite exp_0 in *. pose proof exp_le_3. lra.
Qed.
Lemma is_sh : forall x, is_derive sh x (ch x). Proof. intro x. unfold sh, ch. auto_derive; [exact Logic.I|field]. Qed.
Lemma is_ch : forall x, is_derive ch x (sh x). Proof. intro x. unfold sh, ch. auto_derive; [exact Logic.I|field]. Qed.
Definition D_curve (k : nat) (t : R) : vec := fun _ => (1 / 100) ^ k * (if Nat.even k then sh (t / 100) else ch (t / 100)).
Definition J_curve (k : nat) (t : R) (j : nat) : vec := fun _ =>
  match k with
  | 0%nat => sh (t / 100) / ch (t / 100) / 100
  | 1%nat => 1 / (ch (t / 100)) ^ 2 / 100 ^ 2
  | _ => -2 * sh (t / 100) / (ch (t / 100)) ^ 3 / 100 ^ 3
  end.
Lemma is_scaled : forall g g' t, is_derive g (t / 100) g' -> is_derive (fun s => g (s / 100)) t (g' / 100).
Proof.
  intros g g' t H. replace (g' / 100) with (scal (1 / 100) g') by (unfold scal; cbn; unfold mult; cbn; field).
  apply (is_derive_comp g (fun s => s / 100) t g' (1 / 100)); [exact H|]. auto_derive; [exact Logic.I|field].
Qed.
Lemma curve_value : forall t j, f_curve t (D_curve 0 t) j = ch (t / 100) / 100.
Proof.
  intros t j. unfold f_curve, D_curve. cbn [Nat.even pow]. rewrite Rmult_1_l, Rmult_1_r.
  replace (1 + sh (t / 100) * sh (t / 100)) with (ch (t / 100) ^ 2) by (rewrite ch_sh; ring).
  rewrite <- Rsqr_pow2, sqrt_Rsqr by (pose proof (ch_pos (t / 100)); lra). reflexivity.
Qed.
Lemma curve_derivatives : derivatives 1 1 6 3 D_curve.
Proof.
  split.
  - intros k t j _ _ _. apply is_derive_Reals. unfold D_curve. rewrite Nat.even_succ, <- Nat.negb_even.
    destruct (Nat.even k); cbn [negb pow].
    + replace (1 / 100 * (1 / 100) ^ k * ch (t / 100)) with (scal ((1/100) ^ k) (ch (t / 100) / 100)) by (unfold scal; cbn; unfold mult; cbn; field).
      apply is_derive_scal. apply is_scaled, is_sh.
    + replace (1 / 100 * (1 / 100) ^ k * sh (t / 100)) with (scal ((1/100) ^ k) (sh (t / 100) / 100)) by (unfold scal; cbn; unfold mult; cbn; field).
      apply is_derive_scal. apply is_scaled, is_ch.
  - intros k t j _ Ht _. unfold D_curve. replace 3 with (1 * 3) by ring. apply abs_mul_le.
    + rewrite Rabs_pos_eq by (apply pow_le; lra). apply Rle_trans with (1 ^ k); [apply pow_incr; lra|rewrite pow1; lra].
    + pose proof (ch_3 (t / 100) ltac:(lra)). pose proof (sh_ch (t / 100)). pose proof (ch_pos (t / 100)). destruct (Nat.even k); [lra|rewrite Rabs_pos_eq; lra].
Qed.
Lemma curve_matrix : smooth_matrix 1 1 3 J_curve.
Proof.
  intros j _. split.
  - intros k t i Hk _ _. apply is_derive_Reals. pose proof (ch_pos (t / 100)) as Hc. unfold J_curve. destruct k as [|[|k]]; [| |lia].
    + replace (1 / ch (t / 100) ^ 2 / 100 ^ 2) with (1 / ch (t / 100) ^ 2 / 100 / 100) by (field; lra).
      apply (is_scaled (fun x => sh x / ch x / 100)).
      replace (1 / ch (t / 100) ^ 2 / 100) with (((ch (t / 100) * ch (t / 100) - sh (t / 100) * sh (t / 100)) / ch (t / 100) ^ 2) / 100).
      * apply (is_derive_ext (fun x => scal (/ 100) (sh x / ch x))); [intro x; unfold scal; cbn; unfold mult; cbn; unfold Rdiv; ring|].
        replace ((ch (t / 100) * ch (t / 100) - sh (t / 100) * sh (t / 100)) / ch (t / 100) ^ 2 / 100) with (scal (/ 100) ((ch (t / 100) * ch (t / 100) - sh (t / 100) * sh (t / 100)) / ch (t / 100) ^ 2)) by (unfold scal; cbn; unfold mult; cbn; field; lra).
        apply is_derive_scal. apply is_derive_div; [apply is_sh|apply is_ch|lra].
      * replace (ch (t / 100) * ch (t / 100) - sh (t / 100) * sh (t / 100)) with 1; [reflexivity|]. pose proof (ch_sh (t / 100)) as Q. cbn [pow] in Q. lra.
    + replace (-2 * sh (t / 100) / ch (t / 100) ^ 3 / 100 ^ 3) with (-2 * sh (t / 100) / ch (t / 100) ^ 3 / 100 ^ 2 / 100) by (field; lra).
      apply (is_scaled (fun x => 1 / ch x ^ 2 / 100 ^ 2)).
      apply (is_derive_ext (fun x => scal (/ 100 ^ 2) (/ ch x ^ 2))); [intro x; unfold scal; cbn; unfold mult; cbn; unfold Rdiv; ring|].
      replace (-2 * sh (t / 100) / ch (t / 100) ^ 3 / 100 ^ 2) with (scal (/ 100 ^ 2) (- (INR 2 * sh (t / 100) * ch (t / 100) ^ 1) / (ch (t / 100) ^ 2) ^ 2)) by (unfold scal; cbn; unfold mult; cbn; field; lra).
      apply is_derive_scal. apply (is_derive_inv (fun x => ch x ^ 2)); [|apply pow_nonzero; lra]. apply (is_derive_pow ch 2 (t / 100)), is_ch.
  - intros k t i Hk Ht _. pose proof (ch_pos (t / 100)) as Hc. pose proof (sh_ch (t / 100)) as Hs. unfold J_curve.
    assert (C1 : 0 < / ch (t / 100) <= 1) by (split; [apply Rinv_0_lt_compat; lra|rewrite <- Rinv_1; apply Rinv_le_contravar; lra]).
    assert (Q : Rabs (sh (t / 100) / ch (t / 100)) <= 1).
    { unfold Rdiv. rewrite Rabs_mult, (Rabs_pos_eq (/ _)) by lra. rewrite <- (Rinv_r (ch (t / 100))) by lra. apply Rmult_le_compat_r; lra. }
    assert (C2 : 0 <= / ch (t / 100) * / ch (t / 100) <= 1) by (split; [apply Rmult_le_pos; lra|replace 1 with (1 * 1) by ring; apply Rmult_le_compat; lra]).
    apply Rabs_def2 in Q || (apply Rcomplements.Rabs_le_between in Q).
    destruct k as [|[|k]].
    + apply Rabs_le. lra.
    + replace (1 / ch (t / 100) ^ 2 / 100 ^ 2) with (/ ch (t / 100) * / ch (t / 100) / 10000) by (field; lra). apply Rabs_le. lra.
    + replace (-2 * sh (t / 100) / ch (t / 100) ^ 3 / 100 ^ 3) with (-2 / 1000000 * ((sh (t / 100) / ch (t / 100)) * (/ ch (t / 100) * / ch (t / 100)))) by (field; lra).
      replace 3 with (3 * (1 * 1)) by ring. apply abs_mul_le; [apply Rabs_le; lra|]. apply abs_mul_le; apply Rabs_le; lra.
Qed.
Lemma curve_root : forall x, 1 <= sqrt (1 + x ^ 2) /\ sqrt (1 + x ^ 2) * sqrt (1 + x ^ 2) = 1 + x ^ 2 /\ Rabs x <= sqrt (1 + x ^ 2).
Proof.
  intro x. pose proof (pow2_ge_0 x). assert (E : sqrt (1 + x ^ 2) * sqrt (1 + x ^ 2) = 1 + x ^ 2) by (apply sqrt_sqrt; lra).
  pose proof (sqrt_pos (1 + x ^ 2)). split; [rewrite <- sqrt_1 at 1; apply sqrt_le_1_alt; lra|]. split; [exact E|]. rewrite <- (sqrt_Rsqr_abs x). apply sqrt_le_1_alt. rewrite Rsqr_pow2. lra.
Qed.
(** The tangent lies below the curve, by at most the square of the distance. *)
Lemma curve_tangent : forall x z, 0 <= sqrt (1 + x ^ 2) - sqrt (1 + z ^ 2) - z / sqrt (1 + z ^ 2) * (x - z) <= (x - z) ^ 2.
Proof.
  intros x z. destruct (curve_root x) as (A1 & A2 & A3). destruct (curve_root z) as (B1 & B2 & B3).
  set (a := sqrt (1 + x ^ 2)) in *. set (b := sqrt (1 + z ^ 2)) in *.
  assert (E : a - b - z / b * (x - z) = (a * b - 1 - x * z) / b).
  { apply (Rmult_eq_reg_r b); [|lra]. replace ((a - b - z / b * (x - z)) * b) with (a * b - b * b - z * (x - z)) by (field; lra). unfold Rdiv. rewrite Rmult_assoc, Rinv_l by lra. rewrite B2. ring. }
  assert (P : (a * b) * (a * b) = (1 + x * z) * (1 + x * z) + (x - z) ^ 2) by (replace ((a * b) * (a * b)) with ((a * a) * (b * b)) by ring; rewrite A2, B2; ring).
  pose proof (pow2_ge_0 (x - z)) as Q. assert (AB : 1 <= a * b) by (replace 1 with (1 * 1) by ring; apply Rmult_le_compat; lra).
  assert (U : 0 <= a * b - 1 - x * z) by nra.
  assert (V : a * b - 1 - x * z <= (x - z) ^ 2).
  { destruct (Rle_lt_dec 0 (1 + x * z)) as [G|G]; [nra|].
    assert ((x - z) ^ 2 = a * a + b * b - 2 - 2 * (x * z)) by (rewrite A2, B2; ring). assert (0 <= (a - b) ^ 2) by apply pow2_ge_0. cbn [pow] in *. nra. }
  assert (IB : 0 < / b <= 1) by (split; [apply Rinv_0_lt_compat; lra|rewrite <- Rinv_1; apply Rinv_le_contravar; lra]).
  rewrite E. unfold Rdiv. split; [apply Rmult_le_pos; lra|]. replace ((x - z) ^ 2) with ((x - z) ^ 2 * 1) by ring. apply Rmult_le_compat; lra.
Qed.
Lemma curve_lipschitz : lipschitz 1 1 (1/100) f_curve.
Proof.
  intros t s y z B _ _ Hc j Hj. specialize (Hc 0%nat ltac:(lia)). unfold f_curve.
  destruct (curve_root (y 0%nat)) as (A1 & A2 & A3). destruct (curve_root (z 0%nat)) as (B1 & B2 & B3).
  set (a := sqrt (1 + y 0%nat ^ 2)) in *. set (b := sqrt (1 + z 0%nat ^ 2)) in *.
  assert (X : Rabs (a - b) <= Rabs (y 0%nat - z 0%nat)).
  { apply Rsqr_le_abs_0. unfold Rsqr. assert (0 <= (y 0%nat - z 0%nat) ^ 2) by apply pow2_ge_0.
    assert (P : (a * b) * (a * b) = (1 + y 0%nat * z 0%nat) * (1 + y 0%nat * z 0%nat) + (y 0%nat - z 0%nat) ^ 2) by (replace ((a * b) * (a * b)) with ((a * a) * (b * b)) by ring; rewrite A2, B2; ring).
    assert (AB : 1 <= a * b) by (replace 1 with (1 * 1) by ring; apply Rmult_le_compat; lra).
    assert (U : 0 <= a * b - 1 - y 0%nat * z 0%nat) by nra. replace ((a - b) * (a - b)) with (a * a + b * b - 2 * (a * b)) by ring. rewrite A2, B2.
    replace ((y 0%nat - z 0%nat) * (y 0%nat - z 0%nat)) with (y 0%nat ^ 2 + z 0%nat ^ 2 - 2 * (y 0%nat * z 0%nat)) by ring. lra. }
  replace (a / 100 - b / 100) with (1 / 100 * (a - b)) by field. rewrite Rabs_mult, (Rabs_pos_eq (1/100)) by lra. pose proof (Rabs_pos (t - s)). lra.
Qed.
Lemma curve_jacobian : jacobian 1 1 1 1 f_curve (D_curve 0) (J_curve 0).
Proof.
  intros t y m Ht Hm Hc j Hj. specialize (Hc 0%nat ltac:(lia)). rewrite curve_value. unfold f_curve, rsum, J_curve. cbn [seq map fold_right].
  set (z := D_curve 0 t 0%nat) in *. assert (Ez : z = sh (t / 100)) by (unfold z, D_curve; cbn [Nat.even pow]; ring).
  assert (Eb : sqrt (1 + z ^ 2) = ch (t / 100)).
  { rewrite Ez, <- ch_sh, <- Rsqr_pow2. apply sqrt_Rsqr. pose proof (ch_pos (t / 100)). lra. }
  pose proof (curve_tangent (y 0%nat) z) as Q. rewrite Eb in Q. rewrite <- Ez. pose proof (ch_pos (t / 100)) as P.
  replace (sqrt (1 + y 0%nat ^ 2) / 100 - (ch (t / 100) / 100 + (z / ch (t / 100) / 100 * (y 0%nat - z) + 0)))
    with (1 / 100 * (sqrt (1 + y 0%nat ^ 2) - ch (t / 100) - z / ch (t / 100) * (y 0%nat - z))) by (field; lra).
  set (r := sqrt (1 + y 0%nat ^ 2) - ch (t / 100) - z / ch (t / 100) * (y 0%nat - z)) in *.
  assert (Hm2 : (y 0%nat - z) ^ 2 <= m ^ 2) by (rewrite <- (pow2_abs (y 0%nat - z)); apply pow_incr; split; [apply Rabs_pos|exact Hc]).
  rewrite Rabs_pos_eq by lra. lra.
Qed.
Example C122_example : forall eps, exists s y1 p1, fits 1 [CStep] /\ reads_components 1 f_curve /\ (forall c, In c [CStep] -> keeps_dense c) /\
  lipschitz 1 1 (1/100) f_curve /\ solves 1 1 f_curve (D_curve 0) /\ derivatives 1 1 6 3 D_curve /\ smooth_matrix 1 1 3 J_curve /\
  jacobian 1 1 1 1 f_curve (D_curve 0) (J_curve 0) /\ 50 * (1/100) * 1 <= 1 /\ after 1 f_curve eps 1 1 (fun _ => 0) [CStep] s /\
  (let l := [(0, fun _ => 0, f_curve 0 (fun _ => 0)); (1, y1, p1)] in
   represents 1 (k_store s) l /\ steps_at_most 1 1 l /\ starts_near 1 0 (D_curve 0) l).
Proof.
  intro eps. assert (Hf : reads_components 1 f_curve).
  { intros t y z E j Hj. unfold f_curve. rewrite (E 0%nat ltac:(lia)). reflexivity. }
  assert (HB : (Z.of_nat 1 * (4 + 1000) < 2 ^ 32)%Z) by reflexivity.
  destruct (init_inv 1 (le_n 1) f_curve 4 (set_equation (new_rk 1) f_curve) (fun _ => 0) HB ltac:(lia) (new_pre 1 (le_n 1) f_curve 4 1 ltac:(lia)))
    as (s0 & E0 & I0 & D0 & O0 & C0).
  assert (Pr0 : k_par s0 = default_params 1).
  { unfold rk_initial_value in E0. destruct (initial_value _ _ _ _); try discriminate E0. injection E0 as E0. subst s0. reflexivity. }
  assert (C1 : c_opt (k_ctrl s0) = 1) by (rewrite C0; reflexivity).
  pose (a0 := inner_step f_curve 0 1 (fun _ => 0) (f_curve 0 (fun _ => 0))).
  pose (q0 := a_yerr a0 0%nat / (1 + 1 * Rmax (Rabs 0) (Rabs (a_yout a0 0%nat)))).
  assert (Y0 : -1 <= a_yerr a0 0%nat <= 1).
  { assert (G : forall t y, -1 <= y 0%nat <= 1 -> 0 <= f_curve t y 0%nat <= 2/100).
    { intros t y Hy. unfold f_curve. destruct (curve_root (y 0%nat)) as (A1 & A2 & _). split; [lra|].
      assert (sqrt (1 + y 0%nat ^ 2) <= 2); [|lra]. assert (y 0%nat ^ 2 <= 1) by (cbn [pow]; nra). nra. }
    unfold a0, inner_step. cbn [a_yerr].
    pose proof (G 0 (fun _ => 0) ltac:(lra)) as G1. remember (f_curve 0 (fun _ => 0)) as k1 eqn:Ek1. clear Ek1.
    match goal with |- context [f_curve (0 + c2 * 1) ?v] => pose proof (G (0 + c2 * 1) v ltac:(cbv beta; unfold a21; lra)) as G2; remember (f_curve (0 + c2 * 1) v) as k2 eqn:Ek; clear Ek end.
    match goal with |- context [f_curve (0 + c3 * 1) ?v] => pose proof (G (0 + c3 * 1) v ltac:(cbv beta; unfold a31, a32; lra)) as G3; remember (f_curve (0 + c3 * 1) v) as k3 eqn:Ek; clear Ek end.
    match goal with |- context [f_curve (0 + c4 * 1) ?v] => pose proof (G (0 + c4 * 1) v ltac:(cbv beta; unfold a41, a42, a43; lra)) as G4; remember (f_curve (0 + c4 * 1) v) as k4 eqn:Ek; clear Ek end.
    match goal with |- context [f_curve (0 + c5 * 1) ?v] => pose proof (G (0 + c5 * 1) v ltac:(cbv beta; unfold a51, a52, a53, a54; lra)) as G5; remember (f_curve (0 + c5 * 1) v) as k5 eqn:Ek; clear Ek end.
    match goal with |- context [1 * e6 * f_curve (0 + 1) ?v 0%nat] => pose proof (G (0 + 1) v ltac:(cbv beta; unfold a61, a62, a63, a64, a65; lra)) as G6; remember (f_curve (0 + 1) v) as k6 eqn:Ek; clear Ek end.
    match goal with |- context [1 * e7 * f_curve (0 + 1) ?v 0%nat] => pose proof (G (0 + 1) v ltac:(cbv beta; unfold a71, a73, a74, a75, a76; lra)) as G7; remember (f_curve (0 + 1) v) as k7 eqn:Ek; clear Ek end.
    unfold e1, e3, e4, e5, e6, e7. lra. }
  assert (Hq : -1 <= q0 <= 1).
  { unfold q0. pose proof (Rmax_l (Rabs 0) (Rabs (a_yout a0 0%nat))) as M. rewrite Rabs_R0 in *.
    set (M0 := Rmax 0 (Rabs (a_yout a0 0%nat))) in *.
    split.
    - apply (Rmult_le_reg_r (1 + 1 * M0)); [lra|]. unfold Rdiv. rewrite Rmult_assoc, Rinv_l by lra. lra.
    - apply (Rmult_le_reg_r (1 + 1 * M0)); [lra|]. unfold Rdiv. rewrite Rmult_assoc, Rinv_l by lra. lra. }
  assert (Hx : sqrt ((0 + q0 * q0) / INR 1) <= 1).
  { rewrite <- sqrt_1. apply sqrt_le_1_alt. cbn [INR]. unfold Rdiv. rewrite Rinv_1. nra. }
  destruct (step_point 1 f_curve 4 eps s0 [] 0 (fun _ => 0) _ (sqrt ((0 + q0 * q0) / INR 1)) (le_n 1) Hf HB I0 ltac:(cbn [length]; lia) Hx)
    as (s1 & q & y1 & p1 & E1 & I1 & _).
  { intros v w Ev Ew. rewrite C1, Pr0. cbv zeta.
    destruct (inner_step_ext 1 f_curve 0 1 v (fun _ => 0) w (f_curve 0 (fun _ => 0)) Hf Ev Ew 0%nat ltac:(lia)) as (Yo & _).
    assert (Ya : a_yerr (inner_step f_curve 0 1 v w) 0%nat = a_yerr a0 0%nat).
    { assert (Ev0 : v 0%nat = 0) by (apply (Ev 0%nat); lia). assert (Ew0 : w 0%nat = f_curve 0 (fun _ => 0) 0%nat) by (apply (Ew 0%nat); lia).
      unfold a0, inner_step; cbn [a_yerr]; unfold f_curve; rewrite Ev0, Ew0; reflexivity. }
    unfold estimate_error, error_sum, sk. fold a0 in Yo. rewrite Ya, Yo, (Ev 0%nat) by lia. cbn [default_params g_atol g_rtol].
    destruct (Req_EM_T _ 0) as [Z0|Z0].
    - pose proof (Rmax_l (Rabs 0) (Rabs (a_yout a0 0%nat))) as M. rewrite Rabs_R0 in M, Z0. lra.
    - reflexivity. }
  exists s1, y1, p1.
  split. { split; [lia|]. split; [reflexivity|]. intros c [<-|[]]; exact Logic.I. }
  split; [exact Hf|]. split. { intros c [<-|[]]. exact Logic.I. }
  split; [exact curve_lipschitz|].
  split. { intros t j Ht Hj. rewrite curve_value. pose proof (proj1 curve_derivatives 0%nat t j ltac:(lia) Ht Hj) as X.
    replace (ch (t / 100) / 100) with (D_curve 1 t j) by (unfold D_curve; cbn [Nat.even pow]; field). exact X. }
  split; [exact curve_derivatives|]. split; [exact curve_matrix|]. split; [exact curve_jacobian|].
  split; [lra|]. split.
  { unfold after. cbn [do_calls do_call]. rewrite E0.
    change (match rk_step 1 eps 1 s0 with Some (UB, _) => Some UB | Some (_, s') => Some (Ok s') | None => None end) with (do_call 1 eps 1 s0 CStep).
    rewrite E1. reflexivity. }
  cbv zeta. rewrite C1, Rplus_0_l in I1. cbn [List.app] in I1.
  split; [exact (sinv_represents 1 (le_n 1) 4 _ _ ltac:(reflexivity) (ri_store _ _ _ _ _ I1))|]. split.
  - intros i p r Ep Er _. destruct i as [|[|i]]; cbn [nth_error] in Ep, Er; [|discriminate Er|destruct i; discriminate Er].
    injection Ep as <-. injection Er as <-. unfold time_of. cbn [fst]. lra.
  - intros p Ep. injection Ep as <-. intros j Hj. cbn [fst snd]. unfold D_curve, sh. cbn [Nat.even pow]. replace (0 / 100) with 0 by field. rewrite Ropp_0, exp_0. apply Rabs_le. lra.
Qed.
