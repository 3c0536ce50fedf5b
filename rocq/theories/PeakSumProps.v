(** Property C116: the integral of a peaked function is approximated. *)
From Coq Require Import Reals ZArith List Lia Lra Psatz.
From Verif Require Import Base PeakModel PeakSpec PeakProps PeakSumSpec PeakSumProofs.
Local Open Scope R_scope.

(** C116.  For a function that has one peak, between the limits [a] and [b], the integration
    with the step [w] ends, from any starting point between the limits, and its value is near
    the integral. *)
Theorem C116_near : forall f Phi a b w cutoff top K lo hi m, 0 < w -> 0 <= cutoff <= 1 -> a <= top <= b -> lo <= a - 2 * w -> b + 2 * w <= hi ->
  peaked f lo top hi -> nonnegative f lo hi -> slope_at_most K f lo hi -> antiderivative_of Phi f lo hi -> a <= m <= b ->
  exists v, (exists n, forall fuel, (n <= fuel)%nat -> peak_evaluate f a b w cutoff fuel m (f m) = Ok (Some v)) /\
    Rabs (v - (Phi b - Phi a)) <= sum_error a b w cutoff K (f top).
Proof.
  intros f Phi a b w cutoff top K lo hi m W HC Htop Hlo Hhi Hpk Hnn Hlip Hphi Hm.
  destruct (loop_ends f a b w cutoff top lo hi W HC Htop Hlo Hhi Hpk Hnn m ltac:(unfold near; lra)) as (N & v & H).
  exists v. split; [exists N; exact H|].
  exact (evaluate_near f Phi a b w cutoff top K lo hi W HC Htop Hlo Hhi Hpk Hnn Hlip Hphi m N v Hm (H N (le_n N))).
Qed.
Print Assumptions C116_near.

(** Without a starting point one is searched for, which is as good if the limits are 0 and 2 pi. *)
Theorem C116_search : forall f Phi w cutoff top K lo hi, 0 < w -> 0 <= cutoff <= 1 -> 0 <= top <= 2 * PI -> lo <= 0 - 2 * w -> 2 * PI + 2 * w <= hi ->
  peaked f lo top hi -> nonnegative f lo hi -> slope_at_most K f lo hi -> antiderivative_of Phi f lo hi ->
  exists v, (exists n, forall fuel, (n <= fuel)%nat -> peak_integral f 0 (2 * PI) w cutoff fuel = Ok (Some v)) /\
    Rabs (v - (Phi (2 * PI) - Phi 0)) <= sum_error 0 (2 * PI) w cutoff K (f top).
Proof.
  intros f Phi w cutoff top K lo hi W HC Htop Hlo Hhi Hpk Hnn Hlip Hphi.
  destruct (C65_found f) as (m & E & Hm).
  destruct (C116_near f Phi 0 (2 * PI) w cutoff top K lo hi m W HC Htop Hlo Hhi Hpk Hnn Hlip Hphi ltac:(lra)) as (v & (n & H) & B).
  exists v. split; [|exact B]. exists n. intros fuel L. unfold peak_integral. rewrite E. exact (H fuel L).
Qed.
Print Assumptions C116_search.

(** Any accuracy is reached by small enough steps and cut-offs. *)
Theorem C116_converges : forall f Phi a b top K lo hi e, a <= top <= b -> lo < a -> b < hi ->
  peaked f lo top hi -> nonnegative f lo hi -> slope_at_most K f lo hi -> antiderivative_of Phi f lo hi -> 0 < e ->
  exists w0 c0, 0 < w0 /\ 0 < c0 /\ forall w cutoff m, 0 < w <= w0 -> 0 <= cutoff <= c0 -> a <= m <= b ->
    exists v, (exists n, forall fuel, (n <= fuel)%nat -> peak_evaluate f a b w cutoff fuel m (f m) = Ok (Some v)) /\ Rabs (v - (Phi b - Phi a)) <= e.
Proof.
  intros f Phi a b top K lo hi e Htop Hlo Hhi Hpk Hnn Hlip Hphi He.
  assert (K0 : 0 <= K).
  { pose proof (Hlip lo hi ltac:(lra) ltac:(lra)) as Q. pose proof (Rabs_pos (f lo - f hi)) as P.
    rewrite (Rabs_left (lo - hi)) in Q by lra. apply Rnot_lt_le. intro N. nra. }
  pose proof (Hnn top ltac:(lra)) as T0.
  set (D := b - a + 4). assert (D0 : 0 < D) by (unfold D; lra).
  set (A := 2 * (K * D + 5 * f top) + 1). assert (A0 : 0 < A) by (unfold A; nra).
  set (B := 2 * (f top * D) + 1). assert (B0 : 0 < B) by (unfold B; nra).
  set (w0 := Rmin (Rmin 1 (e / A)) (Rmin ((a - lo) / 2) ((hi - b) / 2))). set (c0 := Rmin 1 (e / B)).
  assert (EA : 0 < e / A) by (apply Rmult_lt_0_compat; [lra|apply Rinv_0_lt_compat; exact A0]).
  assert (EB : 0 < e / B) by (apply Rmult_lt_0_compat; [lra|apply Rinv_0_lt_compat; exact B0]).
  exists w0, c0. split; [unfold w0; repeat apply Rmin_glb_lt; lra|]. split; [unfold c0; apply Rmin_glb_lt; lra|].
  intros w cutoff m Hw Hc Hm.
  assert (X1 : w <= 1 /\ w <= e / A /\ w <= (a - lo) / 2 /\ w <= (hi - b) / 2).
  { assert (Q1 := Rmin_l (Rmin 1 (e / A)) (Rmin ((a - lo) / 2) ((hi - b) / 2))). assert (Q2 := Rmin_r (Rmin 1 (e / A)) (Rmin ((a - lo) / 2) ((hi - b) / 2))).
    assert (Q3 := Rmin_l 1 (e / A)). assert (Q4 := Rmin_r 1 (e / A)). assert (Q5 := Rmin_l ((a - lo) / 2) ((hi - b) / 2)). assert (Q6 := Rmin_r ((a - lo) / 2) ((hi - b) / 2)).
    unfold w0 in Hw. lra. }
  assert (X2 : cutoff <= 1 /\ cutoff <= e / B).
  { assert (Q1 := Rmin_l 1 (e / B)). assert (Q2 := Rmin_r 1 (e / B)). unfold c0 in Hc. lra. }
  destruct X1 as (W1 & W2 & W3 & W4). destruct X2 as (C1 & C2).
  destruct (C116_near f Phi a b w cutoff top K lo hi m ltac:(lra) ltac:(lra) Htop ltac:(lra) ltac:(lra) Hpk Hnn Hlip Hphi Hm) as (v & H & Hb).
  exists v. split; [exact H|]. eapply Rle_trans; [exact Hb|]. unfold sum_error.
  assert (Y0 : 0 <= K * w + cutoff * f top) by (apply Rplus_le_le_0_compat; apply Rmult_le_pos; lra).
  assert (Y1 : (K * w + cutoff * f top) * (b - a + 4 * w) <= (K * w + cutoff * f top) * D) by (apply Rmult_le_compat_l; [exact Y0|unfold D; lra]).
  assert (Y2 : w * A <= e). { replace e with (e / A * A) by (field; lra). apply Rmult_le_compat_r; lra. }
  assert (Y3 : cutoff * B <= e). { replace e with (e / B * B) by (field; lra). apply Rmult_le_compat_r; lra. }
  unfold A in Y2. unfold B in Y3. lra.
Qed.
Print Assumptions C116_converges.

(** The parabola 100 - (x - 3)^2, between 0 and 2 pi. *)
Definition parabola (x : R) : R := 100 - (x - 3) * (x - 3).
Definition parabola_integral (x : R) : R := 100 * x - (x - 3) ^ 3 / 3.
Example C116_example : peaked parabola (-2) 3 (2 * PI + 1) /\ nonnegative parabola (-2) (2 * PI + 1) /\ slope_at_most 20 parabola (-2) (2 * PI + 1) /\
  antiderivative_of parabola_integral parabola (-2) (2 * PI + 1) /\ 0 <= 3 <= 2 * PI /\ -2 <= 0 - 2 * (1/2) /\ 2 * PI + 2 * (1/2) <= 2 * PI + 1.
Proof.
  destruct pi_bounds as (P1 & P2).
  split. { unfold parabola. split; intros x y H1 H2 H3; nra. }
  split. { unfold parabola. intros x Hx. nra. }
  split. { unfold parabola. intros x y Hx Hy. replace (100 - (x - 3) * (x - 3) - (100 - (y - 3) * (y - 3))) with ((6 - x - y) * (x - y)) by ring.
    rewrite Rabs_mult. apply Rmult_le_compat_r; [apply Rabs_pos|]. apply Rabs_le. lra. }
  split; [|lra]. intros x Hx. unfold parabola_integral, parabola.
  replace (100 - (x - 3) * (x - 3)) with (100 * 1 - (1 / 3) * ((INR 3 * (x - 3) ^ Init.Nat.pred 3) * (1 - 0))) by (cbn [INR Init.Nat.pred pow]; field).
  apply (derivable_pt_lim_minus (fun x => 100 * x) (fun x => (x - 3) ^ 3 / 3)).
  - apply (derivable_pt_lim_scal id 100). apply derivable_pt_lim_id.
  - apply (derivable_pt_lim_ext (fun x => 1 / 3 * (x - 3) ^ 3)); [intro; field|].
    apply (derivable_pt_lim_scal (fun x => (x - 3) ^ 3) (1 / 3)). apply (derivable_pt_lim_comp (fun x => x - 3) (fun x => x ^ 3)).
    + apply (derivable_pt_lim_minus id (fct_cte 3)); [apply derivable_pt_lim_id|apply derivable_pt_lim_const].
    + apply derivable_pt_lim_pow.
Qed.
