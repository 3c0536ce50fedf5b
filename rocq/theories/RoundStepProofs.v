From Coq Require Import Reals List Lra Lia.
From Coquelicot Require Rcomplements.
From Verif Require Import Base AlgebraModel IntegratorModel IntegratorSpec StepProofs ConvergeSpec ConvergeProofs AlgebraRoundSpec RoundStepModel RoundStepSpec.
Import ListNotations.
Local Open Scope R_scope.

Section Rounding.
Variable rnd : R -> R.
Variables u eta : R.
Hypothesis Hrnd : accurate rnd u eta.
Hypothesis Hu : u <= 1 / 100000.
Variable h : R.
Hypothesis Hh : 0 < h.
Hypothesis Heh : eta <= u * h.
Hypothesis Heu : eta <= u.

Lemma u_pos : 0 <= u. Proof. exact (proj1 Hrnd). Qed.
Lemma rnd_err : forall x, Rabs (rnd x - x) <= u * Rabs x + eta. Proof. exact (proj2 (proj2 Hrnd)). Qed.
Lemma uh_pos : 0 <= u * h. Proof. apply Rmult_le_pos; [exact u_pos|lra]. Qed.
Lemma abs_near : forall x y e, Rabs (x - y) <= e -> Rabs x <= Rabs y + e.
Proof. intros x y e H. replace x with (y + (x - y)) at 1 by ring. pose proof (Rabs_triang y (x - y)). lra. Qed.

Lemma factor_error : forall a, Rabs (rnd (h * rnd a) - h * a) <= 21 / 10 * (u * h * (Rabs a + 1)).
Proof.
  intro a. pose proof u_pos as U0. pose proof uh_pos as UH. pose proof (Rabs_pos a) as A0. set (A := Rabs a) in *.
  assert (E1 : Rabs (rnd a - a) <= u * (A + 1)) by (pose proof (rnd_err a) as Q; fold A in Q; lra).
  pose proof (abs_near _ _ _ E1) as B1. fold A in B1.
  assert (B2 : Rabs (rnd a) <= 11 / 10 * (A + 1)) by (assert (u * (A + 1) <= 1 / 100000 * (A + 1)) by (apply Rmult_le_compat_r; lra); lra).
  assert (E2 : Rabs (rnd (h * rnd a) - h * rnd a) <= u * h * (A + u * (A + 1)) + u * h).
  { pose proof (rnd_err (h * rnd a)) as Q. rewrite (Rabs_mult h), (Rabs_pos_eq h) in Q by lra.
    assert (u * (h * Rabs (rnd a)) <= u * h * (A + u * (A + 1))) by (rewrite <- Rmult_assoc; apply Rmult_le_compat_l; [exact UH|exact B1]). lra. }
  assert (E3 : Rabs (h * (rnd a - a)) <= h * (u * (A + 1))) by (rewrite Rabs_mult, (Rabs_pos_eq h) by lra; apply Rmult_le_compat_l; lra).
  replace (rnd (h * rnd a) - h * a) with ((rnd (h * rnd a) - h * rnd a) + h * (rnd a - a)) by ring.
  pose proof (abs_add_le _ _ _ _ E2 E3) as Q. eapply Rle_trans; [exact Q|].
  assert (Z : u * (u * h * (A + 1)) <= 1 / 100000 * (u * h * (A + 1))) by (apply Rmult_le_compat_r; [apply Rmult_le_pos; lra|exact Hu]).
  assert (0 <= u * h * (A + 1)) by (apply Rmult_le_pos; lra).
  replace (u * h * (A + u * (A + 1)) + u * h + h * (u * (A + 1))) with (2 * (u * h * (A + 1)) + u * (u * h * (A + 1))) by ring. lra.
Qed.

Lemma term_error : forall a x k kap m, 0 <= kap -> 0 <= m -> Rabs (x - k) <= kap -> Rabs k <= m ->
  Rabs (r_term rnd h a x - h * a * k) <= h * Rabs a * kap + 5 * (u * h * (Rabs a + 1)) * (kap + m) + u * h.
Proof.
  intros a x k kap m K0 M0 Hx Hk. pose proof u_pos as U0. pose proof uh_pos as UH. pose proof (Rabs_pos a) as A0. set (A := Rabs a) in *.
  unfold r_term. pose proof (factor_error a) as E. fold A in E. set (g := rnd (h * rnd a)) in *. set (z := u * h * (A + 1)) in *.
  assert (Z0 : 0 <= z) by (unfold z; apply Rmult_le_pos; lra).
  assert (HA0 : 0 <= h * A) by (apply Rmult_le_pos; lra).
  pose proof (abs_near _ _ _ E) as G1. rewrite Rabs_mult, (Rabs_pos_eq h) in G1 by lra. fold A in G1.
  pose proof (abs_near _ _ _ Hx) as X1. assert (X2 : Rabs x <= kap + m) by lra.
  pose proof (rnd_err (g * x)) as E2. rewrite Rabs_mult in E2.
  assert (G2 : u * (Rabs g * Rabs x) <= 11 / 10 * z * (kap + m)).
  { rewrite <- Rmult_assoc. apply Rmult_le_compat; [apply Rmult_le_pos; [lra|apply Rabs_pos]|apply Rabs_pos| |exact X2].
    assert (u * Rabs g <= u * (h * A + 21 / 10 * z)) by (apply Rmult_le_compat_l; lra).
    assert (u * z <= 1 / 100000 * z) by (apply Rmult_le_compat_r; lra).
    assert (u * (h * A) <= z) by (unfold z; replace (u * h * (A + 1)) with (u * (h * A) + u * h) by ring; lra). lra. }
  assert (E3 : Rabs (g * (x - k)) <= (h * A + 21 / 10 * z) * kap) by (apply abs_mul_le; assumption).
  assert (E4 : Rabs ((g - h * a) * k) <= 21 / 10 * z * m) by (apply abs_mul_le; assumption).
  replace (rnd (g * x) - h * a * k) with ((rnd (g * x) - g * x) + (g * (x - k) + (g - h * a) * k)) by ring.
  pose proof (abs_add_le _ _ _ _ E2 (abs_add_le _ _ _ _ E3 E4)) as Q.
  assert (0 <= z * kap) by (apply Rmult_le_pos; assumption). assert (0 <= z * m) by (apply Rmult_le_pos; assumption). lra.
Qed.

(** The exact sum of h*a*k, and the sum of |a|. *)
Fixpoint wsum (l : list (R * (R * R))) : R := match l with [] => 0 | (a, (_, k)) :: r => a * k + wsum r end.
Fixpoint asum (l : list (R * (R * R))) : R := match l with [] => 0 | (a, _) :: r => Rabs a + asum r end.
Lemma asum_pos : forall l, 0 <= asum l.
Proof. induction l as [|(a, xk) l IH]; [cbn [asum]; lra|]. cbn [asum]. pose proof (Rabs_pos a). lra. Qed.

Lemma r_sum_error : forall kap m P, 0 <= kap -> 0 <= m -> forall l, Forall (fun p => Rabs (fst (snd p) - snd (snd p)) <= kap /\ Rabs (snd (snd p)) <= m) l ->
  forall s x E, Rabs (s - x) <= E -> Rabs x + h * m * asum l <= P ->
  Rabs (r_sum rnd h s (map (fun p => (fst p, fst (snd p))) l) - (x + h * wsum l)) <=
    (1 + u) ^ length l * (E + h * kap * asum l + 5 * (u * h) * (kap + m) * (asum l + INR (length l)) + INR (length l) * (2 * (u * h) + u * P)).
Proof.
  intros kap m P K0 M0. pose proof u_pos as U0. pose proof uh_pos as UH.
  induction l as [|(a, (xx, k)) l IH]; intros F s x E Hs HP.
  - cbn [map r_sum wsum asum length INR pow]. cbn [asum] in HP. pose proof (Rabs_pos (s - x)). replace (x + h * 0) with x by ring. lra.
  - pose proof (Forall_inv F) as H1. pose proof (Forall_inv_tail F) as F'. cbn [fst snd] in H1. destruct H1 as (Hxx & Hk).
    cbn [map fst snd r_sum wsum length]. cbn [asum] in HP |- *. rewrite S_INR.
    pose proof (Rabs_pos a) as A0. pose proof (asum_pos l) as S0. pose proof (pos_INR (length l)) as N0. set (A := Rabs a) in *.
    pose proof (term_error a xx k kap m K0 M0 Hxx Hk) as T1. fold A in T1. set (tau := r_term rnd h a xx) in *.
    set (e := h * A * kap + 5 * (u * h * (A + 1)) * (kap + m) + u * h) in *.
    assert (HM : 0 <= h * m) by (apply Rmult_le_pos; lra).
    assert (Hx' : Rabs (x + h * a * k) <= Rabs x + h * m * A).
    { eapply Rle_trans; [apply Rabs_triang|]. apply Rplus_le_compat_l. rewrite !Rabs_mult, (Rabs_pos_eq h) by lra. fold A.
      replace (h * m * A) with (h * A * m) by ring. apply Rmult_le_compat_l; [apply Rmult_le_pos; lra|exact Hk]. }
    assert (HP' : Rabs (x + h * a * k) + h * m * asum l <= P) by (replace (h * m * (A + asum l)) with (h * m * A + h * m * asum l) in HP by ring; lra).
    assert (HPx : Rabs (x + h * a * k) <= P) by (assert (0 <= h * m * asum l) by (apply Rmult_le_pos; assumption); lra).
    assert (T2 : Rabs (s + tau - (x + h * a * k)) <= E + e).
    { replace (s + tau - (x + h * a * k)) with ((s - x) + (tau - h * a * k)) by ring. exact (abs_add_le _ _ _ _ Hs T1). }
    pose proof (rnd_err (s + tau)) as T3. pose proof (abs_near _ _ _ T2) as T4.
    assert (T5 : u * Rabs (s + tau) <= u * (P + (E + e))) by (apply Rmult_le_compat_l; lra).
    assert (T6 : Rabs (rnd (s + tau) - (x + h * a * k)) <= (u * (P + (E + e)) + u * h) + (E + e)).
    { replace (rnd (s + tau) - (x + h * a * k)) with ((rnd (s + tau) - (s + tau)) + (s + tau - (x + h * a * k))) by ring.
      apply abs_add_le; [lra|exact T2]. }
    specialize (IH F' _ _ _ T6 HP').
    replace (x + h * (a * k + wsum l)) with (x + h * a * k + h * wsum l) by ring.
    eapply Rle_trans; [exact IH|]. match goal with |- _ <= (1 + u) ^ S ?n * ?X => replace ((1 + u) ^ S n * X) with ((1 + u) ^ n * ((1 + u) * X)) by (cbn [pow]; ring) end.
    apply Rmult_le_compat_l; [apply pow_le; lra|].
    assert (KM : 0 <= kap + m) by lra.
    assert (Q1 : 0 <= h * kap * asum l) by (apply Rmult_le_pos; [apply Rmult_le_pos; lra|exact S0]).
    assert (Q2 : 0 <= 5 * (u * h) * (kap + m) * (asum l + INR (length l))) by (apply Rmult_le_pos; [apply Rmult_le_pos; lra|lra]).
    assert (P0 : 0 <= P) by (pose proof (Rabs_pos (x + h * a * k)); lra).
    assert (UP : 0 <= u * P) by (apply Rmult_le_pos; assumption).
    assert (Q3 : 0 <= INR (length l) * (2 * (u * h) + u * P)) by (apply Rmult_le_pos; lra).
    set (q1 := h * kap * asum l) in *. set (q2 := 5 * (u * h) * (kap + m) * (asum l + INR (length l))) in *. set (q3 := INR (length l) * (2 * (u * h) + u * P)) in *.
    replace (E + h * kap * (A + asum l) + 5 * (u * h) * (kap + m) * (A + asum l + (INR (length l) + 1)) + (INR (length l) + 1) * (2 * (u * h) + u * P))
      with (E + e + q1 + q2 + q3 + (u * h + u * P)) by (unfold e, q1, q2, q3; ring).
    assert (0 <= u * q1) by (apply Rmult_le_pos; assumption). assert (0 <= u * q2) by (apply Rmult_le_pos; assumption). assert (0 <= u * q3) by (apply Rmult_le_pos; assumption).
    assert (0 <= u * (u * h + u * P)) by (apply Rmult_le_pos; lra). lra.
Qed.

(** Sums of at most five terms. *)
Lemma r_sum_five : forall kap m B W l s, 0 <= kap -> 0 <= m -> (length l <= 5)%nat -> asum l <= W -> W <= 25 -> Rabs s <= B ->
  Forall (fun p => Rabs (fst (snd p) - snd (snd p)) <= kap /\ Rabs (snd (snd p)) <= m) l ->
  Rabs (r_sum rnd h s (map (fun p => (fst p, fst (snd p))) l) - (s + h * wsum l)) <= (W + 1 / 10) * (h * kap) + u * (6 * B + 300 * (h * m) + 11 * h).
Proof.
  intros kap m B W l s K0 M0 Hlen HW HW2 Hs F. pose proof u_pos as U0. pose proof uh_pos as UH.
  pose proof (asum_pos l) as S0. pose proof (Rabs_pos s) as As.
  assert (HM : 0 <= h * m) by (apply Rmult_le_pos; lra). assert (HK : 0 <= h * kap) by (apply Rmult_le_pos; lra).
  set (P := B + 25 * (h * m)).
  assert (HP : Rabs s + h * m * asum l <= P) by (assert (h * m * asum l <= h * m * 25) by (apply Rmult_le_compat_l; lra); unfold P; lra).
  pose proof (r_sum_error kap m P K0 M0 l F s s 0 ltac:(rewrite Rminus_diag_eq, Rabs_R0 by reflexivity; lra) HP) as X.
  eapply Rle_trans; [exact X|]. clear X.
  assert (N5 : INR (length l) <= 5) by (replace 5 with (INR 5) by (cbn [INR]; lra); apply le_INR; exact Hlen).
  pose proof (pos_INR (length l)) as N0.
  assert (PW : (1 + u) ^ length l <= 1 + 1 / 10000).
  { apply Rle_trans with ((1 + u) ^ 5); [apply Rle_pow; [lra|exact Hlen]|]. apply Rle_trans with ((1 + 1 / 100000) ^ 5); [apply pow_incr; lra|]. cbn [pow]. lra. }
  assert (P0 : 0 <= P) by (unfold P; lra).
  assert (UP : 0 <= u * P) by (apply Rmult_le_pos; assumption).
  set (q := h * kap) in *. set (r := h * m) in *.
  assert (B1 : q * asum l <= q * W) by (apply Rmult_le_compat_l; assumption).
  assert (B2 : 5 * (u * h) * (kap + m) * (asum l + INR (length l)) <= 5 * (u * h) * (kap + m) * 30).
  { apply Rmult_le_compat_l; [apply Rmult_le_pos; lra|lra]. }
  assert (B3 : INR (length l) * (2 * (u * h) + u * P) <= 5 * (2 * (u * h) + u * P)) by (apply Rmult_le_compat_r; lra).
  assert (B4 : u * q <= 1 / 100000 * q) by (apply Rmult_le_compat_r; assumption).
  replace (5 * (u * h) * (kap + m) * 30) with (150 * (u * q) + 150 * (u * r)) in B2 by (unfold q, r; ring).
  assert (UR : 0 <= u * r) by (apply Rmult_le_pos; assumption). assert (UB : 0 <= u * B) by (apply Rmult_le_pos; lra).
  assert (EP : u * P = u * B + 25 * (u * r)) by (unfold P; ring).
  apply Rle_trans with ((1 + 1 / 10000) * (q * W + 150 / 100000 * q + 275 * (u * r) + 10 * (u * h) + 5 * (u * B))).
  - apply Rmult_le_compat; [apply pow_le; lra| |exact PW|lra].
    assert (0 <= q * asum l) by (apply Rmult_le_pos; assumption).
    assert (0 <= 5 * (u * h) * (kap + m) * (asum l + INR (length l))) by (apply Rmult_le_pos; [apply Rmult_le_pos; lra|lra]).
    assert (0 <= INR (length l) * (2 * (u * h) + u * P)) by (apply Rmult_le_pos; lra). lra.
  - assert (q * W <= q * 25) by (apply Rmult_le_compat_l; assumption).
    replace ((W + 1 / 10) * q) with (q * W + 1 / 10 * q) by ring.
    replace (u * (6 * B + 300 * r + 11 * h)) with (6 * (u * B) + 300 * (u * r) + 11 * (u * h)) by ring. lra.
Qed.

(** The times of the stages. *)
Lemma node_error : forall T c, 0 <= T -> 1 / 10 <= c <= 1 -> Rabs (r_node rnd T h c - (T + c * h)) <= u * (T + 9 * h) /\ 0 <= r_node rnd T h c.
Proof.
  intros T c HT Hc. pose proof u_pos as U0. pose proof uh_pos as UH. unfold r_node.
  pose proof (factor_error c) as E. rewrite (Rabs_pos_eq c) in E by lra. rewrite (Rmult_comm h (rnd c)) in E.
  set (g := rnd (rnd c * h)) in *.
  assert (E' : Rabs (g - c * h) <= 42 / 10 * (u * h)).
  { rewrite (Rmult_comm c h). eapply Rle_trans; [exact E|]. assert (u * h * (c + 1) <= u * h * 2) by (apply Rmult_le_compat_l; lra). lra. }
  apply Rcomplements.Rabs_le_between in E'.
  assert (CH : 1 / 10 * h <= c * h <= h) by (split; [apply Rmult_le_compat_r; lra|replace h with (1 * h) at 2 by ring; apply Rmult_le_compat_r; lra]).
  assert (U1 : u * h <= 1 / 100000 * h) by (apply Rmult_le_compat_r; lra).
  assert (G0 : 0 <= T + g) by lra.
  pose proof (rnd_err (T + g)) as E2. rewrite (Rabs_pos_eq (T + g)) in E2 by exact G0. apply Rcomplements.Rabs_le_between in E2.
  assert (U2 : u * (T + g) <= u * (T + 2 * h)) by (apply Rmult_le_compat_l; lra).
  assert (U3 : u * (T + g) <= 1 / 100000 * (T + g)) by (apply Rmult_le_compat_r; lra).
  replace (u * (T + 2 * h)) with (u * T + 2 * (u * h)) in U2 by ring.
  split; [|lra]. replace (u * (T + 9 * h)) with (u * T + 9 * (u * h)) by ring. apply Rabs_le. lra.
Qed.
Lemma time_error : forall T, 0 <= T -> Rabs (rnd (T + h) - (T + h)) <= u * (T + 2 * h) /\ 0 <= rnd (T + h).
Proof.
  intros T HT. pose proof u_pos as U0. pose proof uh_pos as UH. pose proof (rnd_err (T + h)) as E. rewrite (Rabs_pos_eq (T + h)) in E by lra.
  replace (u * (T + 2 * h)) with (u * (T + h) + u * h) by ring. split; [lra|].
  apply Rcomplements.Rabs_le_between in E. assert (u * (T + h) <= 1 / 100000 * (T + h)) by (apply Rmult_le_compat_r; lra).
  assert (u * h <= 1 / 100000 * h) by (apply Rmult_le_compat_r; lra). lra.
Qed.
End Rounding.

Lemma wsum_bound : forall m l, 0 <= m -> Forall (fun p : R * (R * R) => Rabs (snd (snd p)) <= m) l -> Rabs (wsum l) <= asum l * m.
Proof.
  intros m l M0. induction l as [|(a, (x, k)) l IH]; intro F; [cbn [wsum asum]; rewrite Rabs_R0; lra|].
  pose proof (Forall_inv F) as H1. pose proof (Forall_inv_tail F) as F'. cbn [fst snd] in H1. cbn [wsum asum]. specialize (IH F').
  eapply Rle_trans; [apply Rabs_triang|]. rewrite Rabs_mult, Rmult_plus_distr_r. apply Rplus_le_compat; [|exact IH].
  apply Rmult_le_compat_l; [apply Rabs_pos|exact H1].
Qed.

(** * One step *)
Section Step.
Variable rnd : R -> R.
Variables u eta : R.
Hypothesis Hrnd : accurate rnd u eta.
Hypothesis Hu : u <= 1 / 100000.
Variable N : nat.
Hypothesis HN : (1 <= N)%nat.
Variables f rf : R -> vec -> vec.
Variables Tend L phi Bs : R.
Hypothesis HL : 0 <= L.
Hypothesis Hlip : lipschitz N Tend L f.
Hypothesis Hrf : near_rhs N Tend Bs phi f rf.
Variables T h : R.
Hypothesis HT : 0 <= T.
Hypothesis Hh : 0 < h.
Hypothesis Hend : (T + h) * (1 + 10 * u) <= Tend.
Hypothesis Hsmall : 50 * L * h <= 1.
Hypothesis Heh : eta <= u * h.
Hypothesis Heu : eta <= u.
Variables y yp : vec.
Variables B G : R.
Hypothesis HB : forall j, (j < N)%nat -> Rabs (y j) <= B.
Hypothesis HG : forall j, (j < N)%nat -> Rabs (f T y j) <= G.
Hypothesis Hyp : close N phi yp (f T y).
Hypothesis HuB : u * (T + 9 * B) <= 1 / 10.
Hypothesis HBs : B + 1 + 60 * h * (G + 1) + 80 * h * phi <= Bs.

Let m : R := 2 * (G + L * h).
Let tau : R := u * (T + 9 * h).
Let rho : R := u * (6 * B + 300 * (h * m) + 11 * h).
Let K : R := 3 * (phi + L * tau + L * rho).

Lemma step_facts : 0 <= u /\ 0 <= phi /\ 0 <= B /\ 0 <= G /\ 0 <= m /\ 0 <= tau /\ 0 <= rho /\ 0 <= K /\ 0 <= h * m /\ 0 <= h * K /\
  T + h <= Tend /\ h * m <= 2 * (h * G) + h / 25 /\ h * K <= 3 * (h * phi) + 3 / 50 * (tau + rho).
Proof.
  pose proof (proj1 Hrnd) as U0.
  pose proof (close_pos N _ _ _ HN Hyp) as P0.
  assert (B0 : 0 <= B) by (pose proof (HB 0%nat ltac:(lia)); pose proof (Rabs_pos (y 0%nat)); lra).
  assert (G0 : 0 <= G) by (pose proof (HG 0%nat ltac:(lia)); pose proof (Rabs_pos (f T y 0%nat)); lra).
  assert (LH : 0 <= L * h) by (apply Rmult_le_pos; lra).
  assert (M0 : 0 <= m) by (unfold m; lra).
  assert (HM : 0 <= h * m) by (apply Rmult_le_pos; lra).
  assert (Ta : 0 <= tau) by (unfold tau; apply Rmult_le_pos; lra).
  assert (Rh : 0 <= rho) by (unfold rho; apply Rmult_le_pos; lra).
  assert (LT : 0 <= L * tau) by (apply Rmult_le_pos; assumption). assert (LR : 0 <= L * rho) by (apply Rmult_le_pos; assumption).
  assert (K0 : 0 <= K) by (unfold K; lra).
  assert (HK : 0 <= h * K) by (apply Rmult_le_pos; lra).
  assert (E1 : T + h <= Tend) by (assert (0 <= (T + h) * (10 * u)) by (apply Rmult_le_pos; lra); lra).
  assert (E2 : h * m <= 2 * (h * G) + h / 25).
  { unfold m. replace (h * (2 * (G + L * h))) with (2 * (h * G) + 2 * (h * (L * h))) by ring.
    assert (h * (L * h) <= h * (1 / 50)) by (apply Rmult_le_compat_l; lra). lra. }
  assert (E3 : h * K <= 3 * (h * phi) + 3 / 50 * (tau + rho)).
  { unfold K. replace (h * (3 * (phi + L * tau + L * rho))) with (3 * (h * phi) + 3 * ((L * h) * (tau + rho))) by ring.
    assert ((L * h) * (tau + rho) <= 1 / 50 * (tau + rho)) by (apply Rmult_le_compat_r; lra). lra. }
  repeat (split; [assumption|]). exact E3.
Qed.

(** Everything the right-hand side is asked about lies within [Bs]. *)
Lemma stage_room : B + 25 * (h * m) + ((25 + 1 / 10) * (h * K) + rho) <= Bs.
Proof.
  destruct step_facts as (U0 & P0 & B0 & G0 & M0 & Ta & Rh & K0 & HM & HK & E1 & E2 & E3).
  assert (HG0 : 0 <= h * G) by (apply Rmult_le_pos; lra).
  assert (U1 : u * h <= 1 / 100000 * h) by (apply Rmult_le_compat_r; lra).
  assert (U2 : u * (h * m) <= 1 / 100000 * (h * m)) by (apply Rmult_le_compat_r; lra).
  assert (UT : 0 <= u * T) by (apply Rmult_le_pos; assumption). assert (UB : 0 <= u * B) by (apply Rmult_le_pos; assumption).
  assert (Et : tau = u * T + 9 * (u * h)) by (unfold tau; ring).
  assert (Er : rho = 6 * (u * B) + 300 * (u * (h * m)) + 11 * (u * h)) by (unfold rho; ring).
  replace (u * (T + 9 * B)) with (u * T + 9 * (u * B)) in HuB by ring.
  assert (HP0 : 0 <= h * phi) by (apply Rmult_le_pos; lra).
  replace (60 * h * (G + 1)) with (60 * (h * G) + 60 * h) in HBs by ring.
  replace (80 * h * phi) with (80 * (h * phi)) in HBs by ring. lra.
Qed.

Variable k : nat -> vec.
Hypothesis Hk : forall i, (i < 7)%nat -> k i = f (T + dp_c i * h) (fun n => y n + h * rsum 7 (fun j => dp_a i j * k j n)).

Lemma stage_near : forall i (l : nat -> list (R * (R * R))) tt, (i < 7)%nat ->
  (forall n, (n < N)%nat -> (length (l n) <= 5)%nat /\ asum (l n) <= 25 /\
     Forall (fun p => Rabs (fst (snd p) - snd (snd p)) <= K /\ Rabs (snd (snd p)) <= m) (l n) /\ wsum (l n) = rsum 7 (fun j => dp_a i j * k j n)) ->
  Rabs (tt - (T + dp_c i * h)) <= tau -> 0 <= tt ->
  close N K (rf tt (fun n => r_sum rnd h (y n) (map (fun p => (fst p, fst (snd p))) (l n)))) (k i).
Proof.
  intros i l tt Hi Hl Htt Ht0. destruct step_facts as (U0 & P0 & B0 & G0 & M0 & Ta & Rh & K0 & HM & HK & E1 & E2 & E3).
  destruct (node_time Tend T h HT Hh E1 i Hi) as (Hnode & _).
  set (arg := fun n => r_sum rnd h (y n) (map (fun p => (fst p, fst (snd p))) (l n))).
  assert (X : close N ((25 + 1 / 10) * (h * K) + rho) arg (fun n => y n + h * rsum 7 (fun j => dp_a i j * k j n))).
  { intros n Hn. destruct (Hl n Hn) as (L1 & L2 & L3 & L4). rewrite <- L4. unfold arg, rho.
    exact (r_sum_five rnd u eta Hrnd Hu h Hh Heh Heu K m B 25 (l n) (y n) K0 M0 L1 L2 ltac:(lra) (HB n Hn) L3). }
  assert (Xb : forall n, (n < N)%nat -> Rabs (arg n) <= Bs).
  { intros n Hn. destruct (Hl n Hn) as (L1 & L2 & L3 & L4). pose proof (X n Hn) as Q. cbv beta in Q. rewrite <- L4 in Q.
    pose proof (abs_near _ _ _ Q) as Q1. pose proof (HB n Hn) as Q2. pose proof (Rabs_triang (y n) (h * wsum (l n))) as Q3.
    assert (Q4 : Rabs (h * wsum (l n)) <= 25 * (h * m)).
    { rewrite Rabs_mult, (Rabs_pos_eq h) by lra. replace (25 * (h * m)) with (h * (25 * m)) by ring. apply Rmult_le_compat_l; [lra|].
      apply Rle_trans with (asum (l n) * m); [|apply Rmult_le_compat_r; assumption].
      apply wsum_bound; [exact M0|]. apply Forall_forall. intros p Hp. exact (proj2 (proj1 (Forall_forall _ _) L3 p Hp)). }
    pose proof stage_room. lra. }
  assert (Htend : 0 <= tt <= Tend).
  { split; [exact Ht0|]. apply Rcomplements.Rabs_le_between in Htt. pose proof (node_range i Hi) as C.
    assert (dp_c i * h <= 1 * h) by (apply Rmult_le_compat_r; lra).
    assert (tau <= (T + h) * (10 * u)).
    { unfold tau. replace ((T + h) * (10 * u)) with (u * (10 * (T + h))) by ring. apply Rmult_le_compat_l; lra. }
    lra. }
  rewrite (Hk i Hi). pose proof (Hrf tt arg Htend Xb) as C1. pose proof (Hlip _ _ _ _ _ Htend Hnode X) as C2.
  apply (close_weaken N _ _ _ _ (close_trans N _ _ _ _ _ C1 C2)).
  assert (L * Rabs (tt - (T + dp_c i * h)) <= L * tau) by (apply Rmult_le_compat_l; assumption).
  assert ((50 * L * h) * K <= 1 * K) by (apply Rmult_le_compat_r; assumption).
  unfold K in *. lra.
Qed.
End Step.

Ltac row_len := cbn [length]; lia.
Ltac row_abs := cbn [asum]; unfold a21, a31, a32, a41, a42, a43, a51, a52, a53, a54, a61, a62, a63, a64, a65, a71, a73, a74, a75, a76; abs_consts; lra.
Ltac row_sum := unfold rsum; cbn [wsum seq map fold_right dp_a]; ring.

Lemma rounded_step_near : forall rnd u eta N f rf Tend L phi Bs T h y yp B G, accurate rnd u eta -> u <= 1 / 100000 -> (1 <= N)%nat -> 0 <= L ->
  lipschitz N Tend L f -> near_rhs N Tend Bs phi f rf -> 0 <= T -> 0 < h -> (T + h) * (1 + 10 * u) <= Tend -> 50 * L * h <= 1 -> eta <= u * h -> eta <= u ->
  (forall j, (j < N)%nat -> Rabs (y j) <= B) -> (forall j, (j < N)%nat -> Rabs (f T y j) <= G) -> close N phi yp (f T y) ->
  u * (T + 9 * B) <= 1 / 10 -> B + 1 + 60 * h * (G + 1) + 80 * h * phi <= Bs ->
  close N (step_rounding u phi B G T h) (a_yout (r_inner_step rnd rf T h y yp)) (a_yout (inner_step f T h y (f T y))).
Proof.
  intros rnd u eta N f rf Tend L phi Bs T h y yp B G Hrnd Hu HN HL Hlip Hrf HT Hh Hend Hsmall Heh Heu HB HG Hyp HuB HBs.
  destruct (inner_step_stages f T h y) as (k & Hk & Ek & _ & _ & _ & _ & _ & K1).
  destruct (step_facts rnd u eta Hrnd N HN f Tend L phi HL T h HT Hh Hend Hsmall y yp B G HB HG Hyp) as (U0 & P0 & B0 & G0 & M0 & Ta & Rh & K0 & HM & HK & E1 & E2 & E3).
  pose proof (stage_bound N f Tend L T h y G HN HL Hlip HT Hh E1 Hsmall HG k Hk) as Bd.
  pose proof (stage_near rnd u eta Hrnd Hu N HN f rf Tend L phi Bs HL Hlip Hrf T h HT Hh Hend Hsmall Heh Heu y yp B G HB HG Hyp HuB HBs k Hk) as St.
  set (m := 2 * (G + L * h)) in *. set (tau := u * (T + 9 * h)) in *. set (rho := u * (6 * B + 300 * (h * m) + 11 * h)) in *. set (K := 3 * (phi + L * tau + L * rho)) in *.
  assert (PK : phi <= K).
  { assert (0 <= L * tau) by (apply Rmult_le_pos; assumption). assert (0 <= L * rho) by (apply Rmult_le_pos; assumption). unfold K. lra. }
  assert (C0 : close N K yp (k 0%nat)) by (rewrite K1; exact (close_weaken N _ _ _ _ Hyp PK)).
  assert (Node : forall c, 1 / 10 <= c <= 1 -> Rabs (r_node rnd T h c - (T + c * h)) <= tau /\ 0 <= r_node rnd T h c) by (intros c Hc; exact (node_error rnd u eta Hrnd Hu h Hh Heh Heu T c HT Hc)).
  assert (Last : Rabs (rnd (T + h) - (T + 1 * h)) <= tau /\ 0 <= rnd (T + h)).
  { destruct (time_error rnd u eta Hrnd Hu h Hh Heh T HT) as (Q & Q'). split; [|exact Q']. rewrite Rmult_1_l. eapply Rle_trans; [exact Q|].
    unfold tau. apply Rmult_le_compat_l; lra. }
  unfold r_inner_step. cbn [a_yout].
  set (k2 := rf (r_node rnd T h c2) _).
  assert (C1 : close N K k2 (k 1%nat)).
  { destruct (Node c2 ltac:(unfold c2; lra)) as (Nd & Nd'). apply (St 1%nat (fun n => [(a21, (yp n, k 0%nat n))]) _ ltac:(lia)); [|exact Nd|exact Nd'].
    intros n Hn. split; [row_len|split; [row_abs|split; [|row_sum]]]. cbv beta. repeat (apply Forall_cons; [cbn [fst snd]; split; first [apply C0; exact Hn|apply Bd; [lia|exact Hn]]|]); apply Forall_nil. }
  clearbody k2. set (k3 := rf (r_node rnd T h c3) _).
  assert (C2 : close N K k3 (k 2%nat)).
  { destruct (Node c3 ltac:(unfold c3; lra)) as (Nd & Nd'). apply (St 2%nat (fun n => [(a31, (yp n, k 0%nat n)); (a32, (k2 n, k 1%nat n))]) _ ltac:(lia)); [|exact Nd|exact Nd'].
    intros n Hn. split; [row_len|split; [row_abs|split; [|row_sum]]]. cbv beta. repeat (apply Forall_cons; [cbn [fst snd]; split; first [apply C0; exact Hn|apply C1; exact Hn|apply Bd; [lia|exact Hn]]|]); apply Forall_nil. }
  clearbody k3. set (k4 := rf (r_node rnd T h c4) _).
  assert (C3 : close N K k4 (k 3%nat)).
  { destruct (Node c4 ltac:(unfold c4; lra)) as (Nd & Nd'). apply (St 3%nat (fun n => [(a41, (yp n, k 0%nat n)); (a42, (k2 n, k 1%nat n)); (a43, (k3 n, k 2%nat n))]) _ ltac:(lia)); [|exact Nd|exact Nd'].
    intros n Hn. split; [row_len|split; [row_abs|split; [|row_sum]]]. cbv beta. repeat (apply Forall_cons; [cbn [fst snd]; split; first [apply C0; exact Hn|apply C1; exact Hn|apply C2; exact Hn|apply Bd; [lia|exact Hn]]|]); apply Forall_nil. }
  clearbody k4. set (k5 := rf (r_node rnd T h c5) _).
  assert (C4 : close N K k5 (k 4%nat)).
  { destruct (Node c5 ltac:(unfold c5; lra)) as (Nd & Nd'). apply (St 4%nat (fun n => [(a51, (yp n, k 0%nat n)); (a52, (k2 n, k 1%nat n)); (a53, (k3 n, k 2%nat n)); (a54, (k4 n, k 3%nat n))]) _ ltac:(lia)); [|exact Nd|exact Nd'].
    intros n Hn. split; [row_len|split; [row_abs|split; [|row_sum]]]. cbv beta. repeat (apply Forall_cons; [cbn [fst snd]; split; first [apply C0; exact Hn|apply C1; exact Hn|apply C2; exact Hn|apply C3; exact Hn|apply Bd; [lia|exact Hn]]|]); apply Forall_nil. }
  clearbody k5. set (k6 := rf (rnd (T + h)) _).
  assert (C5 : close N K k6 (k 5%nat)).
  { destruct Last as (Nd & Nd'). apply (St 5%nat (fun n => [(a61, (yp n, k 0%nat n)); (a62, (k2 n, k 1%nat n)); (a63, (k3 n, k 2%nat n)); (a64, (k4 n, k 3%nat n)); (a65, (k5 n, k 4%nat n))]) _ ltac:(lia)); [|exact Nd|exact Nd'].
    intros n Hn. split; [row_len|split; [row_abs|split; [|row_sum]]]. cbv beta. repeat (apply Forall_cons; [cbn [fst snd]; split; first [apply C0; exact Hn|apply C1; exact Hn|apply C2; exact Hn|apply C3; exact Hn|apply C4; exact Hn|apply Bd; [lia|exact Hn]]|]); apply Forall_nil. }
  clearbody k6. intros n Hn. rewrite Ek.
  pose (l := [(a71, (yp n, k 0%nat n)); (a73, (k3 n, k 2%nat n)); (a74, (k4 n, k 3%nat n)); (a75, (k5 n, k 4%nat n)); (a76, (k6 n, k 5%nat n))]).
  assert (W : wsum l = rsum 7 (fun i => dp_b i * k i n)) by (unfold l, dp_b; row_sum).
  rewrite <- W.
  assert (X : Rabs (r_sum rnd h (y n) (map (fun p => (fst p, fst (snd p))) l) - (y n + h * wsum l)) <= (2 + 1 / 10) * (h * K) + u * (6 * B + 300 * (h * m) + 11 * h)).
  { apply (r_sum_five rnd u eta Hrnd Hu h Hh Heh Heu K m B 2 l (y n) K0 M0); [unfold l; row_len|unfold l; row_abs|lra|exact (HB n Hn)|].
    unfold l. cbv beta. repeat (apply Forall_cons; [cbn [fst snd]; split; first [apply C0; exact Hn|apply C1; exact Hn|apply C2; exact Hn|apply C3; exact Hn|apply C4; exact Hn|apply C5; exact Hn|apply Bd; [lia|exact Hn]]|]); apply Forall_nil. }
  fold rho in X. eapply Rle_trans; [exact X|]. unfold step_rounding.
  assert (HP0 : 0 <= h * phi) by (apply Rmult_le_pos; lra).
  assert (E4 : u * (h * m) <= 2 * (u * (h * G)) + u * h / 25).
  { replace (2 * (u * (h * G)) + u * h / 25) with (u * (2 * (h * G) + h / 25)) by field. apply Rmult_le_compat_l; assumption. }
  assert (Et : tau = u * T + 9 * (u * h)) by (unfold tau; ring).
  assert (Er : rho = 6 * (u * B) + 300 * (u * (h * m)) + 11 * (u * h)) by (unfold rho; ring).
  replace (7 * h * phi + u * (T + 12 * B + h * (1200 * G + 55))) with (7 * (h * phi) + (u * T + 12 * (u * B) + 1200 * (u * (h * G)) + 55 * (u * h))) by ring. lra.
Qed.

(** * Histories *)
Lemma points_derivative : forall rnd rf y0 hs, let '((t, y, yp), _) := r_points rnd rf y0 hs in yp = rf t y.
Proof.
  intros rnd rf y0 hs. destruct hs as [|h hs]; [reflexivity|]. cbn [r_points]. destruct (r_points rnd rf y0 hs) as (((t, y), yp), l). reflexivity.
Qed.

Lemma round_rate_pos : forall u phi L F B Tend hmin, 0 <= u -> 0 <= phi -> 0 <= L -> 0 <= F -> 0 <= B -> 0 <= Tend -> 0 < hmin -> 0 <= round_rate u phi L F B Tend hmin.
Proof.
  intros u phi L F B Tend hmin U P HL HF HB HT Hm. unfold round_rate.
  assert (0 <= u * (1200 * (F + L) + F + 55)) by (apply Rmult_le_pos; lra).
  assert (0 <= (1 + F) * Tend) by (apply Rmult_le_pos; lra).
  assert (0 <= u * ((1 + F) * Tend + 12 * (B + 1)) / hmin).
  { apply Rmult_le_pos; [apply Rmult_le_pos; lra|]. apply Rlt_le, Rinv_0_lt_compat. exact Hm. }
  lra.
Qed.

Lemma rounded_history : forall rnd u eta N f rf Tend L phi Bs F B Y H hmin c0 delta y0,
  accurate rnd u eta -> u <= 1 / 100000 -> (1 <= N)%nat -> 0 <= L -> lipschitz N Tend L f -> near_rhs N Tend Bs phi f rf ->
  solves N Tend f Y -> speed_at_most N Tend F f Y -> size_at_most N Tend B Y ->
  0 < hmin -> 50 * L * H <= 1 -> eta <= u * hmin -> eta <= u -> 0 <= Tend -> 4 * u * Tend <= hmin ->
  u * (Tend + 9 * (B + 1)) <= 1 / 10 -> B + 2 + 60 * H * (F + L + 1) + 80 * H * phi <= Bs ->
  0 <= c0 -> (forall t h, 0 <= t -> 0 < h <= H -> t + h <= Tend -> close N (c0 * h) (a_yout (inner_step f t h (Y t) (f t (Y t)))) (Y (t + h))) ->
  0 <= phi -> close N delta y0 (Y 0) -> rounded_error u phi L F B Tend hmin c0 delta Tend <= 1 ->
  forall hs, Forall (fun h => hmin <= h <= H) hs -> forall t y yp l, r_points rnd rf y0 hs = ((t, y, yp), l) ->
  0 <= t /\ (t * (1 + 20 * u) <= Tend -> close N (rounded_error u phi L F B Tend hmin c0 delta t) y (Y t) /\
    forall t1 y1 yp1, In (t1, y1, yp1) l -> 0 <= t1 <= Tend /\ close N (rounded_error u phi L F B Tend hmin c0 delta t1) y1 (Y t1)).
Proof.
  intros rnd u eta N f rf Tend L phi Bs F B Y H hmin c0 delta y0 Hrnd Hu HN HL Hlip Hrf HY HF HB Hmin HH Hem Heu HTe HuT HuB HBs Hc0 Hloc PHI Hd HE1.
  pose proof (proj1 Hrnd) as U0.
  assert (F0 : 0 <= F) by (pose proof (HF 0 0%nat ltac:(lra) ltac:(lia)); pose proof (Rabs_pos (f 0 (Y 0) 0%nat)); lra).
  assert (B0 : 0 <= B) by (pose proof (HB 0 0%nat ltac:(lra) ltac:(lia)); pose proof (Rabs_pos (Y 0 0%nat)); lra).
  induction hs as [|h hs IH]; intros Hhs t y yp l E.
  - cbn [r_points] in E. injection E as E1 E2 E3 E4. subst t y yp l. split; [lra|]. intros _. split; [|intros ? ? ? []].
    unfold rounded_error. rewrite !Rmult_0_r, exp_0. replace ((delta + 0) * 1) with delta by ring. exact Hd.
  - pose proof (Forall_inv Hhs) as Hh. pose proof (Forall_inv_tail Hhs) as Hhs'. cbv beta in Hh.
    cbn [r_points] in E. pose proof (points_derivative rnd rf y0 hs) as Hder.
    destruct (r_points rnd rf y0 hs) as (((T, z), zp), l0) eqn:E0.
    specialize (IH Hhs' T z zp l0 eq_refl). destruct IH as (HT & IH).
    remember (r_inner_step rnd rf T h z zp) as st eqn:Ea in E. injection E as Et Ey Ep El.
    assert (Hhp : 0 < h) by lra.
    assert (Heh : eta <= u * h) by (assert (u * hmin <= u * h) by (apply Rmult_le_compat_l; lra); lra).
    destruct (time_error rnd u eta Hrnd Hu h Hhp Heh T HT) as (Te & Tp). rewrite Et in Te, Tp.
    split; [exact Tp|]. intro Hend.
    apply Rcomplements.Rabs_le_between in Te.
    assert (U1 : u * (T + 2 * h) <= 2 * u * (T + h)) by (replace (2 * u * (T + h)) with (u * (2 * (T + h))) by ring; apply Rmult_le_compat_l; lra).
    assert (TH0 : 0 <= T + h) by lra.
    assert (U2 : 2 * u * (T + h) <= 2 / 100000 * (T + h)) by (apply Rmult_le_compat_r; lra).
    (* the exact time of the step *)
    assert (U3 : (T + h) * (1 + 10 * u) <= t * (1 + 20 * u)).
    { assert (Q : (T + h) * (1 - 2 * u) <= t) by (replace ((T + h) * (1 - 2 * u)) with (T + h - 2 * u * (T + h)) by ring; lra).
      apply Rle_trans with ((T + h) * (1 - 2 * u) * (1 + 20 * u)); [|apply Rmult_le_compat_r; lra].
      rewrite Rmult_assoc. apply Rmult_le_compat_l; [exact TH0|]. assert (u * u <= 1 / 100000 * u) by (apply Rmult_le_compat_r; lra). lra. }
    assert (He : (T + h) * (1 + 10 * u) <= Tend) by lra.
    assert (UT0 : 0 <= u * (T + h)) by (apply Rmult_le_pos; assumption).
    assert (Hle : T + h <= Tend) by lra.
    assert (U4 : u * T <= u * Tend) by (apply Rmult_le_compat_l; lra).
    assert (U5 : u * h <= 1 / 100000 * h) by (apply Rmult_le_compat_r; lra).
    assert (Hh2 : h / 2 <= t - T).
    { replace (u * (T + 2 * h)) with (u * T + 2 * (u * h)) in Te by ring. lra. }
    assert (UT : 0 <= u * T) by (apply Rmult_le_pos; assumption).
    assert (Ht2 : t <= Tend) by (assert (0 <= t * (20 * u)) by (apply Rmult_le_pos; lra); lra).
    assert (HTe2 : T * (1 + 20 * u) <= Tend).
    { apply Rle_trans with (t * (1 + 20 * u)); [apply Rmult_le_compat_r; lra|exact Hend]. }
    destruct (IH HTe2) as (IHc & IHl). clear IH.
    assert (Hsm : 50 * L * h <= 1) by (assert (50 * L * h <= 50 * L * H) by (apply Rmult_le_compat_l; lra); lra).
    set (c := c0 + round_rate u phi L F B Tend hmin) in *.
    assert (C0 : 0 <= c) by (unfold c; pose proof (round_rate_pos u phi L F B Tend hmin U0 PHI HL F0 B0 HTe Hmin); lra).
    pose proof (close_pos N _ _ _ HN Hd) as D0.
    set (D := rounded_error u phi L F B Tend hmin c0 delta T) in *.
    pose proof (close_pos N _ _ _ HN IHc) as HD.
    assert (ED : D = (delta + 2 * c * T) * exp (8 * L * T)) by reflexivity.
    assert (D1 : D <= 1).
    { eapply Rle_trans; [|exact HE1]. rewrite ED. unfold rounded_error. fold c.
      assert (0 <= c * T) by (apply Rmult_le_pos; assumption).
      assert (c * T <= c * Tend) by (apply Rmult_le_compat_l; lra).
      apply Rmult_le_compat; [lra|apply Rlt_le, exp_pos|lra|].
      destruct (Req_dec (8 * L * T) (8 * L * Tend)) as [->|Ne]; [lra|]. apply Rlt_le, exp_increasing.
      assert (8 * L * T <= 8 * L * Tend) by (apply Rmult_le_compat_l; lra). lra. }
    assert (Zb : forall j, (j < N)%nat -> Rabs (z j) <= B + 1).
    { intros j Hj. pose proof (abs_near _ _ _ (IHc j Hj)). pose proof (HB T j ltac:(lra) Hj). lra. }
    assert (Zf : forall j, (j < N)%nat -> Rabs (f T z j) <= F + L).
    { intros j Hj. pose proof (Hlip T T z (Y T) D ltac:(lra) ltac:(lra) IHc j Hj) as Q. replace (T - T) with 0 in Q by ring. rewrite Rabs_R0, Rplus_0_l in Q.
      pose proof (abs_near _ _ _ Q). pose proof (HF T j ltac:(lra) Hj). assert (L * D <= L * 1) by (apply Rmult_le_compat_l; lra). lra. }
    assert (HFL : 0 <= F + L + 1) by lra.
    assert (HB1 : h * (F + L + 1) <= H * (F + L + 1)) by (apply Rmult_le_compat_r; lra).
    assert (HB2 : h * phi <= H * phi) by (apply Rmult_le_compat_r; lra).
    assert (Zp : close N phi zp (f T z)).
    { rewrite Hder. apply Hrf; [lra|]. intros j Hj. pose proof (Zb j Hj).
      assert (0 <= h * (F + L + 1)) by (apply Rmult_le_pos; lra). assert (0 <= h * phi) by (apply Rmult_le_pos; lra). lra. }
    assert (HuB' : u * (T + 9 * (B + 1)) <= 1 / 10) by (eapply Rle_trans; [|exact HuB]; apply Rmult_le_compat_l; lra).
    pose proof (rounded_step_near rnd u eta N f rf Tend L phi Bs T h z zp (B + 1) (F + L) Hrnd Hu HN HL Hlip Hrf HT Hhp He Hsm Heh Heu Zb Zf Zp HuB' ltac:(lra)) as S0.
    rewrite <- Ea, Ey in S0.
    pose proof (step_stable N HN f Tend L HL Hlip T h HT Hhp Hle Hsm z (Y T) D IHc) as S1.
    pose proof (Hloc T h HT ltac:(lra) Hle) as S2.
    assert (S3 : close N (F * (u * (Tend + h))) (Y (T + h)) (Y t)).
    { intros j Hj. assert (W : u * (T + 2 * h) <= u * (Tend + h)) by (apply Rmult_le_compat_l; lra).
      assert (X : forall a b, 0 <= a -> a < b -> b <= Tend -> b - a <= u * (Tend + h) -> Rabs (Y b j - Y a j) <= F * (u * (Tend + h))).
      { intros a b Ha Hab Hb Hba. destruct (MVT_cor2 (fun s => Y s j) (fun s => f s (Y s) j) a b Hab) as (x & Ex & Hx); [intros x Hx; apply HY; [lra|exact Hj]|].
        cbv beta in Ex. rewrite Ex. apply abs_mul_le; [apply HF; [lra|exact Hj]|rewrite Rabs_pos_eq by lra; exact Hba]. }
      destruct (Rtotal_order (T + h) t) as [Lt|[Eq|Gt]].
      - rewrite Rabs_minus_sym. apply X; lra.
      - rewrite Eq, Rminus_diag_eq, Rabs_R0 by reflexivity. apply Rmult_le_pos; [exact F0|lra].
      - apply X; lra. }
    pose proof (close_trans N _ _ _ _ _ S0 (close_trans N _ _ _ _ _ S1 (close_trans N _ _ _ _ _ S2 S3))) as S4.
    split.
    + apply (close_weaken N _ _ _ _ S4). clear S0 S1 S2 S3 S4 IHl IHc Zb Zf Zp Hloc.
      assert (R1 : step_rounding u phi (B + 1) (F + L) T h + (c0 * h + F * (u * (Tend + h))) <= c * h).
      { unfold c, round_rate, step_rounding.
        set (q := u * ((1 + F) * Tend + 12 * (B + 1))).
        assert (Q0 : 0 <= q) by (unfold q; apply Rmult_le_pos; [exact U0|]; assert (0 <= (1 + F) * Tend) by (apply Rmult_le_pos; lra); lra).
        assert (Q1 : q <= q / hmin * h).
        { unfold Rdiv. rewrite Rmult_assoc. replace q with (q * 1) at 1 by ring. apply Rmult_le_compat_l; [exact Q0|].
          apply (Rmult_le_reg_l hmin); [exact Hmin|]. rewrite <- Rmult_assoc, Rinv_r, Rmult_1_l, Rmult_1_r by lra. lra. }
        assert (Eq : q = u * Tend + F * (u * Tend) + 12 * (u * (B + 1))) by (unfold q; ring).
        replace ((c0 + (7 * phi + u * (1200 * (F + L) + F + 55) + q / hmin)) * h) with (c0 * h + 7 * h * phi + u * h * (1200 * (F + L) + 55) + F * (u * h) + q / hmin * h) by ring.
        replace (u * (T + 12 * (B + 1) + h * (1200 * (F + L) + 55))) with (u * T + 12 * (u * (B + 1)) + u * h * (1200 * (F + L) + 55)) by ring.
        replace (F * (u * (Tend + h))) with (F * (u * Tend) + F * (u * h)) by ring.
        lra. }
      change (rounded_error u phi L F B Tend hmin c0 delta t) with ((delta + 2 * c * t) * exp (8 * L * t)).
      set (h' := t - T) in *. assert (Et' : t = T + h') by (unfold h'; ring). rewrite Et'.
      replace (8 * L * (T + h')) with (8 * L * T + 8 * L * h') by ring. rewrite exp_plus.
      assert (X1 : 1 + 8 * L * h' <= exp (8 * L * h')) by apply exp_ineq1_le.
      assert (P1 : 0 <= 8 * L * T) by (apply Rmult_le_pos; lra).
      assert (X2 : 1 <= exp (8 * L * T)) by (pose proof (exp_ineq1_le (8 * L * T)); lra).
      assert (P2 : 0 <= 8 * L * h') by (apply Rmult_le_pos; lra).
      set (a := exp (8 * L * T)) in *. set (b := exp (8 * L * h')) in *.
      assert (Hb : 1 <= b) by lra.
      assert (Hab : 1 <= a * b) by (replace 1 with (1 * 1) by ring; apply Rmult_le_compat; lra).
      assert (Y0 : 4 * L * h <= 8 * L * h') by (replace (4 * L * h) with (8 * L * (h / 2)) by field; apply Rmult_le_compat_l; lra).
      assert (Y1 : D * (1 + 4 * L * h) <= D * b) by (apply Rmult_le_compat_l; lra).
      assert (Y2 : c * h <= 2 * c * h') by (replace (c * h) with (2 * c * (h / 2)) by field; apply Rmult_le_compat_l; lra).
      assert (Y3 : 0 <= 2 * c * h') by (apply Rmult_le_pos; lra).
      assert (Y4 : 2 * c * h' * 1 <= 2 * c * h' * (a * b)) by (apply Rmult_le_compat_l; assumption).
      replace ((delta + 2 * c * (T + h')) * (a * b)) with (D * b + 2 * c * h' * (a * b)) by (rewrite ED; ring). lra.
    + intros t1 y1 yp1 Hin. rewrite <- El in Hin. destruct Hin as [Q|Q].
      * injection Q as Q1 Q2 Q3. subst t1 y1 yp1. split; [lra|exact IHc].
      * exact (IHl t1 y1 yp1 Q).
Qed.
