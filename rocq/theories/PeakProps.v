(** Theorems about the integration of peaked functions (C65, C90). *)
From Coq Require Import Reals ZArith List Lia Lra Psatz.
From Verif Require Import Base PeakModel PeakSpec.
Local Open Scope R_scope.

(** * C65: search for the maximum *)
Lemma golden_number : is_golden invphi.
Proof.
  assert (S5 : sqrt 5 * sqrt 5 = 5) by (apply sqrt_sqrt; lra). assert (L : 2 < sqrt 5) by (replace 2 with (sqrt (2 * 2)) by (apply sqrt_square; lra); apply sqrt_lt_1; lra).
  assert (U : sqrt 5 < 3) by (replace 3 with (sqrt (3 * 3)) by (apply sqrt_square; lra); apply sqrt_lt_1; lra).
  unfold is_golden, invphi. split; [lra|]. replace (1 / 2 * (sqrt 5 - 1) * (1 / 2 * (sqrt 5 - 1))) with ((sqrt 5 * sqrt 5 - 2 * sqrt 5 + 1) / 4) by field. rewrite S5. lra.
Qed.
Lemma golden_bounds : 618 / 1000 < invphi < 619 / 1000.
Proof.
  destruct golden_number as [[L U] E]. split.
  - destruct (Rlt_dec (618 / 1000) invphi); [assumption|exfalso]. assert (invphi * invphi <= 618 / 1000 * (618 / 1000)) by (apply Rmult_le_compat; lra). lra.
  - destruct (Rlt_dec invphi (619 / 1000)); [assumption|exfalso]. assert (619 / 1000 * (619 / 1000) <= invphi * invphi) by (apply Rmult_le_compat; lra). lra.
Qed.
Lemma golden_square : invphi2 = 1 - invphi. Proof. exact (proj2 golden_number). Qed.
Lemma golden_later : forall f n s, golden f (S n) s = golden_step f (golden f n s).
Proof. intros f n. induction n as [|n IH]; intro s; [reflexivity|]. change (golden f (S (S n)) s) with (golden f (S n) (golden_step f s)). rewrite IH. reflexivity. Qed.
Lemma golden_0 : forall f s, golden f 0 s = s. Proof. reflexivity. Qed.

(** The state after any number of rounds: the bracket, its two inner points and the values there. *)
Definition bracketed (f : R -> R) (h : R) (s : bracket) : Prop :=
  wd s = h /\ hi s = lo s + h /\ pc s = lo s + (1 - invphi) * h /\ pd s = lo s + invphi * h /\ yc s = f (pc s) /\ yd s = f (pd s).
Lemma bracketed_step : forall f h s, bracketed f h s -> bracketed f (invphi * h) (golden_step f s).
Proof.
  intros f h s (W & H & C & D & YC & YD). pose proof (proj2 golden_number) as G. unfold golden_step. destruct (Rlt_dec (yd s) (yc s)); unfold bracketed; cbn [wd lo hi pc pd yc yd]; rewrite ?W, ?golden_square; repeat split; try assumption.
  - rewrite C. replace (invphi * (invphi * h)) with ((invphi * invphi) * h) by ring. rewrite G. reflexivity.
  - rewrite H, C. ring.
  - rewrite D, C. replace ((1 - invphi) * (invphi * h)) with ((invphi - invphi * invphi) * h) by ring. rewrite G. ring.
Qed.
Lemma bracketed_start : forall f, bracketed f (2 * PI) (golden_start f).
Proof. intro f. unfold bracketed, golden_start. cbn [wd lo hi pc pd yc yd]. rewrite golden_square. repeat split; ring. Qed.
Lemma bracketed_golden : forall f n, bracketed f (2 * PI * invphi ^ n) (golden f n (golden_start f)).
Proof.
  intros f n. induction n as [|n IH].
  - rewrite golden_0. replace (2 * PI * invphi ^ 0) with (2 * PI) by ring. apply bracketed_start.
  - rewrite golden_later. replace (2 * PI * invphi ^ S n) with (invphi * (2 * PI * invphi ^ n)) by (cbn [pow]; ring). apply bracketed_step, IH.
Qed.
Lemma width_pos : forall n, 0 < 2 * PI * invphi ^ n.
Proof. intro n. pose proof PI_RGT_0. pose proof golden_bounds. apply Rmult_lt_0_compat; [lra|apply pow_lt; lra]. Qed.
Lemma inner_order : forall f h s, 0 < h -> bracketed f h s -> lo s < pc s < pd s /\ pd s < hi s.
Proof.
  intros f h s H (_ & HI & C & D & _). pose proof golden_bounds as G. rewrite HI, C, D.
  assert (0 < (1 - invphi) * h) by (apply Rmult_lt_0_compat; lra). assert (0 < (2 * invphi - 1) * h) by (apply Rmult_lt_0_compat; lra). split; [split|]; lra.
Qed.
Lemma nested_step : forall f h s, 0 < h -> bracketed f h s -> lo s <= lo (golden_step f s) /\ hi (golden_step f s) <= hi s.
Proof. intros f h s H B. destruct (inner_order f h s H B). unfold golden_step. destruct (Rlt_dec (yd s) (yc s)); cbn [lo hi]; lra. Qed.
(** The bracket after n rounds is the (n+1)st of a nested sequence in the starting interval, its
    width is reduced by the golden ratio every time, and it has two inner points at the same
    distance from its ends where the function was evaluated. *)
Theorem C65_bracket : forall f n, let s := golden f n (golden_start f) in
  0 <= lo s /\ lo s < pc s /\ pc s < pd s /\ pd s < hi s /\ hi s <= 2 * PI /\ hi s - lo s = 2 * PI * invphi ^ n /\
  pc s - lo s = hi s - pd s /\ pd s - lo s = invphi * (hi s - lo s) /\ yc s = f (pc s) /\ yd s = f (pd s).
Proof.
  intros f n s. pose proof (bracketed_golden f n) as B. fold s in B. destruct (inner_order f _ s (width_pos n) B) as [[O1 O2] O3].
  assert (N : 0 <= lo s /\ hi s <= 2 * PI).
  { unfold s. clear. induction n as [|n IH]; [rewrite golden_0; cbn; lra|]. rewrite golden_later.
    pose proof (nested_step f _ _ (width_pos n) (bracketed_golden f n)). lra. }
  destruct B as (_ & HI & C & D & YC & YD). repeat split; try lra; try assumption. rewrite D, HI. ring.
Qed.
Print Assumptions C65_bracket.
Theorem C65_nested : forall f n k, (n <= k)%nat -> lo (golden f n (golden_start f)) <= lo (golden f k (golden_start f)) /\ hi (golden f k (golden_start f)) <= hi (golden f n (golden_start f)).
Proof.
  intros f n k H. induction H as [|k H IH]; [lra|]. rewrite golden_later. pose proof (nested_step f _ _ (width_pos k) (bracketed_golden f k)). lra.
Qed.
Print Assumptions C65_nested.

(** Where the values tell the maximum must be. *)
Lemma located : forall f m c d, unimodal f m -> 0 <= c -> c < d -> d <= 2 * PI -> (f d < f c -> m < d) /\ (f c <= f d -> c < m).
Proof.
  intros f m c d (M & U & D) C CD DD. split; intro H.
  - destruct (Rlt_dec m d); [assumption|exfalso]. assert (W := U c d C CD ltac:(lra)). lra.
  - destruct (Rlt_dec c m); [assumption|exfalso]. assert (W := D c d ltac:(lra) CD DD). lra.
Qed.
(** The maximum of a function with a single peak is always in the bracket. *)
Theorem C65_unimodal : forall f m n, unimodal f m -> lo (golden f n (golden_start f)) <= m <= hi (golden f n (golden_start f)).
Proof.
  intros f m n H. induction n as [|n IH]; [rewrite golden_0; destruct H as (M & _); cbn; lra|]. rewrite golden_later.
  destruct (C65_bracket f n) as (L & O1 & O2 & O3 & R & _ & _ & _ & YC & YD). set (s := golden f n (golden_start f)) in *.
  destruct (located f m (pc s) (pd s) H ltac:(lra) O2 ltac:(lra)) as [A B]. unfold golden_step. rewrite YC, YD. destruct (Rlt_dec (f (pd s)) (f (pc s))); cbn [lo hi]; [specialize (A r)|specialize (B ltac:(lra))]; lra.
Qed.
Print Assumptions C65_unimodal.

(** The number of rounds. *)
Lemma ln_golden : ln invphi < 0.
Proof. pose proof golden_bounds. assert (W : ln invphi < ln 1) by (apply ln_increasing; lra). rewrite ln_1 in W. exact W. Qed.
Lemma div_neg_lt : forall x y z, z < 0 -> (x / z < y <-> y * z < x).
Proof.
  intros x y z Z. assert (IZ : / z < 0) by (apply Rinv_lt_0_compat; exact Z). assert (E : x = x / z * z) by (field; lra). split; intro H.
  - rewrite E. assert (0 < (y - x / z) * - z) by (apply Rmult_lt_0_compat; lra). lra.
  - assert (0 < (x - y * z) * - / z) by (apply Rmult_lt_0_compat; lra). replace y with (y * z * / z) by (field; lra). unfold Rdiv. lra.
Qed.
Lemma div_neg_gt : forall x y z, z < 0 -> (y < x / z <-> x < y * z).
Proof.
  intros x y z Z. pose proof (div_neg_lt (- x) (- y) z Z) as W. replace (- x / z) with (- (x / z)) in W by (field; lra). split; intro H; [apply Ropp_lt_cancel; replace (- (y * z)) with (- y * z) by ring; apply W; lra|apply Ropp_lt_cancel; apply W; lra].
Qed.
Definition rounds (tol : R) : R := ln (tol / (2 * PI - 0)) / ln invphi.
Lemma rounds_lt : forall tol y, 0 < tol -> (rounds tol < y <-> 2 * PI * Rpower invphi y < tol).
Proof.
  intros tol y T. pose proof PI_RGT_0 as P. unfold rounds. rewrite (div_neg_lt _ _ _ ln_golden). unfold Rpower. rewrite Rminus_0_r.
  assert (Q : 0 < tol / (2 * PI)) by (apply Rmult_lt_0_compat; [exact T|apply Rinv_0_lt_compat; lra]). assert (E : 2 * PI * (tol / (2 * PI)) = tol) by (field; lra). split; intro H.
  - apply exp_increasing in H. rewrite exp_ln in H by exact Q. rewrite <- E. apply Rmult_lt_compat_l; lra.
  - apply exp_lt_inv. rewrite exp_ln by exact Q. apply Rmult_lt_reg_l with (2 * PI); lra.
Qed.
Lemma rounds_gt : forall tol y, 0 < tol -> (y < rounds tol <-> tol < 2 * PI * Rpower invphi y).
Proof.
  intros tol y T. pose proof PI_RGT_0 as P. unfold rounds. rewrite (div_neg_gt _ _ _ ln_golden). unfold Rpower. rewrite Rminus_0_r.
  assert (Q : 0 < tol / (2 * PI)) by (apply Rmult_lt_0_compat; [exact T|apply Rinv_0_lt_compat; lra]). assert (E : 2 * PI * (tol / (2 * PI)) = tol) by (field; lra). split; intro H.
  - apply exp_increasing in H. rewrite exp_ln in H by exact Q. rewrite <- E. apply Rmult_lt_compat_l; lra.
  - apply exp_lt_inv. rewrite exp_ln by exact Q. apply Rmult_lt_reg_l with (2 * PI); lra.
Qed.
Lemma rpower_nat : forall n, Rpower invphi (INR n) = invphi ^ n.
Proof. intro n. apply Rpower_pow. pose proof golden_bounds. lra. Qed.
Lemma find_maximum_ok : forall f tol x, find_maximum f tol = Ok x -> exists n, x = golden_answer (golden f n (golden_start f)) /\ 2 * PI * invphi ^ S n < tol /\ (n = 0%nat \/ tol <= 2 * PI * invphi ^ n).
Proof.
  intros f tol x H. unfold find_maximum in H. destruct (Rlt_dec 0 tol) as [T|]; [|discriminate]. fold (rounds tol) in H. unfold to_unsigned in H.
  destruct (Rlt_dec (-1) (rounds tol)) as [Q1|]; [|discriminate]. destruct (Rlt_dec (rounds tol) (IZR 4294967296)) as [Q2|]; [|discriminate]. cbn [obind] in H. injection H as <-.
  exists (Z.to_nat (Int_part (rounds tol))). split; [reflexivity|]. destruct (base_Int_part (rounds tol)) as [B1 B2]. split.
  - rewrite <- rpower_nat. apply rounds_lt; [exact T|]. rewrite S_INR, INR_IZR_INZ. assert (IZR (Int_part (rounds tol)) <= IZR (Z.of_nat (Z.to_nat (Int_part (rounds tol))))) by (apply IZR_le; lia). lra.
  - destruct (Z_lt_le_dec (Int_part (rounds tol)) 0) as [N|N]; [left; lia|right]. rewrite <- rpower_nat, INR_IZR_INZ, Z2Nat.id by exact N.
    destruct (Rle_dec tol (2 * PI * Rpower invphi (IZR (Int_part (rounds tol))))) as [|C]; [assumption|exfalso]. apply Rnot_le_lt in C. apply rounds_lt in C; [lra|exact T].
Qed.
(** The search ends with a point in the starting interval for every tolerance in the range given
    here. For any other the number of rounds is undefined. *)
Theorem C65_terminates : forall f tol,
  (0 < tol /\ 2 * PI * Rpower invphi (IZR 4294967296) < tol < 2 * PI / invphi -> exists x, find_maximum f tol = Ok x /\ 0 < x < 2 * PI) /\
  (~ (0 < tol /\ 2 * PI * Rpower invphi (IZR 4294967296) < tol < 2 * PI / invphi) -> find_maximum f tol = UB).
Proof.
  intros f tol. assert (E : 0 < tol -> (2 * PI * Rpower invphi (IZR 4294967296) < tol < 2 * PI / invphi <-> -1 < rounds tol /\ rounds tol < IZR 4294967296)).
  { intro T. rewrite (rounds_gt tol (-1) T), (rounds_lt tol _ T). replace (-1) with (- (1)) by reflexivity. rewrite Rpower_Ropp, Rpower_1 by (pose proof golden_bounds; lra). unfold Rdiv. tauto. }
  split.
  - intros [T H]. apply E in H; [|exact T]. destruct H as [H1 H2]. unfold find_maximum. destruct (Rlt_dec 0 tol); [|contradiction]. fold (rounds tol). unfold to_unsigned.
    destruct (Rlt_dec (-1) (rounds tol)); [|contradiction]. destruct (Rlt_dec (rounds tol) (IZR 4294967296)); [|contradiction]. cbn [obind]. eexists. split; [reflexivity|].
    destruct (C65_bracket f (Z.to_nat (Int_part (rounds tol)))) as (L & O1 & O2 & O3 & R & _). unfold golden_answer. destruct (Rlt_dec _ _); lra.
  - intro H. unfold find_maximum. destruct (Rlt_dec 0 tol) as [T|]; [|reflexivity]. fold (rounds tol). unfold to_unsigned.
    destruct (Rlt_dec (-1) (rounds tol)) as [H1|]; [|reflexivity]. destruct (Rlt_dec (rounds tol) (IZR 4294967296)) as [H2|]; [|reflexivity]. exfalso. apply H. split; [exact T|]. apply E; [exact T|]. split; assumption.
Qed.
Print Assumptions C65_terminates.
(** It depends on the values in the starting interval only. *)
Theorem C65_local : forall f g tol, (forall x, 0 <= x <= 2 * PI -> f x = g x) -> find_maximum f tol = find_maximum g tol.
Proof.
  intros f g tol H. assert (G : forall n, golden f n (golden_start f) = golden g n (golden_start g)).
  { induction n as [|n IH].
    - rewrite !golden_0. destruct (C65_bracket f 0) as (L & O1 & O2 & O3 & R & _). rewrite golden_0 in *. unfold golden_start in *. cbn [lo hi pc pd] in *. f_equal; apply H; lra.
    - rewrite !golden_later, <- IH. destruct (C65_bracket f (S n)) as (L & O1 & O2 & O3 & R & _). rewrite golden_later in *. set (s := golden f n (golden_start f)) in *. unfold golden_step in *.
      destruct (Rlt_dec (yd s) (yc s)); cbn [lo hi pc pd] in *; f_equal; apply H; lra. }
  unfold find_maximum. destruct (Rlt_dec 0 tol); [|reflexivity]. destruct (to_unsigned _); [|reflexivity|reflexivity]. cbn [obind]. rewrite G. reflexivity.
Qed.
Print Assumptions C65_local.

Lemma answer_error : forall f n m, unimodal f m -> let h := 2 * PI * invphi ^ n in
  (1 - 3 / 2 * invphi) * h < Rabs (golden_answer (golden f n (golden_start f)) - m) <= (1 - invphi / 2) * h.
Proof.
  intros f n m H h. destruct (C65_bracket f n) as (L & O1 & O2 & O3 & U & W & CD & D & YC & YD). pose proof (C65_unimodal f m n H) as B. set (s := golden f n (golden_start f)) in *. fold h in W.
  rewrite W in D. destruct (located f m (pc s) (pd s) H ltac:(lra) O2 ltac:(lra)) as [A1 A2]. unfold golden_answer. rewrite YC, YD.
  pose proof golden_bounds as G. assert (K : 0 < (1 - 3 / 2 * invphi) * h) by (apply Rmult_lt_0_compat; [lra|apply width_pos]).
  assert (HI : hi s = lo s + h) by lra. assert (PC : pc s = lo s + (h - invphi * h)) by lra. assert (PD : pd s = lo s + invphi * h) by lra.
  destruct (Rlt_dec (f (pc s)) (f (pd s))) as [C|C].
  - specialize (A2 ltac:(lra)). rewrite Rabs_left by lra. lra.
  - destruct (Req_EM_T (f (pc s)) (f (pd s))) as [Q|Q].
    + specialize (A2 ltac:(lra)). assert (M : m < pd s). { destruct (Rlt_dec m (pd s)); [assumption|exfalso]. destruct H as (_ & I & _). assert (V := I (pc s) (pd s) ltac:(lra) O2 ltac:(lra)). lra. }
      rewrite Rabs_right by lra. lra.
    + specialize (A1 ltac:(lra)). rewrite Rabs_right by lra. lra.
Qed.
(** For a function with a single peak the error is less than 1.12 times the tolerance. *)
Theorem C65_error : forall f m tol x, unimodal f m -> find_maximum f tol = Ok x -> Rabs (x - m) < (1 / invphi - 1 / 2) * tol.
Proof.
  intros f m tol x H E. apply find_maximum_ok in E. destruct E as (n & -> & T & _). pose proof (proj2 (answer_error f n m H)) as B. pose proof golden_bounds as G.
  apply Rle_lt_trans with (1 := B). replace ((1 - invphi / 2) * (2 * PI * invphi ^ n)) with ((1 / invphi - 1 / 2) * (2 * PI * invphi ^ S n)) by (cbn [pow]; field; lra).
  apply Rmult_lt_compat_l; [|exact T]. assert (1 < / invphi) by (rewrite <- Rinv_1; apply Rinv_lt_contravar; lra). lra.
Qed.
Print Assumptions C65_error.
Lemma pi_bounds : 3 < PI /\ PI <= 52 / 15.
Proof.
  split; [pose proof PI2_3_2; lra|]. destruct (PI_ineq 1) as [_ W]. unfold PI_tg, tg_alt in W. cbn [sum_f_R0 Nat.mul Nat.add pow] in W. rewrite <- !INR_IZR_INZ in W || idtac.
  assert (E1 : INR 3 = 3) by (simpl; lra). assert (E2 : INR 5 = 5) by (simpl; lra). assert (E3 : INR 1 = 1) by reflexivity.
  rewrite ?E1, ?E2, ?E3 in W. lra.
Qed.
Lemma golden_13 : 19170 / 10000000 < invphi ^ 13 < 19200 / 10000000.
Proof.
  pose proof golden_bounds as G. pose proof (proj2 golden_number) as G2.
  assert (F13 : invphi ^ 13 = 233 * invphi - 144).
  { replace (invphi ^ 13) with (let g2 := invphi * invphi in let g4 := g2 * g2 in let g8 := g4 * g4 in g8 * g4 * invphi) by (cbn zeta; ring). cbn zeta. rewrite !G2.
    assert (A : (1 - invphi) * (1 - invphi) = 2 - 3 * invphi) by (replace ((1 - invphi) * (1 - invphi)) with (1 - 2 * invphi + invphi * invphi) by ring; rewrite G2; ring). rewrite !A.
    assert (B : (2 - 3 * invphi) * (2 - 3 * invphi) = 13 - 21 * invphi) by (replace ((2 - 3 * invphi) * (2 - 3 * invphi)) with (4 - 12 * invphi + 9 * (invphi * invphi)) by ring; rewrite G2; ring). rewrite B.
    replace ((13 - 21 * invphi) * (2 - 3 * invphi) * invphi) with (26 * invphi - 81 * (invphi * invphi) + 63 * (invphi * invphi) * invphi) by ring. rewrite G2.
    replace (26 * invphi - 81 * (1 - invphi) + 63 * (1 - invphi) * invphi) with (-81 + 170 * invphi - 63 * (invphi * invphi)) by ring. rewrite G2. ring. }
  (* Sharper bounds for the ratio, so that the power is known to two digits. *)
  assert (L : 61803398 / 100000000 < invphi).
  { destruct (Rlt_dec (61803398 / 100000000) invphi); [assumption|exfalso]. assert (invphi * invphi <= 61803398 / 100000000 * (61803398 / 100000000)) by (apply Rmult_le_compat; lra). lra. }
  assert (U : invphi < 61803399 / 100000000).
  { destruct (Rlt_dec invphi (61803399 / 100000000)); [assumption|exfalso]. assert (61803399 / 100000000 * (61803399 / 100000000) <= invphi * invphi) by (apply Rmult_le_compat; lra). lra. }
  rewrite F13; lra.
Qed.
(** There always is an answer with the default tolerance, in the starting interval. *)
Theorem C65_found : forall f, exists x, find_maximum f default_tol = Ok x /\ 0 < x < 2 * PI.
Proof.
  intro f. pose proof golden_bounds as G. destruct pi_bounds as [P1 P2]. pose proof golden_13 as B13.
  apply (proj1 (C65_terminates f default_tol)). unfold default_tol. split; [lra|]. split.
    - apply (rounds_lt (1 / 100)); [lra|]. apply Rlt_trans with (INR 14); [|simpl; lra]. apply rounds_lt; [lra|]. rewrite rpower_nat. change (invphi ^ 14) with (invphi * invphi ^ 13).
      assert (invphi * invphi ^ 13 < 619 / 1000 * (19200 / 10000000)) by (apply Rmult_gt_0_lt_compat; lra). assert (2 * PI * (invphi * invphi ^ 13) < 8 * (619 / 1000 * (19200 / 10000000))) by (apply Rmult_gt_0_lt_compat; try lra; apply Rmult_lt_0_compat; lra). lra.
    - unfold Rdiv. assert (1 < / invphi) by (rewrite <- Rinv_1; apply Rinv_lt_contravar; lra). assert (1 * 1 < 2 * PI * / invphi) by (apply Rmult_gt_0_lt_compat; lra). lra.
Qed.
Print Assumptions C65_found.
(** With the default tolerance it is less than that tolerance. *)
Theorem C65_default : forall f m, unimodal f m -> exists x, find_maximum f default_tol = Ok x /\ Rabs (x - m) < default_tol.
Proof.
  intros f m H. pose proof golden_bounds as G. destruct pi_bounds as [P1 P2]. pose proof golden_13 as B13.
  destruct (C65_found f) as (x & E & _). exists x. split; [exact E|]. apply find_maximum_ok in E. destruct E as (n & -> & T & _). pose proof (proj2 (answer_error f n m H)) as B. unfold default_tol in *.
  assert (N : (13 <= n)%nat).
  { destruct (le_lt_dec 13 n); [assumption|exfalso]. assert (W : invphi ^ 13 <= invphi ^ S n).
    { replace 13%nat with (S n + (13 - S n))%nat by lia. rewrite pow_add. rewrite <- (Rmult_1_r (invphi ^ S n)) at 2. apply Rmult_le_compat_l; [apply pow_le; lra|].
      rewrite <- (pow1 (13 - S n)). apply pow_incr. lra. }
    assert (6 * (19170 / 10000000) <= 2 * PI * invphi ^ S n) by (apply Rmult_le_compat; lra). lra. }
  assert (W : invphi ^ n <= invphi ^ 13).
  { replace n with (13 + (n - 13))%nat by lia. rewrite pow_add. rewrite <- (Rmult_1_r (invphi ^ 13)) at 2. apply Rmult_le_compat_l; [apply pow_le; lra|].
    rewrite <- (pow1 (n - 13)). apply pow_incr. lra. }
  assert (P : 0 < invphi ^ n) by (apply pow_lt; lra).
  assert (V : 2 * PI * invphi ^ n <= 104 / 15 * (19200 / 10000000)) by (apply Rmult_le_compat; lra).
  assert (Z : (1 - invphi / 2) * (2 * PI * invphi ^ n) <= 692 / 1000 * (104 / 15 * (19200 / 10000000))) by (apply Rmult_le_compat; try lra; pose proof (width_pos n); lra). lra.
Qed.
Print Assumptions C65_default.
(** The middle of the half where the maximum cannot be is returned, so it is never found exactly,
    and the last bracket contains points that are closer. *)
Theorem C65_wrong_half : forall f m n, unimodal f m -> let s := golden f n (golden_start f) in let x := golden_answer s in
  (x < pc s /\ pc s < m) \/ (m < pd s /\ pd s < x).
Proof.
  intros f m n H s x. destruct (C65_bracket f n) as (L & O1 & O2 & O3 & U & W & CD & D & YC & YD). fold s in L, O1, O2, O3, U, W, CD, D, YC, YD.
  destruct (located f m (pc s) (pd s) H ltac:(lra) O2 ltac:(lra)) as [A1 A2]. pose proof golden_bounds as G. pose proof (width_pos n) as WP. rewrite W in D. set (h := 2 * PI * invphi ^ n) in *.
  assert (K : 0 < (1 - 3 / 2 * invphi) * h) by (apply Rmult_lt_0_compat; lra). unfold x, golden_answer. rewrite YC, YD. destruct (Rlt_dec (f (pc s)) (f (pd s))) as [C|C]; [left|right].
  - specialize (A2 ltac:(lra)). split; [|exact A2]. lra.
  - split; [|lra]. destruct (Req_EM_T (f (pc s)) (f (pd s))) as [Q|Q]; [|apply A1; lra].
    destruct (Rlt_dec m (pd s)); [assumption|exfalso]. destruct H as (_ & I & _). assert (V := I (pc s) (pd s) ltac:(lra) O2 ltac:(lra)). lra.
Qed.
Print Assumptions C65_wrong_half.
(** So the tolerance does not bound the error. *)
Theorem C65_tolerance_refuted : ~ (forall f m tol x, unimodal f m -> find_maximum f tol = Ok x -> Rabs (x - m) <= tol).
Proof.
  intro H. pose proof golden_bounds as G. pose proof PI_RGT_0 as P. set (tol := 65 / 100 * (2 * PI)).
  assert (U : unimodal (fun x => x) (2 * PI)) by (unfold unimodal; repeat split; intros; lra).
  assert (T : 0 < tol) by (unfold tol; lra).
  assert (X : exists x, find_maximum (fun x => x) tol = Ok x).
  { destruct (proj1 (C65_terminates (fun x => x) tol)) as (x & E & _); [|exists x; exact E]. split; [exact T|]. split.
    - apply rounds_lt; [exact T|]. apply Rlt_trans with (INR 1); [|simpl; lra]. apply rounds_lt; [exact T|]. rewrite rpower_nat, pow_1. unfold tol. assert (2 * PI * invphi < 2 * PI * (65 / 100)) by (apply Rmult_lt_compat_l; lra). lra.
    - unfold tol, Rdiv. assert (1 < / invphi) by (rewrite <- Rinv_1; apply Rinv_lt_contravar; lra). assert (2 * PI * 1 < 2 * PI * / invphi) by (apply Rmult_lt_compat_l; lra). lra. }
  destruct X as (x & E). assert (B := H _ _ _ _ U E). apply find_maximum_ok in E. destruct E as (n & -> & _ & N).
  assert (Z : n = 0%nat).
  { destruct N as [N|N]; [exact N|]. destruct n as [|n]; [reflexivity|exfalso]. unfold tol in N. assert (W : invphi ^ S n <= invphi ^ 1).
    { change (S n) with (1 + n)%nat. rewrite pow_add. rewrite <- (Rmult_1_r (invphi ^ 1)) at 2. apply Rmult_le_compat_l; [apply pow_le; lra|]. rewrite <- (pow1 n). apply pow_incr. lra. }
    rewrite pow_1 in W. assert (2 * PI * invphi ^ S n <= 2 * PI * (64 / 100)) by (apply Rmult_le_compat_l; lra). lra. }
  subst n. rewrite golden_0 in B. unfold golden_answer, golden_start in B. cbn [lo hi pc pd yc yd] in B. rewrite golden_square in B.
  assert (2 * PI * invphi < 2 * PI * (619 / 1000)) by (apply Rmult_lt_compat_l; lra). assert (2 * PI * (618 / 1000) < 2 * PI * invphi) by (apply Rmult_lt_compat_l; lra).
  destruct (Rlt_dec (0 + (1 - invphi) * (2 * PI - 0)) (0 + invphi * (2 * PI - 0))) as [C|C]; [|lra]. rewrite Rabs_left in B by lra. unfold tol in B. lra.
Qed.
Print Assumptions C65_tolerance_refuted.
Example C65_example : unimodal (fun x => - (x - 1) ^ 2) 1.
Proof.
  pose proof PI2_3_2. unfold unimodal. split; [lra|]. split; intros x y H1 H2 H3.
  - assert (0 < (y - x) * (2 - x - y)) by (apply Rmult_lt_0_compat; lra). lra.
  - assert (0 < (y - x) * (x + y - 2)) by (apply Rmult_lt_0_compat; lra). lra.
Qed.

(** * C90: integration *)
Section Integration.
  Variable f : R -> R.
  Variable a b w cutoff : R.
  Let loop := peak_loop f a b w cutoff.
  Let right := right_sample f b w.
  Let left := left_sample f a w.
  Let sum := sample_sum f a b w.
  (** The loop before the samples at distance k are added. *)
  Let at_ fuel m peak k := loop fuel m peak (peak + sum m (Nat.pred k)) (INR k * w) (right m k) (left m k).
  Lemma at_first : forall fuel m peak, loop fuel m peak peak w (f (m + w)) (f (m - w)) = at_ fuel m peak 1.
  Proof.
    intros fuel m peak. unfold at_, right, left, right_sample, left_sample, sum. cbn [Nat.pred sample_sum INR]. rewrite Rmult_1_l, Rplus_0_r. reflexivity.
  Qed.
  Lemma at_S : forall fuel m peak k, (1 <= k)%nat -> at_ (S fuel) m peak k =
    if Rlt_dec (peak * cutoff) (Rmax (right m k) (left m k)) then
      if Rlt_dec peak (right m k) then at_ fuel (m + INR k * w) (right m k) 1
      else if Rlt_dec peak (left m k) then at_ fuel (m - INR k * w) (left m k) 1
      else at_ fuel m peak (S k)
    else Some (trapezoid f a b w m peak (Nat.pred k)).
  Proof.
    intros fuel m peak k K. unfold at_ at 1. unfold loop. cbn [peak_loop]. fold loop. rewrite !at_first. destruct (Rlt_dec (peak * cutoff) _).
    - destruct (Rlt_dec peak (right m k)); [reflexivity|]. destruct (Rlt_dec peak (left m k)); [reflexivity|]. unfold at_. destruct k as [|k]; [lia|].
      assert (E : INR (S (S k)) * w = INR (S k) * w + w) by (rewrite (S_INR (S k)); ring).
      change (right m (S (S k))) with (if Rlt_dec (m + INR (S (S k)) * w) b then f (m + INR (S (S k)) * w) else 0).
      change (left m (S (S k))) with (if Rlt_dec a (m - INR (S (S k)) * w) then f (m - INR (S (S k)) * w) else 0). rewrite E. f_equal. cbn [Nat.pred]. unfold sum at 2. cbn [sample_sum]. fold sum right left. ring.
    - destruct k as [|k]; [lia|]. reflexivity.
  Qed.
  Lemma at_mono : forall fuel fuel' m peak k v, (1 <= k)%nat -> (fuel <= fuel')%nat -> at_ fuel m peak k = Some v -> at_ fuel' m peak k = Some v.
  Proof.
    induction fuel as [|n IH]; intros fuel' m peak k v K L H; [discriminate|]. destruct fuel' as [|n']; [lia|]. rewrite at_S in H |- * by exact K.
    destruct (Rlt_dec (peak * cutoff) _); [|exact H]. destruct (Rlt_dec peak (right m k)); [|destruct (Rlt_dec peak (left m k))]; apply IH; try lia; exact H.
  Qed.
  Lemma positive_sample : forall m k, 0 < right m k -> right m k = f (m + INR k * w).
  Proof. intros m k. unfold right, right_sample. destruct k as [|[|k]]; try reflexivity. destruct (Rlt_dec _ b); [reflexivity|lra]. Qed.
  Lemma positive_sample_left : forall m k, 0 < left m k -> left m k = f (m - INR k * w).
  Proof. intros m k. unfold left, left_sample. destruct k as [|[|k]]; try reflexivity. destruct (Rlt_dec a _); [reflexivity|lra]. Qed.

  Lemma at_value : forall fuel m peak k v, (1 <= k)%nat -> 0 <= peak -> (forall i, (1 <= i < k)%nat -> peak * cutoff < Rmax (right m i) (left m i) <= peak) -> at_ fuel m peak k = Some v ->
    exists j n P, let M := m + IZR j * w in ((j = 0%Z /\ P = peak) \/ (P = f M /\ peak < P)) /\ v = trapezoid f a b w M P n /\
      (forall i, (1 <= i <= n)%nat -> P * cutoff < Rmax (right M i) (left M i) <= P) /\ Rmax (right M (S n)) (left M (S n)) <= P * cutoff.
  Proof.
    induction fuel as [|fuel IH]; intros m peak k v K HP G H; [discriminate|]. rewrite at_S in H by exact K.
    destruct (Rlt_dec (peak * cutoff) (Rmax (right m k) (left m k))) as [C|C].
    - destruct (Rlt_dec peak (right m k)) as [A|A].
      + destruct (IH (m + INR k * w) (right m k) 1%nat v (le_n 1) ltac:(lra) ltac:(intros i I; lia) H) as (j & n & P & Q & V & I & T). rewrite (positive_sample m k) in Q by lra. rewrite (positive_sample m k) in A by lra.
        exists (j + Z.of_nat k)%Z, n, P. assert (E : m + IZR (j + Z.of_nat k) * w = m + INR k * w + IZR j * w) by (rewrite plus_IZR, <- INR_IZR_INZ; ring). cbv zeta. rewrite E. repeat split; try assumption; try (apply I; assumption). right.
        destruct Q as [[-> ->]|[-> Q]]; [rewrite Rmult_0_l, Rplus_0_r; split; [reflexivity|exact A]|split; [reflexivity|lra]].
      + destruct (Rlt_dec peak (left m k)) as [B|B].
        * destruct (IH (m - INR k * w) (left m k) 1%nat v (le_n 1) ltac:(lra) ltac:(intros i I; lia) H) as (j & n & P & Q & V & I & T). rewrite (positive_sample_left m k) in Q by lra. rewrite (positive_sample_left m k) in B by lra.
          exists (j - Z.of_nat k)%Z, n, P. assert (E : m + IZR (j - Z.of_nat k) * w = m - INR k * w + IZR j * w) by (rewrite minus_IZR, <- INR_IZR_INZ; ring). cbv zeta. rewrite E. repeat split; try assumption; try (apply I; assumption). right.
          destruct Q as [[-> ->]|[-> Q]]; [rewrite Rmult_0_l, Rplus_0_r; split; [reflexivity|exact B]|split; [reflexivity|lra]].
        * apply (IH m peak (S k) v); [lia|exact HP| |exact H]. intros i I. destruct (Nat.eq_dec i k) as [->|N]; [|apply G; lia]. split; [exact C|]. apply Rmax_lub; lra.
    - injection H as <-. exists 0%Z, (Nat.pred k), peak. cbv zeta. rewrite Rmult_0_l, Rplus_0_r. split; [left; split; reflexivity|]. split; [reflexivity|]. split; [intros i I; apply G; lia|].
      replace (S (Nat.pred k)) with k by lia. lra.
  Qed.
  (** The value is that of the trapezoidal rule around a peak M that is a whole number of steps from
      the given one and not lower. All samples added up are above the cut-off and not higher than
      that peak; the first ones that are not above the cut-off count half. *)
  Theorem C90_value : forall fuel m peak v, 0 <= peak -> peak_evaluate f a b w cutoff fuel m peak = Ok (Some v) ->
    exists j n P, let M := m + IZR j * w in ((j = 0%Z /\ P = peak) \/ (P = f M /\ peak < P)) /\ v = trapezoid f a b w M P n /\
      (forall i, (1 <= i <= n)%nat -> P * cutoff < Rmax (right_sample f b w M i) (left_sample f a w M i) <= P) /\
      Rmax (right_sample f b w M (S n)) (left_sample f a w M (S n)) <= P * cutoff.
  Proof.
    intros fuel m peak v HP H. unfold peak_evaluate in H. destruct (Req_EM_T w 0); [discriminate|]. injection H as H. fold loop in H. rewrite at_first in H.
    apply (at_value fuel m peak 1 v (le_n 1) HP) in H; [exact H|]. intros i I. lia.
  Qed.
  (** Without a higher peak, and if the n+1st samples are the first not above the cut-off, it is the
      rule around the given one. *)
  Theorem C90_exact : forall m peak n fuel, w <> 0 -> (n < fuel)%nat ->
    (forall i, (1 <= i <= n)%nat -> peak * cutoff < Rmax (right_sample f b w m i) (left_sample f a w m i) <= peak) ->
    Rmax (right_sample f b w m (S n)) (left_sample f a w m (S n)) <= peak * cutoff ->
    peak_evaluate f a b w cutoff fuel m peak = Ok (Some (trapezoid f a b w m peak n)).
  Proof.
    intros m peak n fuel W F G T. unfold peak_evaluate. destruct (Req_EM_T w 0); [contradiction|]. f_equal. fold loop. rewrite at_first.
    assert (Q : forall d k fuel, (k + d = S n)%nat -> (1 <= k)%nat -> (d < fuel)%nat -> at_ fuel m peak k = Some (trapezoid f a b w m peak n)).
    { induction d as [|d IH]; intros k fu E K L; (destruct fu as [|fu]; [lia|]); rewrite at_S by exact K.
      - assert (k = S n) by lia. subst k. destruct (Rlt_dec (peak * cutoff) _) as [C|C]; [unfold right, left in C; lra|reflexivity].
      - destruct (G k ltac:(lia)) as [G1 G2]. fold right left in G1, G2. destruct (Rlt_dec (peak * cutoff) _); [|contradiction].
        pose proof (Rmax_l (right m k) (left m k)) as M1. pose proof (Rmax_r (right m k) (left m k)) as M2. destruct (Rlt_dec peak (right m k)); [lra|]. destruct (Rlt_dec peak (left m k)); [lra|]. apply IH; lia. }
    apply (Q n 1%nat); lia.
  Qed.
  (** At a higher sample everything begins again from there, with that sample as the peak. *)
  Theorem C90_higher : forall m peak n fuel, w <> 0 ->
    (forall i, (1 <= i <= n)%nat -> peak * cutoff < Rmax (right_sample f b w m i) (left_sample f a w m i) <= peak) ->
    peak * cutoff < Rmax (right_sample f b w m (S n)) (left_sample f a w m (S n)) ->
    (peak < right_sample f b w m (S n) ->
      peak_evaluate f a b w cutoff (S n + fuel) m peak = peak_evaluate f a b w cutoff fuel (m + INR (S n) * w) (right_sample f b w m (S n))) /\
    (right_sample f b w m (S n) <= peak < left_sample f a w m (S n) ->
      peak_evaluate f a b w cutoff (S n + fuel) m peak = peak_evaluate f a b w cutoff fuel (m - INR (S n) * w) (left_sample f a w m (S n))).
  Proof.
    intros m peak n fuel W G T.
    assert (Q : forall d k, (k + d = S n)%nat -> (1 <= k)%nat -> at_ (S d + fuel) m peak k = at_ (1 + fuel) m peak (S n)).
    { induction d as [|d IH]; intros k E K.
      - assert (k = S n) by lia. subst k. reflexivity.
      - change (S (S d) + fuel)%nat with (S (S d + fuel)). rewrite at_S by exact K. destruct (G k ltac:(lia)) as [G1 G2]. fold right left in G1, G2. destruct (Rlt_dec (peak * cutoff) _); [|contradiction].
        pose proof (Rmax_l (right m k) (left m k)) as M1. pose proof (Rmax_r (right m k) (left m k)) as M2. destruct (Rlt_dec peak (right m k)); [lra|]. destruct (Rlt_dec peak (left m k)); [lra|]. apply IH; lia. }
    unfold peak_evaluate. destruct (Req_EM_T w 0); [contradiction|]. fold loop. rewrite !at_first. rewrite (Q n 1%nat) by lia. change (1 + fuel)%nat with (S fuel). rewrite at_S by lia. fold right left in T |- *.
    destruct (Rlt_dec (peak * cutoff) _); [|contradiction]. split; intro H.
    - destruct (Rlt_dec peak (right m (S n))); [reflexivity|contradiction].
    - destruct (Rlt_dec peak (right m (S n))); [lra|]. destruct (Rlt_dec peak (left m (S n))); [reflexivity|lra].
  Qed.

  (** Termination. *)
  Lemma far_away : 0 < w -> forall m, exists K, forall k, (K <= k)%nat -> right m k = 0 /\ left m k = 0.
  Proof.
    intros W m. assert (NX : exists N, Rmax (b - m) (m - a) < INR N * w).
    { exists (Z.to_nat (up (Rmax (b - m) (m - a) / w))). destruct (archimed (Rmax (b - m) (m - a) / w)) as [U _]. rewrite INR_IZR_INZ.
      assert (IZR (up (Rmax (b - m) (m - a) / w)) <= IZR (Z.of_nat (Z.to_nat (up (Rmax (b - m) (m - a) / w))))) by (apply IZR_le; lia).
      apply Rmult_lt_reg_r with (/ w); [apply Rinv_0_lt_compat; exact W|]. rewrite Rmult_assoc, Rinv_r by lra. unfold Rdiv in *. lra. }
    destruct NX as (N & HN). exists (N + 2)%nat. intros k K.
    assert (L : Rmax (b - m) (m - a) < INR k * w).
    { apply Rlt_le_trans with (INR N * w); [exact HN|].
      apply Rmult_le_compat_r; [lra|]. apply le_INR. lia. }
    pose proof (Rmax_l (b - m) (m - a)). pose proof (Rmax_r (b - m) (m - a)). destruct k as [|[|k]]; try lia. unfold right, left, right_sample, left_sample.
    destruct (Rlt_dec _ b); [lra|]. destruct (Rlt_dec a _); [lra|]. split; reflexivity.
  Qed.
  Let higher (m0 peak : R) (j : Z) : bool := if Rlt_dec peak (f (m0 + IZR j * w)) then true else false.
  Lemma fewer : forall m0 l peak P j, peak < P -> In j l -> P = f (m0 + IZR j * w) -> (length (filter (higher m0 P) l) < length (filter (higher m0 peak) l))%nat.
  Proof.
    intros m0 l peak P j HP I E. assert (HX : forall p x, higher m0 p x = if Rlt_dec p (f (m0 + IZR x * w)) then true else false) by reflexivity. assert (LE : forall l, (length (filter (higher m0 P) l) <= length (filter (higher m0 peak) l))%nat).
    { induction l0 as [|x l0 IH]; [apply le_n|]. cbn [filter]. rewrite (HX P x), (HX peak x). destruct (Rlt_dec P (f (m0 + IZR x * w))); destruct (Rlt_dec peak (f (m0 + IZR x * w))); cbn [length]; try lia; lra. }
    induction l as [|x l IH]; [destruct I|]. cbn [filter]. destruct I as [->|I].
    - rewrite (HX P j), (HX peak j), <- E. destruct (Rlt_dec P P); [lra|]. destruct (Rlt_dec peak P); [|contradiction]. cbn [length]. specialize (LE l). lia.
    - specialize (IH I). rewrite (HX P x), (HX peak x). destruct (Rlt_dec P (f (m0 + IZR x * w))); destruct (Rlt_dec peak (f (m0 + IZR x * w))); cbn [length]; try lia; lra.
  Qed.
  Lemma at_terminates : 0 < w -> 0 <= cutoff -> forall m0 P0 l, 0 <= P0 -> (forall j, ~ In j l -> f (m0 + IZR j * w) <= P0) ->
    forall c j peak k, (length (filter (higher m0 peak) l) <= c)%nat -> P0 <= peak -> (1 <= k)%nat -> exists fuel v, at_ fuel (m0 + IZR j * w) peak k = Some v.
  Proof.
    intros W HC m0 P0 l HP FAR. induction c as [c IHc] using lt_wf_ind. intros j peak k LC LP K. set (m := m0 + IZR j * w).
    destruct (far_away W m) as (N & FN). assert (NN : 0 <= peak * cutoff) by (apply Rmult_le_pos; lra).
    assert (Q : forall d k, (N <= k + d)%nat -> (1 <= k)%nat -> exists fuel v, at_ fuel m peak k = Some v); [|apply (Q N k); lia].
    assert (RESTART : forall i, peak < f (m0 + IZR i * w) -> exists fuel v, at_ fuel (m0 + IZR i * w) (f (m0 + IZR i * w)) 1 = Some v).
    { intros i HI. assert (II : In i l). { destruct (In_dec Z.eq_dec i l) as [|NI]; [assumption|]. specialize (FAR i NI). lra. }
      pose proof (fewer m0 l peak _ i HI II eq_refl) as FW. apply (IHc (length (filter (higher m0 (f (m0 + IZR i * w))) l))); lra || lia. }
    induction d as [|d IHd]; intros k0 KN K0.
    - destruct (FN k0 ltac:(lia)) as [R0 L0]. exists 1%nat. rewrite at_S by exact K0. rewrite R0, L0, Rmax_left by lra. destruct (Rlt_dec (peak * cutoff) 0); [lra|]. eexists. reflexivity.
    - destruct (Rlt_dec (peak * cutoff) (Rmax (right m k0) (left m k0))) as [C|C].
      + destruct (Rlt_dec peak (right m k0)) as [A|A].
        * assert (E := positive_sample m k0 ltac:(lra)). assert (EJ : m + INR k0 * w = m0 + IZR (j + Z.of_nat k0) * w) by (unfold m; rewrite plus_IZR, <- INR_IZR_INZ; ring).
          rewrite EJ in E. destruct (RESTART (j + Z.of_nat k0)%Z ltac:(lra)) as (fu & v & H). exists (S fu), v. rewrite at_S by exact K0. destruct (Rlt_dec (peak * cutoff) _); [|contradiction]. destruct (Rlt_dec peak (right m k0)); [|contradiction].
          rewrite EJ, E. exact H.
        * destruct (Rlt_dec peak (left m k0)) as [B|B].
          -- assert (E := positive_sample_left m k0 ltac:(lra)). assert (EJ : m - INR k0 * w = m0 + IZR (j - Z.of_nat k0) * w) by (unfold m; rewrite minus_IZR, <- INR_IZR_INZ; ring).
             rewrite EJ in E. destruct (RESTART (j - Z.of_nat k0)%Z ltac:(lra)) as (fu & v & H). exists (S fu), v. rewrite at_S by exact K0. destruct (Rlt_dec (peak * cutoff) _); [|contradiction]. destruct (Rlt_dec peak (right m k0)); [contradiction|].
             destruct (Rlt_dec peak (left m k0)); [|contradiction]. rewrite EJ, E. exact H.
          -- destruct (IHd (S k0) ltac:(lia) ltac:(lia)) as (fu & v & H). exists (S fu), v. rewrite at_S by exact K0. destruct (Rlt_dec (peak * cutoff) _); [|contradiction]. destruct (Rlt_dec peak (right m k0)); [contradiction|].
             destruct (Rlt_dec peak (left m k0)); [contradiction|]. exact H.
      + exists 1%nat. rewrite at_S by exact K0. destruct (Rlt_dec (peak * cutoff) _); [contradiction|]. eexists. reflexivity.
  Qed.
  (** It ends, with one value, if the step is positive, the cut-off and the given peak not negative,
      and the function not higher than that peak in all but finitely many points of the grid. *)
  Theorem C90_terminates : forall m peak J, 0 < w -> 0 <= cutoff -> 0 <= peak -> (forall j, (J < Z.abs j)%Z -> f (m + IZR j * w) <= peak) ->
    exists N v, forall fuel, (N <= fuel)%nat -> peak_evaluate f a b w cutoff fuel m peak = Ok (Some v).
  Proof.
    intros m peak J W HC HP FAR. set (l := map (fun n => (Z.of_nat n - J)%Z) (seq 0 (Z.to_nat (2 * J + 1)))).
    assert (NI : forall j, ~ In j l -> f (m + IZR j * w) <= peak).
    { intros j H. apply FAR. destruct (Z_lt_le_dec J (Z.abs j)); [assumption|exfalso]. apply H. unfold l. apply in_map_iff. exists (Z.to_nat (j + J)). split; [lia|]. apply in_seq. lia. }
    destruct (at_terminates W HC m peak l HP NI (length (filter (higher m peak) l)) 0 peak 1 (le_n _) (Rle_refl _) (le_n 1)) as (N & v & H). rewrite Rmult_0_l, Rplus_0_r in H.
    exists N, v. intros fuel L. unfold peak_evaluate. destruct (Req_EM_T w 0); [lra|]. fold loop. rewrite at_first. f_equal. apply (at_mono N); [lia|exact L|exact H].
  Qed.
  (** The number of rounds does not matter once they are enough. *)
  Theorem C90_fuel : forall fuel fuel' m peak v v', peak_evaluate f a b w cutoff fuel m peak = Ok (Some v) -> peak_evaluate f a b w cutoff fuel' m peak = Ok (Some v') -> v = v'.
  Proof.
    intros fuel fuel' m peak v v' H H'. unfold peak_evaluate in *. destruct (Req_EM_T w 0); [discriminate|]. injection H as H. injection H' as H'. fold loop in H, H'. rewrite at_first in H, H'.
    destruct (le_lt_dec fuel fuel') as [L|L].
    - apply (at_mono fuel fuel') in H; [congruence|lia|exact L].
    - apply (at_mono fuel' fuel) in H'; [congruence|lia|lia].
  Qed.
  (** A function that is nowhere negative has at least the value of the step times the peak. *)
  Theorem C90_lower : forall fuel m peak v, 0 < w -> 0 <= peak -> (forall x, 0 <= f x) -> peak_evaluate f a b w cutoff fuel m peak = Ok (Some v) -> w * peak <= v.
  Proof.
    intros fuel m peak v W HP F H. destruct (C90_value fuel m peak v HP H) as (j & n & P & Q & -> & _). assert (LP : peak <= P) by (destruct Q as [[_ ->]|[_ Q]]; lra).
    set (M := m + IZR j * w). assert (RP : forall i, 0 <= right_sample f b w M i) by (intros [|[|i]]; unfold right_sample; try apply F; destruct (Rlt_dec _ b); [apply F|lra]).
    assert (LL : forall i, 0 <= left_sample f a w M i) by (intros [|[|i]]; unfold left_sample; try apply F; destruct (Rlt_dec a _); [apply F|lra]).
    assert (SP : forall i, 0 <= sample_sum f a b w M i) by (induction i as [|i IH]; cbn [sample_sum]; [lra|pose proof (RP (S i)); pose proof (LL (S i)); lra]).
    unfold trapezoid. apply Rmult_le_compat_l; [lra|]. pose proof (RP (S n)). pose proof (LL (S n)). pose proof (SP n). lra.
  Qed.
  (** A step of zero is refused, any other is not. *)
  Theorem C90_throws : forall fuel m peak, peak_evaluate f a b w cutoff fuel m peak = Throw <-> w = 0.
  Proof. intros fuel m peak. unfold peak_evaluate. destruct (Req_EM_T w 0); split; intro H; try discriminate; try contradiction; auto. Qed.
End Integration.
Print Assumptions C90_value.
Print Assumptions C90_exact.
Print Assumptions C90_higher.
Print Assumptions C90_terminates.
Print Assumptions C90_fuel.
Print Assumptions C90_lower.
Print Assumptions C90_throws.

(** Without a given peak it begins from the point found in [0, 2 PI], whatever the limits are. *)
Theorem C90_integral : forall f a b w cutoff fuel, exists m, find_maximum f default_tol = Ok m /\ 0 < m < 2 * PI /\ (forall top, unimodal f top -> Rabs (m - top) < default_tol) /\
  peak_integral f a b w cutoff fuel = peak_evaluate f a b w cutoff fuel m (f m).
Proof.
  intros f a b w cutoff fuel. destruct (C65_found f) as (m & E & B). exists m. split; [exact E|]. split; [exact B|]. split.
  - intros top U. destruct (C65_default f top U) as (x & E' & B'). rewrite E in E'. injection E' as <-. exact B'.
  - unfold peak_integral. rewrite E. reflexivity.
Qed.
Print Assumptions C90_integral.

(** A positive factor of the function is a factor of the integral, and moving the function with its
    limits and peak does not change it. *)
Theorem C90_scale : forall f a b w cutoff l fuel m peak, 0 < l ->
  peak_evaluate (fun x => l * f x) a b w cutoff fuel m (l * peak) = match peak_evaluate f a b w cutoff fuel m peak with Ok (Some v) => Ok (Some (l * v)) | r => r end.
Proof.
  intros f a b w cutoff l fuel m peak L. unfold peak_evaluate. destruct (Req_EM_T w 0); [reflexivity|].
  assert (LT : forall x y, (l * x < l * y) <-> x < y) by (intros x y; split; [apply Rmult_lt_reg_l; exact L|apply Rmult_lt_compat_l; exact L]).
  assert (MX : forall x y, Rmax (l * x) (l * y) = l * Rmax x y) by (intros x y; unfold Rmax; destruct (Rle_dec (l * x) (l * y)) as [A|A]; destruct (Rle_dec x y) as [B|B]; try reflexivity; exfalso; [apply B; apply Rmult_le_reg_l with l; assumption|apply A; apply Rmult_le_compat_l; lra]).
  assert (Q : forall fuel m peak s delta fp fm, peak_loop (fun x => l * f x) a b w cutoff fuel m (l * peak) (l * s) delta (l * fp) (l * fm) = match peak_loop f a b w cutoff fuel m peak s delta fp fm with Some v => Some (l * v) | None => None end).
  { clear fuel m peak. induction fuel as [|k IH]; intros m peak s delta fp fm; [reflexivity|]. cbn [peak_loop]. rewrite MX. replace (l * peak * cutoff) with (l * (peak * cutoff)) by ring.
    destruct (Rlt_dec (peak * cutoff) (Rmax fp fm)) as [C|C]; destruct (Rlt_dec (l * (peak * cutoff)) (l * Rmax fp fm)) as [C'|C']; try (apply (proj1 (LT _ _)) in C'; contradiction); try (exfalso; apply C'; apply LT; exact C).
    - destruct (Rlt_dec peak fp) as [A|A]; destruct (Rlt_dec (l * peak) (l * fp)) as [A'|A']; try (apply (proj1 (LT _ _)) in A'; contradiction); try (exfalso; apply A'; apply LT; exact A); [apply IH|].
      destruct (Rlt_dec peak fm) as [B|B]; destruct (Rlt_dec (l * peak) (l * fm)) as [B'|B']; try (apply (proj1 (LT _ _)) in B'; contradiction); try (exfalso; apply B'; apply LT; exact B); [apply IH|].
      replace (l * s + (l * fp + l * fm)) with (l * (s + (fp + fm))) by ring. replace (if Rlt_dec (m + (delta + w)) b then l * f (m + (delta + w)) else 0) with (l * (if Rlt_dec (m + (delta + w)) b then f (m + (delta + w)) else 0)) by (destruct (Rlt_dec _ b); [reflexivity|ring]).
      replace (if Rlt_dec a (m - (delta + w)) then l * f (m - (delta + w)) else 0) with (l * (if Rlt_dec a (m - (delta + w)) then f (m - (delta + w)) else 0)) by (destruct (Rlt_dec a _); [reflexivity|ring]). apply IH.
    - f_equal. field. }
  rewrite Q. destruct (peak_loop f a b w cutoff fuel m peak peak w (f (m + w)) (f (m - w))); reflexivity.
Qed.
Print Assumptions C90_scale.
Theorem C90_shift : forall f a b w cutoff t fuel m peak,
  peak_evaluate (fun x => f (x - t)) (a + t) (b + t) w cutoff fuel (m + t) peak = peak_evaluate f a b w cutoff fuel m peak.
Proof.
  intros f a b w cutoff t fuel m peak. unfold peak_evaluate. destruct (Req_EM_T w 0); [reflexivity|]. f_equal.
  assert (Q : forall fuel m peak s delta fp fm, peak_loop (fun x => f (x - t)) (a + t) (b + t) w cutoff fuel (m + t) peak s delta fp fm = peak_loop f a b w cutoff fuel m peak s delta fp fm).
  { clear. induction fuel as [|k IH]; intros m peak s delta fp fm; [reflexivity|]. cbn [peak_loop].
    assert (EP : forall d, m + t + d - t = m + d) by (intro; ring). assert (EM : forall d, m + t - d - t = m - d) by (intro; ring). rewrite !EP, !EM.
    destruct (Rlt_dec (peak * cutoff) (Rmax fp fm)); [|reflexivity]. destruct (Rlt_dec peak fp).
    - replace (m + t + delta) with (m + delta + t) by ring. rewrite IH. f_equal; f_equal; ring.
    - destruct (Rlt_dec peak fm).
      + replace (m + t - delta) with (m - delta + t) by ring. rewrite IH. f_equal; f_equal; ring.
      + rewrite IH. f_equal.
        * destruct (Rlt_dec (m + t + (delta + w)) (b + t)); destruct (Rlt_dec (m + (delta + w)) b); try reflexivity; exfalso; lra.
        * destruct (Rlt_dec (a + t) (m + t - (delta + w))); destruct (Rlt_dec a (m - (delta + w))); try reflexivity; exfalso; lra. }
  rewrite Q. f_equal; f_equal; ring.
Qed.
Print Assumptions C90_shift.

(** For a function that keeps growing outside the limits it never ends, although the limits are finite. *)
Theorem C90_endless_refuted : ~ (forall f a b w cutoff m, a < b -> a <= m <= b -> 0 < w -> 0 < cutoff < 1 -> (forall x, 0 < f x) -> exists fuel v, peak_evaluate f a b w cutoff fuel m (f m) = Ok (Some v)).
Proof.
  intro H. destruct (H exp 0 1 1 (1 / 2) 0) as (fuel & v & E); try lra; [intro; apply exp_pos|]. unfold peak_evaluate in E. destruct (Req_EM_T 1 0); [lra|]. injection E as E.
  assert (Q : forall fuel m, peak_loop exp 0 1 1 (1 / 2) fuel m (exp m) (exp m) 1 (exp (m + 1)) (exp (m - 1)) = None).
  { clear. induction fuel as [|k IH]; intro m; [reflexivity|]. cbn [peak_loop]. assert (I : exp m < exp (m + 1)) by (apply exp_increasing; lra). pose proof (exp_pos m).
    destruct (Rlt_dec (exp m * (1 / 2)) _) as [|C]; [|exfalso; apply C; pose proof (Rmax_l (exp (m + 1)) (exp (m - 1))); lra]. destruct (Rlt_dec (exp m) (exp (m + 1))); [|contradiction]. apply IH. }
  rewrite Q in E. discriminate.
Qed.
Print Assumptions C90_endless_refuted.
(** Nor does it with a negative cut-off. *)
Theorem C90_cutoff_refuted : ~ (forall f a b w cutoff m, a < b -> a <= m <= b -> 0 < w -> (forall x, f x <= f m) -> exists fuel v, peak_evaluate f a b w cutoff fuel m (f m) = Ok (Some v)).
Proof.
  intro H. destruct (H (fun _ => 1) 0 1 1 (-1) 0) as (fuel & v & E); try lra; [intro; lra|]. unfold peak_evaluate in E. destruct (Req_EM_T 1 0); [lra|]. injection E as E.
  assert (Q : forall fuel s delta fp fm, (fp = 0 \/ fp = 1) -> (fm = 0 \/ fm = 1) -> peak_loop (fun _ => 1) 0 1 1 (-1) fuel 0 1 s delta fp fm = None).
  { clear. induction fuel as [|k IH]; intros s delta fp fm HP HM; [reflexivity|]. cbn [peak_loop]. destruct (Rlt_dec (1 * -1) (Rmax fp fm)) as [|C]; [|exfalso; apply C; pose proof (Rmax_l fp fm); lra].
    destruct (Rlt_dec 1 fp); [lra|]. destruct (Rlt_dec 1 fm); [lra|]. apply IH; destruct (Rlt_dec _ _); tauto. }
  rewrite Q in E; [discriminate|tauto|tauto].
Qed.
Print Assumptions C90_cutoff_refuted.
(** The value depends on the function outside the limits. *)
Theorem C90_outside_refuted : ~ (forall f g a b w cutoff m fuel, a < b -> a <= m <= b -> 0 < w -> 0 < cutoff < 1 -> (forall x, a <= x <= b -> f x = g x) ->
  peak_evaluate f a b w cutoff fuel m (f m) = peak_evaluate g a b w cutoff fuel m (g m)).
Proof.
  intro H. set (g := fun x : R => if Rle_dec x 1 then 1 else 1 / 4). specialize (H (fun _ => 1) g (-1) 1 2 (1 / 2) 0 2%nat ltac:(lra) ltac:(lra) ltac:(lra) ltac:(lra)).
  assert (G : forall x, -1 <= x <= 1 -> 1 = g x) by (intros x X; unfold g; destruct (Rle_dec x 1); lra). specialize (H G).
  assert (E1 : peak_evaluate (fun _ => 1) (-1) 1 2 (1 / 2) 2 0 1 = Ok (Some (trapezoid (fun _ => 1) (-1) 1 2 0 1 1))).
  { apply C90_exact; [lra|lia| |].
    - intros i I. assert (i = 1%nat) by lia. subst i. cbn [right_sample left_sample]. rewrite Rmax_left by lra. lra.
    - cbn [right_sample left_sample]. cbn [INR]. destruct (Rlt_dec (0 + (1 + 1) * 2) 1); [lra|]. destruct (Rlt_dec (-1) (0 - (1 + 1) * 2)); [lra|]. rewrite Rmax_left by lra. lra. }
  assert (E2 : peak_evaluate g (-1) 1 2 (1 / 2) 2 0 1 = Ok (Some (trapezoid g (-1) 1 2 0 1 1))).
  { apply C90_exact; [lra|lia| |].
    - intros i I. assert (i = 1%nat) by lia. subst i. cbn [right_sample left_sample INR]. unfold g. destruct (Rle_dec (0 + 1 * 2) 1); [lra|]. destruct (Rle_dec (0 - 1 * 2) 1); [|lra]. rewrite Rmax_right by lra. lra.
    - cbn [right_sample left_sample]. cbn [INR]. destruct (Rlt_dec (0 + (1 + 1) * 2) 1); [lra|]. destruct (Rlt_dec (-1) (0 - (1 + 1) * 2)); [lra|]. rewrite Rmax_left by lra. lra. }
  rewrite <- (G 0) in H by lra. rewrite E1, E2 in H. injection H as H. revert H. unfold trapezoid. cbn [sample_sum right_sample left_sample INR]. unfold g.
  destruct (Rlt_dec (0 + (1 + 1) * 2) 1); [lra|]. destruct (Rlt_dec (-1) (0 - (1 + 1) * 2)); [lra|]. destruct (Rle_dec (0 + 1 * 2) 1); [lra|]. destruct (Rle_dec (0 - 1 * 2) 1); [|lra]. lra.
Qed.
Print Assumptions C90_outside_refuted.
Example C90_example : peak_evaluate (fun x => if Rlt_dec (Rabs x) 3 then 3 - Rabs x else 0) (-5) 5 1 0 9 0 3 = Ok (Some 9).
Proof.
  assert (T : forall x, Rabs x < 3 -> (if Rlt_dec (Rabs x) 3 then 3 - Rabs x else 0) = 3 - Rabs x) by (intros x X; destruct (Rlt_dec (Rabs x) 3); [reflexivity|contradiction]).
  set (f := fun x => if Rlt_dec (Rabs x) 3 then 3 - Rabs x else 0). assert (F1 : forall x, 0 <= x < 3 -> f x = 3 - x) by (intros x X; unfold f; rewrite T; rewrite Rabs_right; lra).
  assert (F2 : forall x, -3 < x <= 0 -> f x = 3 + x) by (intros x X; unfold f; rewrite T; rewrite Rabs_left1; lra).
  assert (F3 : f 3 = 0) by (unfold f; rewrite Rabs_right by lra; destruct (Rlt_dec 3 3); [lra|reflexivity]).
  assert (F4 : f (-3) = 0) by (unfold f; rewrite Rabs_left by lra; destruct (Rlt_dec (- -3) 3); [lra|reflexivity]).
  assert (R1 : right_sample f 5 1 0 1 = 2) by (cbn [right_sample INR]; rewrite F1; lra). assert (L1 : left_sample f (-5) 1 0 1 = 2) by (cbn [left_sample INR]; rewrite F2; lra).
  assert (R2 : right_sample f 5 1 0 2 = 1) by (cbn [right_sample INR]; destruct (Rlt_dec _ 5); [rewrite F1; lra|lra]). assert (L2 : left_sample f (-5) 1 0 2 = 1) by (cbn [left_sample INR]; destruct (Rlt_dec (-5) _); [rewrite F2; lra|lra]).
  assert (R3 : right_sample f 5 1 0 3 = 0) by (cbn [right_sample INR]; destruct (Rlt_dec _ 5); [|lra]; replace (0 + (1 + 1 + 1) * 1) with 3 by ring; exact F3).
  assert (L3 : left_sample f (-5) 1 0 3 = 0) by (cbn [left_sample INR]; destruct (Rlt_dec (-5) _); [|lra]; replace (0 - (1 + 1 + 1) * 1) with (-3) by ring; exact F4).
  rewrite (C90_exact f (-5) 5 1 0 0 3 2 9); [|lra|lia| |].
  - unfold trapezoid. cbn [sample_sum]. rewrite R1, R2, R3, L1, L2, L3. do 2 f_equal. lra.
  - intros i I. assert (J : i = 1%nat \/ i = 2%nat) by lia. destruct J as [-> | ->]; [rewrite R1, L1|rewrite R2, L2]; rewrite Rmax_left; lra.
  - rewrite R3, L3, Rmax_left; lra.
Qed.
