(** Lemmas about the CODE distribution functions. *)
From Coq Require Import Reals Lra Lia List.
From Coquelicot Require Import Coquelicot.
From Verif Require Import Base DomainModel AnalyticalModel NumericModel NumericSpec NumericArrays DistributionModel DistributionSpec DistributionProofs DistributionUse CodeModel CodeSpec.
Import ListNotations.
Local Open Scope R_scope.
Set Bullet Behavior "Strict Subproofs".

(** * Legendre polynomials *)
Lemma leg0 : forall x, legendre 0 x = 1. Proof. reflexivity. Qed.
Lemma leg1 : forall x, legendre 1 x = x. Proof. reflexivity. Qed.
Lemma leg_snd : forall n x, snd (legendre2 n x) = legendre (S n) x.
Proof. intros n x. unfold legendre. cbn [legendre2]. destruct (legendre2 n x). reflexivity. Qed.
Lemma leg_SS : forall n x, legendre (S (S n)) x = ((2 * INR n + 3) * x * legendre (S n) x - (INR n + 1) * legendre n x) / (INR n + 2).
Proof.
  intros n x. rewrite <- (leg_snd (S n)). cbn [legendre2]. rewrite <- leg_snd. unfold legendre at 1. destruct (legendre2 n x). reflexivity.
Qed.
Lemma two_step : forall Q : nat -> Prop, Q 0%nat -> Q 1%nat -> (forall n, Q n -> Q (S n) -> Q (S (S n))) -> forall n, Q n.
Proof. intros Q H0 H1 H n. assert (Q n /\ Q (S n)) by (induction n as [|n [A B]]; split; auto). tauto. Qed.
Lemma pos2 : forall n, INR n + 2 <> 0. Proof. intro n. pose proof (pos_INR n). lra. Qed.

(** First and second derivatives. *)
Fixpoint dleg2 (n : nat) (x : R) : R * R :=
  match n with
  | O => (0, 1)
  | S k => let (a, b) := dleg2 k x in (b, ((2 * INR k + 3) * (legendre (S k) x + x * b) - (INR k + 1) * a) / (INR k + 2))
  end.
Definition dleg (n : nat) (x : R) : R := fst (dleg2 n x).
Lemma dleg_snd : forall n x, snd (dleg2 n x) = dleg (S n) x.
Proof. intros n x. unfold dleg. cbn [dleg2]. destruct (dleg2 n x). reflexivity. Qed.
Lemma dleg_SS : forall n x, dleg (S (S n)) x = ((2 * INR n + 3) * (legendre (S n) x + x * dleg (S n) x) - (INR n + 1) * dleg n x) / (INR n + 2).
Proof. intros n x. rewrite <- (dleg_snd (S n)). cbn [dleg2]. rewrite <- dleg_snd. unfold dleg at 1. destruct (dleg2 n x). reflexivity. Qed.
Fixpoint ddleg2 (n : nat) (x : R) : R * R :=
  match n with
  | O => (0, 0)
  | S k => let (a, b) := ddleg2 k x in (b, ((2 * INR k + 3) * (2 * dleg (S k) x + x * b) - (INR k + 1) * a) / (INR k + 2))
  end.
Definition ddleg (n : nat) (x : R) : R := fst (ddleg2 n x).
Lemma ddleg_snd : forall n x, snd (ddleg2 n x) = ddleg (S n) x.
Proof. intros n x. unfold ddleg. cbn [ddleg2]. destruct (ddleg2 n x). reflexivity. Qed.
Lemma ddleg_SS : forall n x, ddleg (S (S n)) x = ((2 * INR n + 3) * (2 * dleg (S n) x + x * ddleg (S n) x) - (INR n + 1) * ddleg n x) / (INR n + 2).
Proof. intros n x. rewrite <- (ddleg_snd (S n)). cbn [ddleg2]. rewrite <- ddleg_snd. unfold ddleg at 1. destruct (ddleg2 n x). reflexivity. Qed.

Lemma leg_derive : forall n x, is_derive (legendre n) x (dleg n x).
Proof.
  intros n. induction n as [| |n IH0 IH1] using two_step; intro x.
  - apply (is_derive_ext (fun _ => 1)); [reflexivity|]. apply (is_derive_const (K := R_AbsRing) (V := R_NormedModule)).
  - apply (is_derive_ext (fun x => x)); [reflexivity|]. apply (is_derive_id (K := R_AbsRing)).
  - apply (is_derive_ext (fun x => ((2 * INR n + 3) * x * legendre (S n) x - (INR n + 1) * legendre n x) / (INR n + 2))); [intro; symmetry; apply leg_SS|].
    rewrite dleg_SS. auto_derive.
    + split; [exists (dleg (S n) x); apply IH1|]. split; [exists (dleg n x); apply IH0|]. exact I.
    + rewrite (is_derive_unique (fun y : R => legendre (S n) y) _ _ (IH1 x)), (is_derive_unique (fun y : R => legendre n y) _ _ (IH0 x)). field. apply pos2.
Qed.
Lemma dleg_derive : forall n x, is_derive (dleg n) x (ddleg n x).
Proof.
  intros n. induction n as [| |n IH0 IH1] using two_step; intro x.
  - apply (is_derive_ext (fun _ => 0)); [reflexivity|]. apply (is_derive_const (K := R_AbsRing) (V := R_NormedModule)).
  - apply (is_derive_ext (fun _ => 1)); [reflexivity|]. apply (is_derive_const (K := R_AbsRing) (V := R_NormedModule)).
  - apply (is_derive_ext (fun x => ((2 * INR n + 3) * (legendre (S n) x + x * dleg (S n) x) - (INR n + 1) * dleg n x) / (INR n + 2))); [intro; symmetry; apply dleg_SS|].
    rewrite ddleg_SS. auto_derive.
    + split; [exists (dleg (S n) x); apply leg_derive|]. split; [exists (ddleg (S n) x); apply IH1|]. split; [exists (ddleg n x); apply IH0|]. exact I.
    + rewrite (is_derive_unique (fun y : R => legendre (S n) y) _ _ (leg_derive (S n) x)), (is_derive_unique (fun y : R => dleg (S n) y) _ _ (IH1 x)), (is_derive_unique (fun y : R => dleg n y) _ _ (IH0 x)). field. apply pos2.
Qed.

Lemma leg_AB : forall n x, dleg (S n) x = x * dleg n x + (INR n + 1) * legendre n x /\ x * dleg (S n) x - dleg n x = (INR n + 1) * legendre (S n) x.
Proof.
  intros n x. induction n as [|n [A B]].
  - rewrite leg0, leg1. change (dleg 0 x) with 0. change (dleg 1 x) with 1. change (INR 0) with 0. split; ring.
  - pose proof (pos2 n). rewrite !S_INR.
    assert (D : dleg n x = x * dleg (S n) x - (INR n + 1) * legendre (S n) x) by lra.
    assert (A' : dleg (S (S n)) x = x * dleg (S n) x + (INR n + 1 + 1) * legendre (S n) x).
    { rewrite dleg_SS, D. field. assumption. }
    split; [exact A'|]. rewrite A', leg_SS.
    assert (C : (x * x - 1) * dleg (S n) x = (INR n + 1) * (x * legendre (S n) x - legendre n x)).
    { transitivity (x * (x * dleg (S n) x - dleg n x) - (dleg (S n) x - x * dleg n x)); [ring|]. rewrite B. replace (dleg (S n) x - x * dleg n x) with ((INR n + 1) * legendre n x) by lra. ring. }
    transitivity ((x * x - 1) * dleg (S n) x + (INR n + 1 + 1) * x * legendre (S n) x); [ring|]. rewrite C. field. assumption.
Qed.
Lemma leg_C : forall n x, (1 - x * x) * dleg (S n) x = (INR n + 1) * (legendre n x - x * legendre (S n) x).
Proof.
  intros n x. destruct (leg_AB n x) as [A B].
  transitivity ((dleg (S n) x - x * dleg n x) - x * (x * dleg (S n) x - dleg n x)); [ring|]. rewrite B. replace (dleg (S n) x - x * dleg n x) with ((INR n + 1) * legendre n x) by lra. ring.
Qed.
(** The derivative of (1 - x^2) P'. *)
Lemma leg_Q : forall n x, is_derive (fun x => (1 - x * x) * dleg n x) x (- (INR n * (INR n + 1)) * legendre n x).
Proof.
  intros [|n] x.
  - apply (is_derive_ext (fun _ => 0)); [intro t; change (@eq R 0 ((1 - t * t) * 0)); ring|]. change (INR 0) with 0.
    replace (- (0 * (0 + 1)) * legendre 0 x) with 0 by ring. apply (is_derive_const (K := R_AbsRing) (V := R_NormedModule)).
  - apply (is_derive_ext (fun x => (INR n + 1) * (legendre n x - x * legendre (S n) x))); [intro t; symmetry; apply leg_C|].
    auto_derive.
    + split; [exists (dleg n x); apply leg_derive|]. split; [exists (dleg (S n) x); apply leg_derive|]. exact I.
    + rewrite (is_derive_unique (fun y : R => legendre n y) _ _ (leg_derive n x)), (is_derive_unique (fun y : R => legendre (S n) y) _ _ (leg_derive (S n) x)). destruct (leg_AB n x) as [_ B]. rewrite S_INR.
      replace (x * dleg (S n) x) with (dleg n x + (INR n + 1) * legendre (S n) x) by lra.
      transitivity ((INR n + 1) * (dleg n x - (legendre (S n) x + x * dleg (S n) x))); [ring|].
      replace (x * dleg (S n) x) with (dleg n x + (INR n + 1) * legendre (S n) x) by lra. ring.
Qed.
Lemma leg_equation : forall n x, (1 - x * x) * ddleg n x - 2 * x * dleg n x + INR n * (INR n + 1) * legendre n x = 0.
Proof.
  intros n x. pose proof (leg_Q n x) as H.
  assert (H' : is_derive (fun x => (1 - x * x) * dleg n x) x (- (2 * x) * dleg n x + (1 - x * x) * ddleg n x)).
  { auto_derive; [repeat split; exists (ddleg n x); apply dleg_derive|]. rewrite (is_derive_unique (fun y : R => dleg n y) _ _ (dleg_derive n x)). ring. }
  apply is_derive_unique in H. apply is_derive_unique in H'. rewrite H in H'. lra.
Qed.
Lemma leg_one : forall n, legendre n 1 = 1.
Proof.
  induction n as [| |n IH0 IH1] using two_step; [reflexivity|reflexivity|]. rewrite leg_SS, IH0, IH1. field. apply pos2.
Qed.
Lemma sgn_S : forall n, sgn (S n) = - sgn n.
Proof. intro n. unfold sgn. rewrite Nat.even_succ, <- Nat.negb_even. destruct (Nat.even n); cbn; lra. Qed.
Lemma sgn_sq : forall n, sgn n * sgn n = 1.
Proof. intro n. unfold sgn. destruct (Nat.even n); lra. Qed.
Lemma leg_parity : forall n x, legendre n (- x) = sgn n * legendre n x.
Proof.
  intros n x. induction n as [| |n IH0 IH1] using two_step.
  - rewrite !leg0. unfold sgn. cbn. lra.
  - rewrite !leg1. unfold sgn. cbn. lra.
  - rewrite !leg_SS, IH0, IH1, !sgn_S. field. apply pos2.
Qed.

(** * Sums *)
Lemma sum_S : forall n g, sum (S n) g = sum n g + g n. Proof. reflexivity. Qed.
Lemma sum_ext : forall n g h, (forall i, (i < n)%nat -> g i = h i) -> sum n g = sum n h.
Proof. induction n as [|n IH]; intros g h H; [reflexivity|]. rewrite !sum_S, (IH g h), (H n); [reflexivity|lia|intros; apply H; lia]. Qed.
Lemma sum_plus : forall n g h, sum n (fun i => g i + h i) = sum n g + sum n h.
Proof. induction n as [|n IH]; intros; [cbn; lra|]. rewrite !sum_S, IH. ring. Qed.
Lemma sum_scale : forall n c g, sum n (fun i => c * g i) = c * sum n g.
Proof. induction n as [|n IH]; intros; [cbn; lra|]. rewrite !sum_S, IH. ring. Qed.
Lemma sum_zero : forall n, sum n (fun _ => 0) = 0.
Proof. induction n as [|n IH]; [reflexivity|]. rewrite sum_S, IH. ring. Qed.
Lemma sum_shift : forall n (b : nat -> R) x, sum (S n) (fun i => (match i with O => 0 | S k => b k end) * x ^ i) = x * sum n (fun i => b i * x ^ i).
Proof.
  intros n b x. induction n as [|n IH]; [cbn; ring|]. rewrite sum_S, IH, sum_S. cbn [pow]. ring.
Qed.
Lemma sum_extend : forall n m g, (n <= m)%nat -> (forall i, (n <= i)%nat -> g i = 0) -> sum m g = sum n g.
Proof.
  intros n m g L Z. induction m as [|m IH]; [replace n with 0%nat by lia; reflexivity|].
  destruct (Nat.eq_dec n (S m)) as [->|N]; [reflexivity|]. rewrite sum_S, IH, (Z m) by lia. ring.
Qed.
(** Polynomials, with coefficients that vanish above the degree. *)
Lemma leg_poly : forall n, exists a : nat -> R, (forall i, (S n <= i)%nat -> a i = 0) /\ forall x, legendre n x = sum (S n) (fun i => a i * x ^ i).
Proof.
  induction n as [| |n (a & Za & Ha) (b & Zb & Hb)] using two_step.
  - exists (fun i => match i with O => 1 | _ => 0 end). split; [intros [|i] L; [lia|reflexivity]|]. intro x. rewrite leg0. cbn. ring.
  - exists (fun i => match i with 1%nat => 1 | _ => 0 end). split; [intros [|[|i]] L; [lia|lia|reflexivity]|]. intro x. rewrite leg1. cbn. ring.
  - exists (fun i => (2 * INR n + 3) / (INR n + 2) * (match i with O => 0 | S k => b k end) + (- ((INR n + 1) / (INR n + 2))) * a i). split.
    + intros [|i] L; [lia|]. rewrite Zb, Za by lia. ring.
    + intro x. rewrite leg_SS, Ha, Hb.
      rewrite (sum_ext (S (S (S n))) _ (fun i => (2 * INR n + 3) / (INR n + 2) * ((match i with O => 0 | S k => b k end) * x ^ i) + (- ((INR n + 1) / (INR n + 2))) * (a i * x ^ i))) by (intros; ring).
      rewrite sum_plus, !sum_scale, sum_shift.
      rewrite (sum_extend (S n) (S (S (S n))) (fun i => a i * x ^ i)); [|lia|intros i L; rewrite Za by exact L; ring].
      field. apply pos2.
Qed.

(** * Orthogonality and size *)
Lemma leg_continuous : forall n x, continuous (legendre n) x.
Proof. intros n x. apply (ex_derive_continuous (K := R_AbsRing) (V := R_NormedModule)). exists (dleg n x). apply leg_derive. Qed.
Lemma leg_orthogonal : forall m n, m <> n -> is_RInt (fun x => legendre m x * legendre n x) (-1) 1 0.
Proof.
  intros m n NE. set (c := INR m * (INR m + 1) - INR n * (INR n + 1)).
  assert (CN : c <> 0).
  { unfold c. intro E. assert (F : (INR m - INR n) * (INR m + INR n + 1) = 0) by (rewrite <- E; ring).
    pose proof (pos_INR m). pose proof (pos_INR n). apply Rmult_integral in F. destruct F as [F|F]; [|lra]. apply NE. apply INR_eq. lra. }
  assert (H : is_RInt (fun x => c * (legendre m x * legendre n x)) (-1) 1 0).
  { pose (W := fun x => legendre m x * ((1 - x * x) * dleg n x) - legendre n x * ((1 - x * x) * dleg m x)).
    replace 0 with (minus (W 1) (W (-1))) by (unfold W, minus, plus, opp; cbn; ring).
    apply (is_RInt_derive (V := R_CompleteNormedModule)).
    - intros x _. unfold W.
      replace (c * (legendre m x * legendre n x)) with
        ((dleg m x * ((1 - x * x) * dleg n x) + legendre m x * (- (INR n * (INR n + 1)) * legendre n x)) -
         (dleg n x * ((1 - x * x) * dleg m x) + legendre n x * (- (INR m * (INR m + 1)) * legendre m x))) by (unfold c; ring).
      apply (is_derive_minus (K := R_AbsRing) (V := R_NormedModule)).
      + apply (is_derive_mult (K := R_AbsRing) (legendre m) (fun x => (1 - x * x) * dleg n x) x); [apply leg_derive|apply leg_Q|intros; apply Rmult_comm].
      + apply (is_derive_mult (K := R_AbsRing) (legendre n) (fun x => (1 - x * x) * dleg m x) x); [apply leg_derive|apply leg_Q|intros; apply Rmult_comm].
    - intros x _. apply (continuous_mult (K := R_AbsRing) (fun _ => c) (fun x => legendre m x * legendre n x)); [apply continuous_const|].
      apply (continuous_mult (K := R_AbsRing) (legendre m) (legendre n)); apply leg_continuous. }
  apply (is_RInt_scal (V := R_CompleteNormedModule) _ _ _ (/ c)) in H.
  assert (Z : scal (V := R_NormedModule) (/ c) 0 = 0) by (unfold scal; cbn; unfold mult; cbn; ring).
  rewrite <- Z. eapply is_RInt_ext; [|exact H]. intros x _. unfold scal; cbn; unfold mult; cbn. field. exact CN.
Qed.
Lemma leg_energy : forall n x, is_derive (fun x => INR n * (INR n + 1) * (legendre n x * legendre n x) + (1 - x * x) * (dleg n x * dleg n x)) x (2 * x * (dleg n x * dleg n x)).
Proof.
  intros n x. auto_derive.
  - split; [exists (dleg n x); apply leg_derive|]. split; [exists (dleg n x); apply leg_derive|]. split; [exists (ddleg n x); apply dleg_derive|]. split; [exists (ddleg n x); apply dleg_derive|]. exact I.
  - rewrite (is_derive_unique (fun y : R => legendre n y) _ _ (leg_derive n x)), (is_derive_unique (fun y : R => dleg n y) _ _ (dleg_derive n x)). pose proof (leg_equation n x) as E.
    replace (2 * x * (dleg n x * dleg n x)) with (2 * x * (dleg n x * dleg n x) + 2 * dleg n x * 0) by ring. rewrite <- E. ring.
Qed.
Lemma leg_size_pos : forall n x, 0 <= x <= 1 -> Rabs (legendre n x) <= 1.
Proof.
  intros [|n] x [H0 H1]; [rewrite leg0, Rabs_R1; lra|]. set (N := S n).
  set (E := fun x => INR N * (INR N + 1) * (legendre N x * legendre N x) + (1 - x * x) * (dleg N x * dleg N x)).
  assert (M : E x <= E 1).
  { destruct (MVT_gen E x 1 (fun x => 2 * x * (dleg N x * dleg N x))) as (c & C & HC).
    - intros y Y. apply leg_energy.
    - intros y Y. apply derivable_continuous_pt. exists (2 * y * (dleg N y * dleg N y)). apply is_derive_Reals. apply leg_energy.
    - rewrite Rmin_left, Rmax_right in C by lra. assert (0 <= 2 * c * (dleg N c * dleg N c) * (1 - x)); [|lra].
      apply Rmult_le_pos; [|lra]. apply Rmult_le_pos; [lra|]. apply Rle_0_sqr. }
  unfold E in M. rewrite leg_one in M. replace (1 - 1 * 1) with 0 in M by ring.
  assert (P : 0 < INR N * (INR N + 1)). { pose proof (lt_0_INR N ltac:(unfold N; lia)). apply Rmult_lt_0_compat; lra. }
  assert (Q : 0 <= (1 - x * x) * (dleg N x * dleg N x)). { apply Rmult_le_pos; [nra|apply Rle_0_sqr]. }
  assert (S2 : legendre N x * legendre N x <= 1) by (apply Rmult_le_reg_l with (INR N * (INR N + 1)); [exact P|]; lra).
  apply Rabs_le. split; nra.
Qed.
Lemma leg_size : forall n x, -1 <= x <= 1 -> Rabs (legendre n x) <= 1.
Proof.
  intros n x H. destruct (Rle_lt_dec 0 x) as [P|P]; [apply leg_size_pos; lra|].
  replace x with (- - x) by ring. rewrite leg_parity, Rabs_mult. replace (Rabs (sgn n)) with 1.
  - rewrite Rmult_1_l. apply leg_size_pos. lra.
  - unfold sgn. destruct (Nat.even n); [symmetry; apply Rabs_R1|rewrite Rabs_left; lra].
Qed.
