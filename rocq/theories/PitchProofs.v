From Coq Require Import Reals Lra Lia.
From Coquelicot Require Import Coquelicot.
From Verif Require Import Base CodeModel CodeSpec CodeProofs PitchSpec.
Local Open Scope R_scope.

Lemma rint_plus : forall f g a b u v, is_RInt f a b u -> is_RInt g a b v -> is_RInt (fun x => f x + g x) a b (u + v).
Proof. intros. apply (is_RInt_plus (V := R_NormedModule)); assumption. Qed.
Lemma rint_scal : forall f a b k u, is_RInt f a b u -> is_RInt (fun x => k * f x) a b (k * u).
Proof. intros. apply (is_RInt_scal (V := R_NormedModule)). assumption. Qed.
Lemma rint_ext : forall (f g : R -> R) a b u, (forall x, f x = g x) -> is_RInt f a b u -> is_RInt g a b u.
Proof. intros f g a b u E H. eapply is_RInt_ext; [|exact H]. intros. apply E. Qed.

Lemma rint_const : forall a b c, is_RInt (fun _ => c) a b ((b - a) * c).
Proof. intros. apply (is_RInt_const (V := R_NormedModule)). Qed.
Lemma rint_zero : forall a b, is_RInt (fun _ => 0) a b 0.
Proof. intros. pose proof (rint_const a b 0) as H. rewrite Rmult_0_r in H. exact H. Qed.

Lemma dleg_step : forall n x, dleg (S (S n)) x = (2 * INR n + 3) * legendre (S n) x + dleg n x.
Proof.
  intros n x. destruct (leg_AB (S n) x) as [A _]. destruct (leg_AB n x) as [_ B]. rewrite A, S_INR. lra.
Qed.
(** A Legendre polynomial is orthogonal to the derivatives of those of lower or equal degree. *)
Lemma leg_dleg : forall n m, (n <= m)%nat -> is_RInt (fun x => legendre m x * dleg n x) (-1) 1 0.
Proof.
  induction n as [| |n IH0 IH1] using two_step; intros m H.
  - apply (rint_ext (fun _ => 0)); [intros x; unfold dleg; cbn; ring|].
    apply rint_zero.
  - apply (rint_ext (fun x => legendre m x * legendre 0 x)); [intros x; unfold dleg; cbn; ring|]. apply leg_orthogonal. lia.
  - apply (rint_ext (fun x => (2 * INR n + 3) * (legendre m x * legendre (S n) x) + legendre m x * dleg n x)).
    { intros x. rewrite dleg_step. ring. }
    replace 0 with ((2 * INR n + 3) * 0 + 0) by ring.
    apply rint_plus; [apply rint_scal, leg_orthogonal; lia | apply IH0; lia].
Qed.
Lemma dleg_continuous : forall n x, continuous (dleg n) x.
Proof. intros n x. apply (ex_derive_continuous (K := R_AbsRing) (V := R_NormedModule)). exists (ddleg n x). apply dleg_derive. Qed.
Lemma leg_norm : forall n, is_RInt (fun x => legendre n x * legendre n x) (-1) 1 (2 / (2 * INR n + 1)).
Proof.
  intros [|n].
  - replace (2 / (2 * INR 0 + 1)) with ((1 - -1) * 1) by (cbn [INR]; field).
    apply (rint_ext (fun _ => 1)); [intros x; rewrite leg0; ring|]. apply rint_const.
  - assert (P : 0 < 2 * INR (S n) + 1) by (pose proof (pos_INR (S n)); lra).
    assert (H : is_RInt (fun x => (2 * INR (S n) + 1) * (legendre (S n) x * legendre (S n) x) + 2 * (legendre (S n) x * dleg n x)) (-1) 1 2).
    { pose (W := fun x => x * (legendre (S n) x * legendre (S n) x)).
      assert (E : 2 = minus (G := R_AbelianGroup) (W 1) (W (-1))).
      { change (2 = 1 * (legendre (S n) 1 * legendre (S n) 1) + - (-1 * (legendre (S n) (-1) * legendre (S n) (-1)))).
        replace (-1) with (- (1)) by ring. rewrite (leg_parity (S n) 1), leg_one.
        pose proof (sgn_sq (S n)) as Q. transitivity (1 + (sgn (S n) * sgn (S n))); [rewrite Q|]; ring. }
      match goal with |- is_RInt ?F _ _ _ => apply (eq_ind_r (fun v => is_RInt F (-1) 1 v) (x := minus (G := R_AbelianGroup) (W 1) (W (-1)))); [|exact E] end.
      apply (is_RInt_derive (V := R_CompleteNormedModule)).
      - intros x _. unfold W. destruct (leg_AB n x) as [_ B].
        replace ((2 * INR (S n) + 1) * (legendre (S n) x * legendre (S n) x) + 2 * (legendre (S n) x * dleg n x))
          with (1 * (legendre (S n) x * legendre (S n) x) + x * (dleg (S n) x * legendre (S n) x + legendre (S n) x * dleg (S n) x)).
        + apply (is_derive_mult (K := R_AbsRing) (fun x => x) (fun x => legendre (S n) x * legendre (S n) x) x); [apply (is_derive_id (K := R_AbsRing))| |intros; apply Rmult_comm].
          apply (is_derive_mult (K := R_AbsRing) (legendre (S n)) (legendre (S n)) x); [apply leg_derive|apply leg_derive|intros; apply Rmult_comm].
        + rewrite S_INR. replace (x * (dleg (S n) x * legendre (S n) x + legendre (S n) x * dleg (S n) x)) with (2 * legendre (S n) x * (x * dleg (S n) x)) by ring.
          replace (x * dleg (S n) x) with (dleg n x + (INR n + 1) * legendre (S n) x) by lra. ring.
      - intros x _. apply (continuous_plus (V := R_NormedModule)).
        + apply (continuous_mult (K := R_AbsRing) (fun _ => 2 * INR (S n) + 1)); [apply continuous_const|].
          apply (continuous_mult (K := R_AbsRing)); apply leg_continuous.
        + apply (continuous_mult (K := R_AbsRing) (fun _ => 2)); [apply continuous_const|].
          apply (continuous_mult (K := R_AbsRing)); [apply leg_continuous | apply dleg_continuous]. }
    pose proof (rint_scal _ _ _ (-2) _ (leg_dleg n (S n) ltac:(lia))) as H2.
    pose proof (rint_scal _ _ _ (/ (2 * INR (S n) + 1)) _ (rint_plus _ _ _ _ _ _ H H2)) as H3.
    replace (2 / (2 * INR (S n) + 1)) with (/ (2 * INR (S n) + 1) * (2 + -2 * 0)) by (field; lra).
    apply (rint_ext (fun x => / (2 * INR (S n) + 1) * ((2 * INR (S n) + 1) * (legendre (S n) x * legendre (S n) x) + 2 * (legendre (S n) x * dleg n x) + -2 * (legendre (S n) x * dleg n x)))); [|exact H3].
    intros x. field. lra.
Qed.

(** The series times one of its polynomials. *)
Lemma series_project : forall n (c : nat -> R) l,
  is_RInt (fun xi => sum n (fun i => c i * legendre i (- xi)) * legendre l (- xi)) (-1) 1 (if (l <? n)%nat then 2 / (2 * INR l + 1) * c l else 0).
Proof.
  intros n c l. induction n as [|n IH].
  - apply (rint_ext (fun _ => 0)); [intros x; cbn; ring|].
    apply rint_zero.
  - apply (rint_ext (fun xi => sum n (fun i => c i * legendre i (- xi)) * legendre l (- xi) + (c n * (sgn n * sgn l)) * (legendre n xi * legendre l xi))).
    { intros x. rewrite sum_S, (leg_parity n), (leg_parity l). ring. }
    destruct (Nat.eq_dec l n) as [-> | NE].
    + replace (n <? n)%nat with false in IH by (symmetry; apply Nat.ltb_ge; lia).
      replace (n <? S n)%nat with true by (symmetry; apply Nat.ltb_lt; lia).
      replace (2 / (2 * INR n + 1) * c n) with (0 + (c n * (sgn n * sgn n)) * (2 / (2 * INR n + 1))).
      * apply rint_plus; [exact IH | apply rint_scal, leg_norm].
      * rewrite sgn_sq. ring.
    + replace (l <? S n)%nat with (l <? n)%nat.
      * pose proof (rint_plus _ _ _ _ _ _ IH (rint_scal _ _ _ (c n * (sgn n * sgn l)) _ (leg_orthogonal n l ltac:(lia)))) as K.
        rewrite Rmult_0_r, Rplus_0_r in K. exact K.
      * destruct (Nat.ltb_spec l n); symmetry; [apply Nat.ltb_lt | apply Nat.ltb_ge]; lia.
Qed.
Lemma series_continuous : forall n (c : nat -> R) x, continuous (fun xi => sum n (fun i => c i * legendre i (- xi))) x.
Proof.
  induction n as [|n IH]; intros c x.
  - apply continuous_const.
  - apply (continuous_plus (V := R_NormedModule) (fun xi => sum n (fun i => c i * legendre i (- xi))) (fun xi => c n * legendre n (- xi))); [apply IH|].
    apply (continuous_mult (K := R_AbsRing) (fun _ => c n)); [apply continuous_const|].
    apply (continuous_comp (fun xi : R => - xi) (legendre n)); [apply (continuous_opp (V := R_NormedModule)), continuous_id | apply leg_continuous].
Qed.

(** The integral of exp (C |xi|). *)
Lemma exp_pitch : forall C, C <> 0 -> is_RInt (fun xi => exp (C * Rabs xi)) (-1) 1 (2 * (exp C - 1) / C).
Proof.
  intros C H.
  assert (G : forall K a b, K <> 0 -> is_RInt (fun xi => exp (K * xi)) a b ((exp (K * b) - exp (K * a)) / K)).
  { intros K a b HK. replace ((exp (K * b) - exp (K * a)) / K) with (minus (G := R_AbelianGroup) ((fun x => exp (K * x) / K) b) ((fun x => exp (K * x) / K) a)) by (unfold minus, plus, opp; cbn; field; exact HK).
    apply (is_RInt_derive (V := R_CompleteNormedModule) (fun x => exp (K * x) / K)).
    - intros x _. auto_derive; [exact Logic.I|]. field. exact HK.
    - intros x _. apply (continuous_comp (fun x => K * x) exp).
      + apply (continuous_mult (K := R_AbsRing) (fun _ => K)); [apply continuous_const | apply continuous_id].
      + apply (ex_derive_continuous (K := R_AbsRing) (V := R_NormedModule)). exists (exp (K * x)). apply is_derive_exp. }
  replace (2 * (exp C - 1) / C) with (plus (G := R_AbelianGroup) ((exp (- C * 0) - exp (- C * -1)) / - C) ((exp (C * 1) - exp (C * 0)) / C)).
  - apply (is_RInt_Chasles (V := R_NormedModule) _ (-1) 0 1).
    + eapply is_RInt_ext; [|apply (G (- C)); lra]. intros x Hx. rewrite Rmin_left, Rmax_right in Hx by lra.
      cbn. rewrite Rabs_left by lra. f_equal. ring.
    + eapply is_RInt_ext; [|apply (G C); lra]. intros x Hx. rewrite Rmin_left, Rmax_right in Hx by lra.
      cbn. rewrite Rabs_right by lra. reflexivity.
  - unfold plus. cbn. rewrite !Rmult_0_r, !Rmult_1_r, exp_0. replace (- C * -1) with C by ring. field. exact H.
Qed.
