(** Properties of the analytical magnetic field. *)
From Coq Require Import Reals Lra Lia List.
From Coquelicot Require Import Coquelicot.
From Verif Require Import Base DomainModel DomainSpec DomainProofs DomainProps AnalyticalModel AnalyticalSpec AnalyticalProofs.
Import ListNotations.
Local Open Scope R_scope.
Set Bullet Behavior "Strict Subproofs".

(** * C51: safety factor profiles *)
(** Away from the axis, [r dq/dr] is [r] times the derivative of the safety factor, for each
    type of profile and wherever the safety factor is defined. *)
Theorem C51_derivative : forall f r q, 0 < r -> safety_factor f r = Some q ->
  exists q', deriv_at (safety_factor f) r q' /\ r_dq_dr f r = Some (r * q').
Proof.
  intros f r q Hr H. destruct (profile f r q Hr H) as (qf & q' & L & E & D & X). exists q'. split; [|exact X].
  apply (deriv_at_intro _ qf); assumption.
Qed.
Print Assumptions C51_derivative.
(** On the axis it is zero. *)
Theorem C51_axis : forall f q, safety_factor f 0 = Some q -> r_dq_dr f 0 = Some 0.
Proof.
  intros f q H. destruct (profile_defined f 0 (ex_intro _ q H)) as [d D]. rewrite D. f_equal. exact (profile_axis f d D).
Qed.
Print Assumptions C51_axis.
(** The profiles themselves, as functions of the normalised radius. *)
Theorem C51_values : forall B0 Rm zax rminor sB sI q1 q2 r, rminor <> 0 ->
  let q t := safety_factor (new_afield B0 Rm zax rminor sB sI t q1 q2) r in
  q QConstant = Some q1 /\
  (forall b, q2 = Some b -> q QLinear = Some (q1 * (r / rminor) + b) /\ q QQuadratic = Some (q1 * (r / rminor) ^ 2 + b) /\
    q QExponential = Some (exp (q1 * (r / rminor)) + b)) /\
  (q2 = None -> q QCurrent = Some q1) /\
  (forall a v, q2 = Some a -> 0 < a -> 0 < r / rminor ->
    (q QCurrent = Some v <-> 1 - 2 / (a + 2) * Rpower (r / rminor) a <> 0 /\ v * (1 - 2 / (a + 2) * Rpower (r / rminor) a) = q1)).
Proof.
  intros B0 Rm zax rminor sB sI q1 q2 r N q. unfold q, safety_factor, new_afield. cbn [a_rminor a_qt a_q1 a_q2]. rewrite !ediv_ok by exact N.
  split; [reflexivity|]. split.
  { intros b ->. split; [reflexivity|]. split; [f_equal; ring|]. f_equal. f_equal. f_equal. ring. }
  split; [intros ->; reflexivity|]. intros a v -> Ha Hr. rewrite ediv_ok by lra. unfold cpow. destruct (Rlt_dec 0 (r / rminor)); [|contradiction].
  set (D := 1 - 2 / (a + 2) * Rpower (r / rminor) a). split.
  - intro H. apply ediv_inv in H. destruct H as [ND H]. split; [exact ND|]. injection H as <-. field. exact ND.
  - intros [ND <-]. rewrite ediv_ok by exact ND. f_equal. field. exact ND.
Qed.
Print Assumptions C51_values.
(** Inside the plasma the current profile is defined, and it rises from [q1] on the axis. *)
Theorem C51_current_defined : forall f a r, a_qt f = QCurrent -> a_q2 f = Some a -> 0 < a -> 0 < a_rminor f -> 0 <= r <= a_rminor f -> 0 < a_q1 f ->
  exists q, safety_factor f r = Some q /\ a_q1 f <= q /\ (r = 0 -> q = a_q1 f).
Proof.
  intros f a r T Q Ha Hm Hr H1. unfold safety_factor. rewrite T, Q, ediv_ok by lra. rewrite ediv_ok by lra. unfold cpow.
  assert (B : 0 <= r / a_rminor f <= 1). { split; [apply Rmult_le_pos; [lra|left; apply Rinv_0_lt_compat; lra]|]. apply (Rmult_le_reg_r (a_rminor f)); [lra|]. unfold Rdiv. rewrite Rmult_assoc, Rinv_l by lra. lra. }
  assert (C : 0 < 2 / (a + 2) < 1). { split; [apply Rdiv_lt_0_compat; lra|]. apply (Rmult_lt_reg_r (a + 2)); [lra|]. unfold Rdiv. rewrite Rmult_assoc, Rinv_l by lra. lra. }
  destruct (Rlt_dec 0 (r / a_rminor f)) as [P|P].
  - assert (PW : 0 < Rpower (r / a_rminor f) a <= 1).
    { split; [apply Rpower_pos|]. assert (E : Rpower (r / a_rminor f) a <= Rpower 1 a) by (apply Rle_Rpower_l; lra).
      unfold Rpower at 2 in E. rewrite ln_1, Rmult_0_r, exp_0 in E. exact E. }
    assert (D : 0 < 1 - 2 / (a + 2) * Rpower (r / a_rminor f) a <= 1) by nra.
    set (DD := 1 - 2 / (a + 2) * Rpower (r / a_rminor f) a) in *. rewrite ediv_ok by lra. exists (a_q1 f / DD). split; [reflexivity|]. split.
    + apply (Rmult_le_reg_r DD); [lra|]. replace (a_q1 f / DD * DD) with (a_q1 f) by (field; lra). nra.
    + intros ->. unfold Rdiv in P. rewrite Rmult_0_l in P. lra.
  - assert (Z : r / a_rminor f = 0) by lra. destruct (Req_EM_T (r / a_rminor f) 0); [|contradiction]. destruct (Rlt_dec 0 a); [|contradiction].
    rewrite ediv_ok by lra. exists (a_q1 f). split; [f_equal; replace (1 - 2 / (a + 2) * 0) with 1 by ring; field|]. split; [lra|reflexivity].
Qed.
Print Assumptions C51_current_defined.
Example C51_example : let f := new_afield 5 2 0 (1/2) CCW CW QQuadratic 1 (Some 3) in
  safety_factor f (1/4) = Some (13/4) /\ r_dq_dr f (1/4) = Some (1/2).
Proof.
  intro f. unfold f, safety_factor, r_dq_dr, new_afield. cbn [a_rminor a_qt a_q1 a_q2]. rewrite !ediv_ok by lra. split; f_equal; field.
Qed.

(** * C49: the analytical field is a magnetic field *)
(** Where the field is defined. *)
Theorem C49_defined : forall f x y z, (exists b, eval f x y z = Some b) <->
  major x y <> 0 /\ a_Rm f <> 0 /\ exists q, safety_factor f (minor f x y z) = Some q /\ q <> 0.
Proof.
  intros f x y z. split.
  - intros [b H]. destruct (eval_inv _ _ _ _ _ H) as (A & B & q & Nq & Hq). split; [exact A|]. split; [exact B|]. exists q. split; assumption.
  - intros (A & B & q & Hq & Nq). eexists. exact (eval_closed f x y z q A B Nq Hq).
Qed.
Print Assumptions C49_defined.
(** The field, resolved along the cylindrical directions: the toroidal part falls off like 1/R
    and the poloidal part turns around the axis. *)
Theorem C49_value : forall f x y z b q, eval f x y z = Some b -> safety_factor f (minor f x y z) = Some q ->
  c0 b * x + c1 b * y = major x y * (a_sI f * a_B0 f * (z - a_zax f) / (q * major x y)) /\
  c1 b * x - c0 b * y = major x y * (a_sB f * a_B0 f * a_Rm f / major x y) /\
  c2 b = a_sI f * a_B0 f * (a_Rm f - major x y) / (q * major x y).
Proof.
  intros f x y z b q H HQ. destruct (eval_inv _ _ _ _ _ H) as (A & B & q' & Nq & Hq). change (hypot (a_Rm f - hypot x y) (z - a_zax f)) with (minor f x y z) in Hq.
  rewrite HQ in Hq. injection Hq as <-. rewrite (eval_closed f x y z q A B Nq HQ) in H. injection H as <-. unfold c0, c1, c2, Bx, By, Bz. cbn [fst snd].
  assert (S := hypot_sq x y). change (hypot x y) with (major x y) in *. set (RR := major x y) in *.
  split; [|split].
  - transitivity (a_B0 f * (a_sI f * (z - a_zax f) * (x * x + y * y) / (q * (RR * RR)))); [field; split; assumption|]. rewrite <- S. field. split; assumption.
  - transitivity (a_B0 f * (a_sB f * a_Rm f * (x * x + y * y) / (RR * RR))); [field; split; assumption|]. rewrite <- S. field. assumption.
  - field. split; assumption.
Qed.
Print Assumptions C49_value.
(** [EvalDerivatives] is defined where [Eval] is and reports the same field. *)
Theorem C49_same_field : forall f x y z,
  ((exists m, eval_derivatives f x y z = Some m) <-> (exists b, eval f x y z = Some b)) /\
  (forall m, eval_derivatives f x y z = Some m -> eval f x y z = Some (m_B m)).
Proof.
  intros f x y z. split; [apply derivs_defined|]. intros m H. destruct (derivs_inv _ _ _ _ _ H) as (A & B & q & Nq & Hq).
  destruct (Req_EM_T (hypot (a_Rm f - hypot x y) (z - a_zax f)) 0) as [Z|N].
  - assert (ON : ~ off_axis f x y z) by (intro O; apply O; exact Z). destruct (derivs_on f x y z m ON H) as (q' & ER & EZ & NM & Nq' & Hq' & HA & MB & _).
    rewrite (eval_closed f x y z q A B Nq Hq), MB, ER, EZ. unfold Bx, By, Bz. apply some3; field; repeat split; assumption.
  - destruct (derivs_off f x y z m N H) as (q' & rd & HR & HM & Nq' & Hq' & Hd & MB & _). rewrite MB. apply eval_closed; assumption.
Qed.
Print Assumptions C49_same_field.
(** The Jacobian is the true derivative of the field in every direction; on the axis this
    needs a positive minor radius. *)
Theorem C49_jacobian : forall f x y z m u v w, eval_derivatives f x y z = Some m -> minor f x y z <> 0 \/ 0 < a_rminor f ->
  deriv_along (component c0 (eval f)) x y z u v w (dot3 (m_J0 m) (u, v, w)) /\
  deriv_along (component c1 (eval f)) x y z u v w (dot3 (m_J1 m) (u, v, w)) /\
  deriv_along (component c2 (eval f)) x y z u v w (dot3 (m_J2 m) (u, v, w)).
Proof.
  intros f x y z m u v w H C. destruct (Req_EM_T (minor f x y z) 0) as [Z|N].
  - destruct C as [C|C]; [contradiction|]. apply jacobian_axis; [intro O; apply O; exact Z|exact C|exact H].
  - apply jacobian; assumption.
Qed.
Print Assumptions C49_jacobian.
(** The divergence vanishes and the returned curl is the curl. *)
Theorem C49_divergence : forall f x y z m, eval_derivatives f x y z = Some m -> c0 (m_J0 m) + c1 (m_J1 m) + c2 (m_J2 m) = 0.
Proof.
  intros f x y z m H. destruct (Req_EM_T (minor f x y z) 0) as [Z|N].
  - assert (ON : ~ off_axis f x y z) by (intro O; apply O; exact Z). destruct (derivs_on f x y z m ON H) as (q & ER & EZ & NM & Nq & Hq & HA & MB & J0 & J1 & J2 & _).
    rewrite J0, J1, J2. unfold c0, c1, c2. cbn [fst snd]. field. assumption.
  - destruct (derivs_off f x y z m N H) as (q & rd & HR & HM & Nq & Hq & Hd & MB & J0 & J1 & J2 & _). rewrite J0, J1, J2. unfold c0, c1, c2. cbn [fst snd].
    assert (S := hypot_sq x y). assert (S2 := hypot_sq (a_Rm f - hypot x y) (z - a_zax f)). unfold minor in N. fold (major x y) in *. change (hypot x y) with (major x y) in *.
    set (RR := major x y) in *. change (hypot (a_Rm f - RR) (z - a_zax f) <> 0) in N. set (r := hypot (a_Rm f - RR) (z - a_zax f)) in *. set (Z := z - a_zax f) in *.
    transitivity (a_B0 f * (a_sI f * Z / (q * RR * RR) * (2 - 2 * (x * x + y * y) / (RR * RR)) + a_sI f * rd * Z * (a_Rm f - RR) * ((x * x + y * y) - RR * RR) / (q * q * RR * RR * RR * r * r)));
      [field; repeat split; assumption|]. rewrite <- S. field. repeat split; assumption.
Qed.
Print Assumptions C49_divergence.
Theorem C49_curl : forall f x y z m, eval_derivatives f x y z = Some m ->
  m_curlB m = (c1 (m_J2 m) - c2 (m_J1 m), c2 (m_J0 m) - c0 (m_J2 m), c0 (m_J1 m) - c1 (m_J0 m)).
Proof.
  intros f x y z m H. assert (P3 : forall a b c a' b' c' : R, a = a' -> b = b' -> c = c' -> (a, b, c) = (a', b', c')) by (intros; subst; reflexivity).
  destruct (Req_EM_T (minor f x y z) 0) as [Z|N].
  - assert (ON : ~ off_axis f x y z) by (intro O; apply O; exact Z). destruct (derivs_on f x y z m ON H) as (q & ER & EZ & NM & Nq & Hq & HA & MB & J0 & J1 & J2 & CU & _).
    assert (S := hypot_sq x y). rewrite ER in S.
    rewrite J0, J1, J2, CU. unfold c0, c1, c2. cbn [fst snd]. apply P3; [field; split; assumption|field; split; assumption|].
    transitivity (a_B0 f * a_sB f * (2 - 2 * (x * x + y * y) / (a_Rm f * a_Rm f)) / a_Rm f); [rewrite <- S; field; assumption|field; assumption].
  - destruct (derivs_off f x y z m N H) as (q & rd & HR & HM & Nq & Hq & Hd & MB & J0 & J1 & J2 & CU & _). rewrite J0, J1, J2, CU. unfold c0, c1, c2. cbn [fst snd].
    assert (S := hypot_sq x y). assert (S2 := hypot_sq (a_Rm f - hypot x y) (z - a_zax f)). change (hypot (a_Rm f - hypot x y) (z - a_zax f) <> 0) in N.
    set (RR := hypot x y) in *. set (r := hypot (a_Rm f - RR) (z - a_zax f)) in *. set (Z := z - a_zax f) in *.
    apply P3.
    + transitivity (a_sI f * a_B0 f * y / (q * RR * RR) * (rd / q * ((a_Rm f - RR) * (a_Rm f - RR) + Z * Z) / (r * r) - a_Rm f / RR - 1)); [rewrite <- S2|]; field; repeat split; assumption.
    + transitivity (a_sI f * a_B0 f * x / (q * RR * RR) * (1 + a_Rm f / RR - rd / q * ((a_Rm f - RR) * (a_Rm f - RR) + Z * Z) / (r * r))); [rewrite <- S2|]; field; repeat split; assumption.
    + transitivity (a_B0 f * a_Rm f * a_sB f * (2 / (RR * RR) - 2 * (x * x + y * y) / (RR * RR * RR * RR))); [rewrite <- S|]; field; repeat split; assumption.
Qed.
Print Assumptions C49_curl.
(** Turning the point about the symmetry axis turns the field with it. *)
Theorem C49_axisymmetric : forall f x y z phi b, eval f x y z = Some b ->
  eval f (x * cos phi - y * sin phi) (x * sin phi + y * cos phi) z = Some (turn phi b).
Proof.
  intros f x y z phi b H. destruct (eval_inv _ _ _ _ _ H) as (A & B & q & Nq & Hq).
  assert (E : hypot (x * cos phi - y * sin phi) (x * sin phi + y * cos phi) = hypot x y).
  { unfold hypot. f_equal. assert (T := sin2_cos2 phi). unfold Rsqr in T.
    transitivity ((x * x + y * y) * (sin phi * sin phi + cos phi * cos phi)); [ring|rewrite T; ring]. }
  rewrite (eval_closed f x y z q A B Nq Hq) in H. injection H as <-.
  assert (A' := A). rewrite <- E in A'. assert (Hq' := Hq). rewrite <- E in Hq'. rewrite (eval_closed f _ _ z q A' B Nq Hq'), E. unfold turn, c0, c1, c2, Bx, By, Bz. cbn [fst snd].
  apply some3; [field; split; assumption|field; split; assumption|reflexivity].
Qed.
Print Assumptions C49_axisymmetric.
(** The flux returned with its derivatives is the flux, and its derivatives are the true ones. *)
Theorem C49_flux_value : forall f x y z, ((exists v, eval_flux_derivatives f x y z = Some v) <-> (exists p, eval_flux f x y z = Some p)) /\
  (forall v, eval_flux_derivatives f x y z = Some v -> eval_flux f x y z = Some (c0 v)).
Proof.
  intros f x y z. split; [split|].
  - intros [v H]. destruct (fluxd_closed _ _ _ _ _ H) as (q & rd & Nq & Hq & _). eexists. exact (flux_closed f x y z q Nq Hq).
  - intros [p H]. unfold eval_flux in H. unfold eval_flux_derivatives. cbv zeta in *.
    destruct (safety_factor f (sqrt ((z - a_zax f) * (z - a_zax f) + (a_Rm f - sqrt (x * x + y * y)) * (a_Rm f - sqrt (x * x + y * y))))) as [q|] eqn:Q; [|discriminate H].
    destruct (profile_defined f _ (ex_intro _ q Q)) as [d D]. rewrite D. apply ediv_inv in H. destruct H as [Nq _]. rewrite ediv_ok by exact Nq. eexists. reflexivity.
  - intros v H. destruct (fluxd_closed _ _ _ _ _ H) as (q & rd & Nq & Hq & Hd & ->). exact (flux_closed f x y z q Nq Hq).
Qed.
Print Assumptions C49_flux_value.
Theorem C49_flux_gradient : forall f x y z v u1 u2 w, eval_flux_derivatives f x y z = Some v -> major x y <> 0 -> minor f x y z <> 0 \/ 0 < a_rminor f ->
  deriv_along (eval_flux f) x y z u1 u2 w (c1 v * ((x * u1 + y * u2) / major x y) + c2 v * w).
Proof.
  intros f x y z v u1 u2 w H HR C. destruct (Req_EM_T (minor f x y z) 0) as [Z|N].
  - destruct C as [C|C]; [contradiction|]. apply flux_gradient_axis; [intro O; apply O; exact Z|exact C|exact HR|exact H].
  - apply flux_gradient; assumption.
Qed.
Print Assumptions C49_flux_gradient.
(** The flux does not change along the field. *)
Theorem C49_tangent : forall f x y z b, eval f x y z = Some b -> minor f x y z <> 0 \/ 0 < a_rminor f ->
  deriv_along (eval_flux f) x y z (c0 b) (c1 b) (c2 b) 0.
Proof.
  intros f x y z b H C. destruct (eval_inv _ _ _ _ _ H) as (A & B & q & Nq & Hq).
  assert (X : exists v, eval_flux_derivatives f x y z = Some v) by (apply (proj1 (C49_flux_value f x y z)); eexists; exact (flux_closed f x y z q Nq Hq)).
  destruct X as [v X]. assert (G := C49_flux_gradient f x y z v (c0 b) (c1 b) (c2 b) X A C). destruct (fluxd_closed _ _ _ _ _ X) as (q' & rd & Nq' & Hq' & Hd & EV).
  rewrite Hq in Hq'. injection Hq' as <-.
  assert (V := C49_value f x y z b q H Hq). destruct V as (V1 & _ & V3).
  replace 0 with (c1 v * ((x * c0 b + y * c1 b) / major x y) + c2 v * c2 b); [exact G|].
  replace (x * c0 b + y * c1 b) with (c0 b * x + c1 b * y) by ring. rewrite V1, V3, EV. unfold c1, c2. cbn [fst snd]. change (hypot x y) with (major x y) in *. field. split; assumption.
Qed.
Print Assumptions C49_tangent.
(** How the poloidal field and the gradient of the flux are related: they agree only where the
    safety factor is stationary. *)
Theorem C49_flux_field : forall f x y z b v q rd, eval f x y z = Some b -> eval_flux_derivatives f x y z = Some v ->
  safety_factor f (minor f x y z) = Some q -> r_dq_dr f (minor f x y z) = Some rd ->
  c2 v / (2 * PI * major x y) = (c0 b * x + c1 b * y) / major x y * (1 - rd / (2 * q)) /\
  - c1 v / (2 * PI * major x y) = c2 b * (1 - rd / (2 * q)).
Proof.
  intros f x y z b v q rd H X HQ HD. destruct (fluxd_closed _ _ _ _ _ X) as (q' & rd' & Nq' & Hq' & Hd & EV).
  change (hypot (a_Rm f - hypot x y) (z - a_zax f)) with (minor f x y z) in *. rewrite HQ in Hq'. injection Hq' as <-. rewrite HD in Hd. injection Hd as <-.
  destruct (eval_inv _ _ _ _ _ H) as (A & _). assert (V := C49_value f x y z b q H HQ). destruct V as (V1 & _ & V3).
  assert (NP := PI_neq0). rewrite V1, V3, EV. unfold c1, c2. cbn [fst snd]. change (hypot x y) with (major x y) in *. split; field; repeat split; assumption.
Qed.
Print Assumptions C49_flux_field.
Theorem C49_flux_field_refuted : exists f x y z b v, is_sign (a_sB f) /\ is_sign (a_sI f) /\ 0 < a_B0 f /\ 0 < a_rminor f < a_Rm f /\
  minor f x y z < a_rminor f /\ eval f x y z = Some b /\ eval_flux_derivatives f x y z = Some v /\
  - c1 v / (2 * PI * major x y) <> c2 b.
Proof.
  set (f := new_afield 5 2 0 1 CCW CCW QLinear 1 (Some 1)).
  assert (M : major (3 / 2) 0 = 3 / 2) by (unfold major; replace (3 / 2 * (3 / 2) + 0 * 0) with (3 / 2 * (3 / 2)) by ring; apply sqrt_square; lra).
  assert (N : minor f (3 / 2) 0 0 = 1 / 2). { unfold minor. rewrite M. cbn [a_Rm a_zax f new_afield]. replace ((2 - 3 / 2) * (2 - 3 / 2) + (0 - 0) * (0 - 0)) with (1 / 2 * (1 / 2)) by field. apply sqrt_square; lra. }
  assert (Q : safety_factor f (minor f (3 / 2) 0 0) = Some (3 / 2)). { rewrite N. unfold safety_factor, f, new_afield. cbn [a_rminor a_qt a_q1 a_q2]. rewrite ediv_ok by lra. f_equal. field. }
  assert (D : r_dq_dr f (minor f (3 / 2) 0 0) = Some (1 / 2)). { rewrite N. unfold r_dq_dr, f, new_afield. cbn [a_rminor a_qt a_q1 a_q2]. rewrite ediv_ok by lra. f_equal. field. }
  assert (E : exists b, eval f (3 / 2) 0 0 = Some b). { apply C49_defined. split; [rewrite M; lra|]. split; [cbn; lra|]. exists (3 / 2). split; [exact Q|lra]. }
  destruct E as [b E]. assert (X : exists v, eval_flux_derivatives f (3 / 2) 0 0 = Some v).
  { apply (proj1 (C49_flux_value f (3 / 2) 0 0)). eexists. apply (flux_closed f (3 / 2) 0 0 (3 / 2)); [lra|exact Q]. }
  destruct X as [v X]. exists f, (3 / 2), 0, 0, b, v. split; [left; reflexivity|]. split; [left; reflexivity|]. split; [cbn; lra|]. split; [cbn; lra|]. split; [rewrite N; cbn; lra|]. split; [exact E|]. split; [exact X|].
  rewrite (proj2 (C49_flux_field f _ _ _ b v _ _ E X Q D)). rewrite (proj2 (proj2 (C49_value f _ _ _ b _ E Q))), M. cbn [a_sI a_B0 a_Rm f new_afield sign_of]. lra.
Qed.
Print Assumptions C49_flux_field_refuted.
Example C49_example : let f := new_afield 5 2 0 1 CCW CCW QLinear 1 (Some 1) in
  (exists m, eval_derivatives f 1 1 (1/2) = Some m) /\ (exists m, eval_derivatives f 2 0 0 = Some m) /\ minor f 2 0 0 = 0 /\ 0 < a_rminor f.
Proof.
  intro f.
  assert (SF : forall r, safety_factor f r = Some (r + 1)).
  { intro r. unfold safety_factor, f, new_afield. cbn [a_rminor a_qt a_q1 a_q2]. rewrite ediv_ok by lra. f_equal. field. }
  assert (P : forall x y z, major x y <> 0 -> exists m, eval_derivatives f x y z = Some m).
  { intros x y z N. apply (proj1 (C49_same_field f x y z)). apply C49_defined. split; [exact N|]. split; [cbn; lra|].
    exists (minor f x y z + 1). assert (0 <= minor f x y z) by apply sqrt_pos. split; [apply SF|lra]. }
  assert (M : major 2 0 = 2) by (unfold major; replace (2 * 2 + 0 * 0) with (2 * 2) by ring; apply sqrt_square; lra).
  split; [apply P; unfold major; assert (0 < sqrt (1 * 1 + 1 * 1)) by (apply sqrt_lt_R0; lra); lra|]. split; [apply P; rewrite M; lra|].
  split; [|cbn; lra]. unfold minor. rewrite M. cbn [a_Rm a_zax f new_afield]. replace ((2 - 2) * (2 - 2) + (0 - 0) * (0 - 0)) with 0 by ring. apply sqrt_0.
Qed.

(** * C50: field strength and its gradient *)
(** The returned strength is the norm of the field. *)
Theorem C50_norm : forall f x y z m, is_sign (a_sB f) -> is_sign (a_sI f) -> 0 < a_B0 f * a_Rm f -> eval_derivatives f x y z = Some m ->
  m_Babs m = sqrt (dot3 (m_B m) (m_B m)).
Proof.
  intros f x y z m SB SI P H. assert (E := strength_magnitude f x y z SB SI P). unfold strength, magnitude in E. rewrite H, (proj2 (C49_same_field f x y z) m H) in E. injection E as E. exact E.
Qed.
Print Assumptions C50_norm.
(** With a negative reference field the returned strength is negative. *)
Theorem C50_negative_refuted : forall f x y z m, is_sign (a_sB f) -> is_sign (a_sI f) -> a_B0 f * a_Rm f < 0 -> eval_derivatives f x y z = Some m -> m_Babs m < 0.
Proof.
  intros f x y z m SB SI P H. destruct (derivs_inv _ _ _ _ _ H) as (A & B & q & Nq & Hq).
  assert (E := strength_closed f x y z q A B Nq Hq). unfold strength in E. rewrite H in E. injection E as E. rewrite E.
  assert (PR := hypot_pos _ _ A). assert (K : a_B0 f * a_Rm f / hypot x y < 0).
  { unfold Rdiv. assert (I : 0 < / hypot x y) by (apply Rinv_0_lt_compat; exact PR). nra. }
  assert (S : 0 < sqrt (hypot (a_Rm f - hypot x y) (z - a_zax f) / (a_Rm f * q) * (hypot (a_Rm f - hypot x y) (z - a_zax f) / (a_Rm f * q)) + 1)) by (apply sqrt_lt_R0; nra).
  nra.
Qed.
Print Assumptions C50_negative_refuted.
(** The derivative of the strength in any direction: the returned gradient, plus a term that
    vanishes exactly when the safety factor is stationary or equals one. *)
Theorem C50_gradient_exact : forall f x y z m q rd u v w, is_sign (a_sB f) -> is_sign (a_sI f) -> 0 < a_B0 f * a_Rm f ->
  eval_derivatives f x y z = Some m -> minor f x y z <> 0 -> safety_factor f (minor f x y z) = Some q -> r_dq_dr f (minor f x y z) = Some rd ->
  deriv_along (magnitude (eval f)) x y z u v w (dot3 (m_gradB m) (u, v, w) +
    a_B0 f * rd * (1 - 1 / q) / (major x y * a_Rm f * q * q * sqrt (minor f x y z / (a_Rm f * q) * (minor f x y z / (a_Rm f * q)) + 1)) *
      ((major x y - a_Rm f) * (x * u + y * v) / major x y + (z - a_zax f) * w)).
Proof.
  intros f x y z m q rd u v w SB SI P H N HQ HD. destruct (gradient f x y z m u v w N H) as (q' & rd' & HQ' & Nq & NR & NM & HD' & G).
  change (hypot (a_Rm f - hypot x y) (z - a_zax f)) with (minor f x y z) in *. change (hypot x y) with (major x y) in *.
  rewrite HQ in HQ'. injection HQ' as <-. rewrite HD in HD'. injection HD' as <-.
  unfold deriv_along in *. eapply deriv_at_ext; [|exact G]. intro t. apply strength_magnitude; assumption.
Qed.
Print Assumptions C50_gradient_exact.
Theorem C50_gradient : forall f x y z m q rd u v w, is_sign (a_sB f) -> is_sign (a_sI f) -> 0 < a_B0 f * a_Rm f ->
  eval_derivatives f x y z = Some m -> minor f x y z <> 0 -> safety_factor f (minor f x y z) = Some q -> r_dq_dr f (minor f x y z) = Some rd ->
  rd = 0 \/ q = 1 -> deriv_along (magnitude (eval f)) x y z u v w (dot3 (m_gradB m) (u, v, w)).
Proof.
  intros f x y z m q rd u v w SB SI P H N HQ HD C. assert (G := C50_gradient_exact f x y z m q rd u v w SB SI P H N HQ HD).
  replace (dot3 (m_gradB m) (u, v, w)) with (dot3 (m_gradB m) (u, v, w) +
    a_B0 f * rd * (1 - 1 / q) / (major x y * a_Rm f * q * q * sqrt (minor f x y z / (a_Rm f * q) * (minor f x y z / (a_Rm f * q)) + 1)) *
      ((major x y - a_Rm f) * (x * u + y * v) / major x y + (z - a_zax f) * w)); [exact G|].
  destruct C as [-> | ->]; [|replace (1 - 1 / 1) with 0 by field]; unfold Rdiv; ring.
Qed.
Print Assumptions C50_gradient.
(** Everywhere else off the axis the returned vector is not the gradient of the strength. *)
Theorem C50_gradient_refuted : forall f x y z m q rd, is_sign (a_sB f) -> is_sign (a_sI f) -> 0 < a_B0 f * a_Rm f ->
  eval_derivatives f x y z = Some m -> minor f x y z <> 0 -> safety_factor f (minor f x y z) = Some q -> r_dq_dr f (minor f x y z) = Some rd ->
  rd <> 0 -> q <> 1 -> exists u v w, ~ deriv_along (magnitude (eval f)) x y z u v w (dot3 (m_gradB m) (u, v, w)).
Proof.
  intros f x y z m q rd SB SI P H N HQ HD ND NQ. destruct (derivs_inv _ _ _ _ _ H) as (NR & NM & q' & Nq & Hq').
  change (hypot (a_Rm f - hypot x y) (z - a_zax f)) with (minor f x y z) in *. change (hypot x y) with (major x y) in *. rewrite HQ in Hq'. injection Hq' as <-.
  set (k := major x y - a_Rm f). exists (k * x / major x y), (k * y / major x y), (z - a_zax f). intro D.
  assert (G := C50_gradient_exact f x y z m q rd (k * x / major x y) (k * y / major x y) (z - a_zax f) SB SI P H N HQ HD).
  assert (U := deriv_at_unique _ _ _ _ D G).
  assert (S1 := hypot_sq x y). change (hypot x y) with (major x y) in S1. assert (S2 := hypot_sq (a_Rm f - hypot x y) (z - a_zax f)). change (hypot (a_Rm f - hypot x y) (z - a_zax f)) with (minor f x y z) in S2. change (hypot x y) with (major x y) in S2.
  assert (E : (major x y - a_Rm f) * (x * (k * x / major x y) + y * (k * y / major x y)) / major x y + (z - a_zax f) * (z - a_zax f) = minor f x y z * minor f x y z).
  { rewrite S2. transitivity ((major x y - a_Rm f) * k * (x * x + y * y) / (major x y * major x y) + (z - a_zax f) * (z - a_zax f)); [field; assumption|]. rewrite <- S1. unfold k. field. assumption. }
  rewrite E in U.
  assert (W : 0 < sqrt (minor f x y z / (a_Rm f * q) * (minor f x y z / (a_Rm f * q)) + 1)) by (apply sqrt_lt_R0; nra).
  set (s := sqrt (minor f x y z / (a_Rm f * q) * (minor f x y z / (a_Rm f * q)) + 1)) in *.
  assert (NB : a_B0 f <> 0) by (intro E0; rewrite E0 in P; lra).
  assert (T : a_B0 f * rd * (1 - 1 / q) / (major x y * a_Rm f * q * q * s) * (minor f x y z * minor f x y z) = 0) by lra.
  assert (NS : s <> 0) by lra.
  assert (T' : a_B0 f * rd * (q - 1) * (minor f x y z * minor f x y z) = 0).
  { replace (a_B0 f * rd * (q - 1) * (minor f x y z * minor f x y z)) with
      (a_B0 f * rd * (1 - 1 / q) / (major x y * a_Rm f * q * q * s) * (minor f x y z * minor f x y z) * (major x y * a_Rm f * q * q * q * s)) by (field; repeat split; assumption).
    rewrite T. ring. }
  assert (NQ1 : q - 1 <> 0) by lra.
  repeat (apply Rmult_integral in T'; destruct T' as [T'|T']; try contradiction).
Qed.
Print Assumptions C50_gradient_refuted.
(** On the axis the returned gradient is zero, but the strength falls with the radius. *)
Theorem C50_axis_refuted : forall f x y z m, is_sign (a_sB f) -> is_sign (a_sI f) -> 0 < a_B0 f * a_Rm f -> 0 < a_rminor f ->
  eval_derivatives f x y z = Some m -> minor f x y z = 0 ->
  m_gradB m = (0, 0, 0) /\ deriv_along (magnitude (eval f)) x y z (x / major x y) (y / major x y) 0 (- a_B0 f / a_Rm f).
Proof.
  intros f x y z m SB SI P HM H Z. assert (ON : ~ off_axis f x y z) by (intro O; apply O; exact Z).
  destruct (derivs_on f x y z m ON H) as (q & ER & EZ & NM & Nq & Hq & HA & _ & _ & _ & _ & _ & G & _). split; [exact G|].
  assert (HR : hypot x y <> 0) by (rewrite ER; exact NM).
  assert (D := axis_strength f x y z (x / major x y) (y / major x y) 0 q HR HA Hq Nq HM NM).
  assert (S := hypot_sq x y). change (hypot x y) with (major x y) in *.
  replace (- a_B0 f / a_Rm f) with (- a_B0 f * ((x * (x / major x y) + y * (y / major x y)) / a_Rm f) / a_Rm f).
  - unfold deriv_along in *. eapply deriv_at_ext; [|exact D]. intro t. apply strength_magnitude; assumption.
  - transitivity (- a_B0 f * ((x * x + y * y) / (major x y * a_Rm f)) / a_Rm f); [field; split; assumption|]. rewrite <- S, ER. field. assumption.
Qed.
Print Assumptions C50_axis_refuted.
Example C50_example : let f := new_afield 5 2 0 1 CCW CCW QLinear 1 (Some 1) in
  is_sign (a_sB f) /\ is_sign (a_sI f) /\ 0 < a_B0 f * a_Rm f /\ minor f (3/2) 0 0 = 1/2 /\
  safety_factor f (1/2) = Some (3/2) /\ r_dq_dr f (1/2) = Some (1/2).
Proof.
  intro f. assert (M : major (3 / 2) 0 = 3 / 2) by (unfold major; replace (3 / 2 * (3 / 2) + 0 * 0) with (3 / 2 * (3 / 2)) by ring; apply sqrt_square; lra).
  split; [left; reflexivity|]. split; [left; reflexivity|]. split; [cbn; lra|].
  split. { unfold minor. rewrite M. cbn [a_Rm a_zax f new_afield]. replace ((2 - 3 / 2) * (2 - 3 / 2) + (0 - 0) * (0 - 0)) with (1 / 2 * (1 / 2)) by field. apply sqrt_square; lra. }
  unfold safety_factor, r_dq_dr, f, new_afield. cbn [a_rminor a_qt a_q1 a_q2]. rewrite !ediv_ok by lra. split; f_equal; field.
Qed.

(** * C45: the domain of the analytical field *)
(** Constructing an analytical field always reads outside an array. *)
Theorem C45_analytical_refuted : forall f, fst (construct f) = UB.
Proof.
  intro f. unfold construct, set_domain, new_field. cbn [d_axis snd].
  assert (P : domain_point f 0 = (a_Rm f + a_rminor f, a_zax f)).
  { unfold domain_point. replace (INR 0 / INR 49) with 0 by (cbn [INR]; unfold Rdiv; ring). rewrite !Rmult_0_r, cos_0, sin_0. f_equal; ring. }
  assert (E : domain_points f = (a_Rm f + a_rminor f, a_zax f) :: map (domain_point f) (seq 1 48) ++ [(a_Rm f + a_rminor f, a_zax f)]).
  { unfold domain_points. rewrite P. change (seq 0 49) with (0%nat :: seq 1 48). rewrite map_cons, P. reflexivity. }
  rewrite E, C45_starts_at_axis_refuted. reflexivity.
Qed.
Print Assumptions C45_analytical_refuted.

(** The contour the constructor uses as domain and as separatrix: fifty points, evenly spaced on
    one turn of the circle of radius [rminor] around the axis, the last of them the first again. *)
Theorem C45_analytical_points : forall f, exists pts,
  construct f = set_domain (new_field (a_Rm f, a_zax f)) pts pts /\ length pts = 50%nat /\
  (forall i, (i < 50)%nat -> nth_error pts i =
     Some (a_Rm f + a_rminor f * cos (2 * PI * INR i / 49), a_zax f + a_rminor f * sin (2 * PI * INR i / 49))) /\
  nth_error pts 49 = nth_error pts 0 /\
  (forall r z, In (r, z) pts -> (r - a_Rm f) * (r - a_Rm f) + (z - a_zax f) * (z - a_zax f) = a_rminor f * a_rminor f).
Proof.
  intro f. exists (domain_points f). split; [reflexivity|]. split; [reflexivity|].
  assert (P : forall i, domain_point f i = (a_Rm f + a_rminor f * cos (2 * PI * INR i / 49), a_zax f + a_rminor f * sin (2 * PI * INR i / 49))).
  { intro i. unfold domain_point. cbv zeta. assert (E49 : INR 49 = 49) by (rewrite INR_IZR_INZ; reflexivity). rewrite E49.
    replace (2 * PI * (INR i / 49)) with (2 * PI * INR i / 49) by (unfold Rdiv; ring). reflexivity. }
  assert (Q : forall i, (i < 49)%nat -> nth_error (domain_points f) i = Some (domain_point f i)).
  { intros i Hi. unfold domain_points. rewrite nth_error_app1 by (rewrite map_length, seq_length; exact Hi).
    rewrite nth_error_map. assert (N : nth_error (seq 0 49) i = Some i).
    { rewrite (nth_error_nth' _ 0%nat) by (rewrite seq_length; exact Hi). rewrite seq_nth by exact Hi. reflexivity. }
    rewrite N. reflexivity. }
  assert (L : nth_error (domain_points f) 49 = Some (domain_point f 0)) by reflexivity.
  split; [|split].
  - intros i Hi. destruct (Nat.eq_dec i 49) as [->|N].
    + rewrite L, P. assert (E49 : INR 49 = 49) by (rewrite INR_IZR_INZ; reflexivity). rewrite E49.
      replace (2 * PI * INR 0 / 49) with 0 by (cbn [INR]; field). replace (2 * PI * 49 / 49) with (2 * PI) by field.
      rewrite cos_0, sin_0, cos_2PI, sin_2PI. reflexivity.
    + rewrite Q by lia. rewrite P. reflexivity.
  - rewrite L, Q by lia. reflexivity.
  - intros r z I. assert (X : exists i, (r, z) = domain_point f i).
    { unfold domain_points in I. apply in_app_or in I. destruct I as [I|[I|[]]]; [|exists 0%nat; symmetry; exact I].
      apply in_map_iff in I. destruct I as (i & E & _). exists i. symmetry. exact E. }
    destruct X as (i & X). rewrite P in X. injection X as -> ->. set (a := 2 * PI * INR i / 49).
    pose proof (sin2_cos2 a) as S2. unfold Rsqr in S2.
    transitivity (a_rminor f * a_rminor f * (sin a * sin a + cos a * cos a)); [ring|]. rewrite S2. ring.
Qed.
Print Assumptions C45_analytical_points.

(** * C78: clones, orientations and the reference field *)
(** The constructor stores orientations as signs, and a clone describes the same field. *)
Theorem C78_clone : forall f, is_sign (a_sB f) -> is_sign (a_sI f) -> clone_afield f = f.
Proof.
  intros [B0 Rm zax rm sB sI qt q1 q2] SB SI. cbn [a_sB a_sI] in *. unfold clone_afield, new_afield. cbn [a_B0 a_Rm a_zax a_rminor a_sB a_sI a_qt a_q1 a_q2].
  destruct SB as [-> | ->], SI as [-> | ->]; destruct (Rlt_dec 0 1); try lra; destruct (Rlt_dec 0 (-1)); try lra; reflexivity.
Qed.
Print Assumptions C78_clone.
Theorem C78_signs : forall B0 Rm zax rminor sB sI qt q1 q2 B,
  let f := new_afield B0 Rm zax rminor sB sI qt q1 q2 in
  is_sign (a_sB f) /\ is_sign (a_sI f) /\ is_sign (a_sB (set_B0 f B)) /\ is_sign (a_sI (set_B0 f B)) /\ clone_afield (set_B0 f B) = set_B0 f B.
Proof.
  intros. assert (S : forall s, is_sign (sign_of s)) by (intros [|]; [right|left]; reflexivity).
  assert (SB : is_sign (a_sB f)) by apply S. assert (SI : is_sign (a_sI f)) by apply S.
  split; [exact SB|]. split; [exact SI|]. split; [exact SB|]. split; [exact SI|]. apply C78_clone; assumption.
Qed.
Print Assumptions C78_signs.
(** The field and the flux are proportional to the reference field, which can be changed later;
    reversing both orientations reverses the field. *)
Theorem C78_scale : forall f k x y z b p, (eval f x y z = Some b -> eval (set_B0 f (k * a_B0 f)) x y z = Some (scale3 k b)) /\
  (eval_flux f x y z = Some p -> eval_flux (set_B0 f (k * a_B0 f)) x y z = Some (k * p)).
Proof.
  intros f k x y z b p. split.
  - intro H. destruct (eval_inv _ _ _ _ _ H) as (A & B & q & Nq & Hq). rewrite (eval_closed f x y z q A B Nq Hq) in H. injection H as <-.
    rewrite (eval_closed (set_B0 f (k * a_B0 f)) x y z q A B Nq Hq). unfold scale3, Bx, By, Bz, c0, c1, c2, set_B0. cbn [fst snd a_B0 a_sI a_sB a_Rm a_zax].
    apply some3; field; repeat split; assumption.
  - intro H. unfold eval_flux in *. cbv zeta in *. cbn [a_zax a_Rm a_sI a_B0 set_B0] in *. change (safety_factor (set_B0 f (k * a_B0 f))) with (safety_factor f).
    destruct (safety_factor f _) as [q|]; [|discriminate H]. apply ediv_inv in H. destruct H as [Nq H]. injection H as <-. rewrite ediv_ok by exact Nq. f_equal. field. exact Nq.
Qed.
Print Assumptions C78_scale.
Definition opposite (s : fsign) : fsign := match s with CW => CCW | CCW => CW end.
Theorem C78_reversed : forall B0 Rm zax rminor sB sI qt q1 q2 x y z b,
  eval (new_afield B0 Rm zax rminor sB sI qt q1 q2) x y z = Some b ->
  eval (new_afield B0 Rm zax rminor (opposite sB) (opposite sI) qt q1 q2) x y z = Some (scale3 (-1) b).
Proof.
  intros. set (f := new_afield B0 Rm zax rminor sB sI qt q1 q2) in *. destruct (eval_inv _ _ _ _ _ H) as (A & B & q & Nq & Hq). rewrite (eval_closed f x y z q A B Nq Hq) in H. injection H as <-.
  rewrite (eval_closed (new_afield B0 Rm zax rminor (opposite sB) (opposite sI) qt q1 q2) x y z q A B Nq Hq). unfold scale3, Bx, By, Bz, c0, c1, c2, f, new_afield. cbn [fst snd a_B0 a_sI a_sB a_Rm a_zax].
  assert (S : forall s, sign_of (opposite s) = - sign_of s) by (intros [|]; unfold sign_of, opposite; lra). rewrite !S. apply some3; field; repeat split; assumption.
Qed.
Print Assumptions C78_reversed.
Example C78_example : let f := set_B0 (new_afield 5 2 0 1 CW CCW QConstant 1 None) (-7) in
  a_sB f = -1 /\ a_sI f = 1 /\ clone_afield f = f /\ a_B0 (clone_afield f) = -7.
Proof. intro f. assert (E : clone_afield f = f) by (apply C78_clone; [right|left]; reflexivity). rewrite E. repeat split; reflexivity. Qed.

(** * C79: conversion to a numeric field *)
(** The grid spans the plasma: its first and last coordinates and its constant spacing. *)
Theorem C79_grid : forall f nr i, (2 <= nr)%nat ->
  node_R f nr 0 Some = Some (a_Rm f - a_rminor f) /\ node_R f nr (nr - 1) Some = Some (a_Rm f + a_rminor f) /\
  node_Z f nr 0 Some = Some (a_zax f - a_rminor f) /\ node_Z f nr (nr - 1) Some = Some (a_zax f + a_rminor f) /\
  exists r r' z z', node_R f nr i Some = Some r /\ node_R f nr (S i) Some = Some r' /\ node_Z f nr i Some = Some z /\ node_Z f nr (S i) Some = Some z' /\
    (r' - r) * (INR nr - 1) = 2 * a_rminor f /\ (z' - z) * (INR nr - 1) = 2 * a_rminor f.
Proof.
  intros f nr i H. assert (N : 2 <= INR nr) by (change 2 with (INR 2); apply le_INR; exact H). assert (NN : INR nr - 1 <> 0) by lra.
  unfold node_R, node_Z, node. rewrite !ediv_ok by exact NN. rewrite minus_INR by lia. rewrite !(S_INR i). change (INR 0) with 0. change (INR 1) with 1.
  split; [f_equal; field; exact NN|]. split; [f_equal; field; exact NN|]. split; [f_equal; field; exact NN|]. split; [f_equal; field; exact NN|].
  eexists. eexists. eexists. eexists. split; [reflexivity|]. split; [reflexivity|]. split; [reflexivity|]. split; [reflexivity|]. split; field; exact NN.
Qed.
Print Assumptions C79_grid.
Lemma length_rows : forall (g : nat -> nat -> option vec3) nr nz s, length (flat_map (fun j => map (fun i => g i j) (seq 0 nr)) (seq s nz)) = (nr * nz)%nat.
Proof.
  intros g nr nz. induction nz as [|nz IH]; intro s; [cbn; lia|]. cbn [seq flat_map]. rewrite app_length, map_length, seq_length, IH. lia.
Qed.
Lemma nth_rows : forall (g : nat -> nat -> option vec3) nr nz0 nz i j d, (i < nr)%nat -> (j < nz)%nat ->
  nth (i + j * nr) (flat_map (fun j => map (fun i => g i j) (seq 0 nr)) (seq nz0 nz)) d = g i (nz0 + j)%nat.
Proof.
  intros g nr nz0 nz. revert nz0. induction nz as [|nz IH]; intros nz0 i j d Hi Hj; [lia|]. cbn [seq flat_map].
  destruct j as [|j].
  - rewrite app_nth1 by (rewrite map_length, seq_length; lia). replace (i + 0 * nr)%nat with i by lia. replace (nz0 + 0)%nat with nz0 by lia.
    rewrite (nth_indep _ d (g 0%nat nz0)) by (rewrite map_length, seq_length; lia). rewrite (map_nth (fun i => g i nz0)), seq_nth by lia. reflexivity.
  - rewrite app_nth2 by (rewrite map_length, seq_length; lia). rewrite map_length, seq_length. replace (i + S j * nr - nr)%nat with (i + j * nr)%nat by lia. rewrite IH by lia. f_equal. lia.
Qed.
(** Element [i + j*nr] is the field at node (i, j), in cylindrical components: the field
    anywhere on the circle through the node is obtained by turning it. *)
Theorem C79_values : forall f nr nz i j r z phi, (i < nr)%nat -> (j < nz)%nat ->
  node_R f nr i Some = Some r -> node_Z f nz j Some = Some z ->
  length (to_numeric f nr nz) = (nr * nz)%nat /\ nth (i + j * nr) (to_numeric f nr nz) None = eval f r 0 z /\
  forall b, eval f r 0 z = Some b -> eval f (r * cos phi) (r * sin phi) z = Some (turn phi b).
Proof.
  intros f nr nz i j r z phi Hi Hj HR HZ. split; [|split].
  - apply length_rows.
  - unfold to_numeric. rewrite nth_rows by assumption. cbn [plus]. unfold node_field, node_R, node_Z, node in *.
    apply ediv_inv in HR. destruct HR as [N1 HR]. apply ediv_inv in HZ. destruct HZ as [N2 HZ]. injection HR as <-. injection HZ as <-. rewrite ediv_ok by exact N1. rewrite ediv_ok by exact N2. reflexivity.
  - intros b H. assert (A := C49_axisymmetric f r 0 z phi b H). replace (r * cos phi - 0 * sin phi) with (r * cos phi) in A by ring. replace (r * sin phi + 0 * cos phi) with (r * sin phi) in A by ring. exact A.
Qed.
Print Assumptions C79_values.
(** A grid with one radius or one height contains no finite value at all. *)
Theorem C79_single_refuted : forall f nr nz i j, nr = 1%nat \/ nz = 1%nat -> node_field f nr nz i j = None.
Proof.
  intros f nr nz i j H. unfold node_field, node_R, node_Z, node, ediv. destruct H as [-> | ->]; cbn [INR].
  - destruct (Req_EM_T (1 - 1) 0); [reflexivity|lra].
  - destruct (Req_EM_T (INR nr - 1) 0); [reflexivity|]. destruct (Req_EM_T (1 - 1) 0); [reflexivity|lra].
Qed.
Print Assumptions C79_single_refuted.
Example C79_example : let f := new_afield 5 2 0 1 CCW CCW QConstant 1 None in
  node_R f 3 2 Some = Some 3 /\ node_Z f 3 1 Some = Some 0 /\ length (to_numeric f 3 3) = 9%nat.
Proof.
  intro f. unfold node_R, node_Z, node, f, new_afield. cbn [a_Rm a_rminor a_zax INR]. rewrite !ediv_ok by lra.
  split; [f_equal; field|]. split; [f_equal; field|]. reflexivity.
Qed.
