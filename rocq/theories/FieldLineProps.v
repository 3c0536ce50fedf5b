(** C117: the field lines of the analytical magnetic field. *)
From Coq Require Import Reals Lra Lia ZArith.
From Verif Require Import Base DomainModel AnalyticalModel AnalyticalSpec AnalyticalProofs AnalyticalProps FieldLineSpec FieldLineProofs.
Local Open Scope R_scope.

(** A field line keeps its distance from the magnetic axis, and the flux does not change along it. *)
Theorem C117_surface : forall f x y z s0 s1 s, field_line f x y z s0 s1 -> s0 <= s <= s1 ->
  minor f (x s) (y s) (z s) = minor f (x s0) (y s0) (z s0) /\ eval_flux f (x s) (y s) (z s) = eval_flux f (x s0) (y s0) (z s0).
Proof.
  intros f x y z s0 s1 s L B.
  assert (L' : field_line f x y z s0 s) by (intros t Bt; apply L; lra).
  pose proof (minor_constant f x y z s0 s (proj1 B) L') as M. split; [exact M|].
  unfold minor in M. apply sqrt_inj in M; [|apply sum_sq|apply sum_sq].
  unfold major in M. unfold eval_flux.
  replace ((z s - a_zax f) * (z s - a_zax f) + (a_Rm f - sqrt (x s * x s + y s * y s)) * (a_Rm f - sqrt (x s * x s + y s * y s)))
    with ((z s0 - a_zax f) * (z s0 - a_zax f) + (a_Rm f - sqrt (x s0 * x s0 + y s0 * y s0)) * (a_Rm f - sqrt (x s0 * x s0 + y s0 * y s0))) by lra.
  reflexivity.
Qed.
Print Assumptions C117_surface.

(** While the poloidal angle of a field line changes, its toroidal angle changes q Rm / R times as fast, in the
    direction given by the two orientations. *)
Theorem C117_pitch : forall f r q theta phi x y z s0 s1 s t' p', is_sign (a_sI f) -> 0 < r < a_Rm f -> safety_factor f r = Some q ->
  field_line f x y z s0 s1 -> on_torus f r theta phi x y z -> s0 <= s <= s1 ->
  derivable_pt_lim theta s t' -> derivable_pt_lim phi s p' ->
  p' = - (a_sB f * a_sI f) * (q * a_Rm f / major (x s) (y s)) * t'.
Proof.
  intros f r q theta phi x y z s0 s1 s t' p' SI Hr Q L T B Dt Dp.
  rewrite (proj1 (torus_place f r theta phi x y z s ltac:(lra) T)).
  rewrite (line_angles f r q theta phi x y z s0 s1 s t' p' SI Hr Q L T B Dt Dp). unfold Rdiv. ring.
Qed.
Print Assumptions C117_pitch.

(** When a field line has gone [n] times round the magnetic axis, it has gone n q / sqrt (1 - (r/Rm)^2) times
    round the torus. *)
Theorem C117_turns : forall f r q theta phi x y z s0 s1 n, is_sign (a_sI f) -> 0 < r < a_Rm f -> safety_factor f r = Some q ->
  s0 <= s1 -> field_line f x y z s0 s1 -> on_torus f r theta phi x y z -> theta s1 = theta s0 + 2 * PI * IZR n ->
  phi s1 - phi s0 = - (a_sB f * a_sI f) * (2 * PI * IZR n) * turns f r q.
Proof.
  intros f r q theta phi x y z s0 s1 n SI Hr Q H L T E.
  rewrite (line_turn f r q theta phi x y z s0 s1 SI Hr Q H L T), E, gturn_period.
  unfold turns. rewrite (turns_value (a_Rm f) r q Hr). unfold Rdiv. ring.
Qed.
Print Assumptions C117_turns.

(** Through every point near the magnetic axis there goes a field line, all the way round and in both directions. *)
Theorem C117_exists : forall f r q th0 ph0, is_sign (a_sI f) -> a_B0 f <> 0 -> 0 < r < a_Rm f -> safety_factor f r = Some q -> q <> 0 ->
  exists theta phi x y z, theta 0 = th0 /\ phi 0 = ph0 /\ (forall s, theta s = th0 + s) /\ on_torus f r theta phi x y z /\
    forall s0 s1, field_line f x y z s0 s1.
Proof. exact line_exists. Qed.
Print Assumptions C117_exists.

(** The magnetic axis is a field line. *)
Theorem C117_axis : forall f q s0 s1, is_sign (a_sB f) -> a_B0 f <> 0 -> 0 < a_Rm f -> safety_factor f 0 = Some q -> q <> 0 ->
  field_line f (fun s => a_Rm f * cos s) (fun s => a_Rm f * sin s) (fun _ => a_zax f) s0 s1.
Proof.
  intros f q s0 s1 SB B0 Rm Q Q0 s _.
  pose proof (sin2_cos2 s) as C2. unfold Rsqr in C2.
  assert (EM : major (a_Rm f * cos s) (a_Rm f * sin s) = a_Rm f).
  { unfold major. apply sqrt_lem_1; [apply sum_sq | lra |].
    transitivity (a_Rm f * a_Rm f * (sin s * sin s + cos s * cos s)); [rewrite C2; ring | ring]. }
  assert (Em : minor f (a_Rm f * cos s) (a_Rm f * sin s) (a_zax f) = 0).
  { unfold minor. rewrite EM. replace ((a_Rm f - a_Rm f) * (a_Rm f - a_Rm f) + (a_zax f - a_zax f) * (a_zax f - a_zax f)) with 0 by ring. apply sqrt_0. }
  destruct (proj2 (C49_defined f (a_Rm f * cos s) (a_Rm f * sin s) (a_zax f))) as (b & E).
  { rewrite EM, Em. split; [lra|]. split; [lra|]. exists q. split; assumption. }
  destruct (C49_value f _ _ _ b q E ltac:(rewrite Em; exact Q)) as (V1 & V2 & V3). rewrite EM in V1, V2, V3.
  assert (S2 : a_sB f * a_sB f = 1) by (destruct SB as [-> | ->]; ring).
  exists b, (a_sB f * a_Rm f / a_B0 f). split; [exact E|].
  assert (A0 : c0 b = - (a_sB f * a_B0 f * sin s)).
  { apply (Rmult_eq_reg_l (a_Rm f)); [|lra].
    transitivity (a_Rm f * c0 b * (sin s * sin s + cos s * cos s)); [rewrite C2; ring|].
    transitivity ((c0 b * (a_Rm f * cos s) + c1 b * (a_Rm f * sin s)) * cos s - (c1 b * (a_Rm f * cos s) - c0 b * (a_Rm f * sin s)) * sin s); [ring|].
    rewrite V1, V2. field. split; [lra | exact Q0]. }
  assert (A1 : c1 b = a_sB f * a_B0 f * cos s).
  { apply (Rmult_eq_reg_l (a_Rm f)); [|lra].
    transitivity (a_Rm f * c1 b * (sin s * sin s + cos s * cos s)); [rewrite C2; ring|].
    transitivity ((c0 b * (a_Rm f * cos s) + c1 b * (a_Rm f * sin s)) * sin s + (c1 b * (a_Rm f * cos s) - c0 b * (a_Rm f * sin s)) * cos s); [ring|].
    rewrite V1, V2. field. split; [lra | exact Q0]. }
  split; [|split].
  - replace (a_sB f * a_Rm f / a_B0 f * c0 b) with (a_Rm f * - sin s).
    + apply (derivable_pt_lim_scal cos (a_Rm f) s). apply derivable_pt_lim_cos.
    + rewrite A0. transitivity (a_Rm f * - sin s * (a_sB f * a_sB f)); [rewrite S2; ring | field; exact B0].
  - replace (a_sB f * a_Rm f / a_B0 f * c1 b) with (a_Rm f * cos s).
    + apply (derivable_pt_lim_scal sin (a_Rm f) s). apply derivable_pt_lim_sin.
    + rewrite A1. transitivity (a_Rm f * cos s * (a_sB f * a_sB f)); [rewrite S2; ring | field; exact B0].
  - replace (a_sB f * a_Rm f / a_B0 f * c2 b) with 0.
    + apply derivable_pt_lim_const.
    + rewrite V3. field. repeat split; try lra; assumption.
Qed.
Print Assumptions C117_axis.

(** The safety factor of a surface, the number of turns round the torus in one turn round the magnetic axis, is not
    the one of the profile: it is always larger. *)
Theorem C117_safety_factor_refuted : forall f r q theta phi x y z s0 s1, is_sign (a_sB f) -> is_sign (a_sI f) -> 0 < r < a_Rm f ->
  safety_factor f r = Some q -> s0 <= s1 -> field_line f x y z s0 s1 -> on_torus f r theta phi x y z ->
  Rabs (theta s1 - theta s0) = 2 * PI -> Rabs (phi s1 - phi s0) > 2 * PI * Rabs q.
Proof.
  intros f r q theta phi x y z s0 s1 SB SI Hr Q H L T E. pose proof PI_RGT_0 as PP.
  assert (Q0 : q <> 0).
  { destruct (line_velocity f x y z s0 s1 s0 L ltac:(lra)) as (q' & _ & Q' & Q0 & _).
    rewrite (proj2 (torus_place f r theta phi x y z s0 ltac:(lra) T)), Q in Q'. injection Q' as <-. exact Q0. }
  assert (N : exists n, theta s1 = theta s0 + 2 * PI * IZR n /\ Rabs (IZR n) = 1).
  { unfold Rabs in E. destruct (Rcase_abs (theta s1 - theta s0)).
    - exists (-1)%Z. split; [lra|]. unfold Rabs. destruct (Rcase_abs (-1)); lra.
    - exists 1%Z. split; [lra|]. apply Rabs_R1. }
  destruct N as (n & En & An).
  rewrite (C117_turns f r q theta phi x y z s0 s1 n SI Hr Q H L T En).
  assert (A : Rabs (- (a_sB f * a_sI f) * (2 * PI * IZR n)) = 2 * PI).
  { replace (- (a_sB f * a_sI f) * (2 * PI * IZR n)) with ((2 * PI) * ((- (a_sB f * a_sI f)) * IZR n)) by ring.
    rewrite (Rabs_mult (2 * PI)), (Rabs_mult (- (a_sB f * a_sI f)) (IZR n)), An. rewrite (Rabs_right (2 * PI)) by lra.
    replace (Rabs (- (a_sB f * a_sI f))) with 1; [ring|].
    symmetry. destruct SB as [-> | ->]; destruct SI as [-> | ->]; unfold Rabs; destruct Rcase_abs; lra. }
  rewrite Rabs_mult, A. apply Rlt_gt. apply Rmult_lt_compat_l; [lra|].
  unfold turns.
  set (e := r / a_Rm f * (r / a_Rm f)).
  assert (He : 0 < e < 1).
  { unfold e. assert (0 < r / a_Rm f < 1).
    { split; [apply Rdiv_lt_0_compat; lra|]. apply (Rmult_lt_reg_r (a_Rm f)); [lra|]. unfold Rdiv. rewrite Rmult_assoc, Rinv_l by lra. lra. }
    nra. }
  assert (S1 : 0 < sqrt (1 - e)) by (apply sqrt_lt_R0; lra).
  assert (S2 : sqrt (1 - e) < 1) by (pose proof (sqrt_lt_1_alt (1 - e) 1 ltac:(lra)) as K; rewrite sqrt_1 in K; exact K).
  pose proof (Rabs_pos_lt q Q0) as Pq.
  unfold Rdiv. rewrite Rabs_mult, Rabs_inv. rewrite (Rabs_right (sqrt (1 - e))) by lra.
  apply (Rmult_lt_reg_r (sqrt (1 - e))); [exact S1|]. rewrite Rmult_assoc, Rinv_l by lra. nra.
Qed.
Print Assumptions C117_safety_factor_refuted.

(** The two agree in the limit of a thin torus. *)
Theorem C117_thin_torus : forall f r q, 0 < r < a_Rm f ->
  Rabs (turns f r q - q) <= Rabs q * (r * r / (a_Rm f * a_Rm f - r * r)).
Proof.
  intros f r q Hr. unfold turns.
  set (e := r / a_Rm f * (r / a_Rm f)).
  assert (He : 0 < e < 1).
  { unfold e. assert (0 < r / a_Rm f < 1).
    { split; [apply Rdiv_lt_0_compat; lra|]. apply (Rmult_lt_reg_r (a_Rm f)); [lra|]. unfold Rdiv. rewrite Rmult_assoc, Rinv_l by lra. lra. }
    nra. }
  replace (r * r / (a_Rm f * a_Rm f - r * r)) with (e / (1 - e)).
  - set (d := sqrt (1 - e)).
    assert (Pd : 0 < d) by (apply sqrt_lt_R0; lra).
    assert (Sd : d * d = 1 - e) by (apply sqrt_sqrt; lra).
    assert (Ld : d < 1) by nra.
    replace (q / d - q) with (q * (/ d - 1)) by (field; lra). rewrite Rabs_mult.
    apply Rmult_le_compat_l; [apply Rabs_pos|]. rewrite <- Sd.
    replace (e / (d * d)) with (/ (d * d) - 1) by (replace e with (1 - d * d) by lra; field; lra).
    assert (1 <= / d) by (rewrite <- Rinv_1 at 1; apply Rinv_le_contravar; lra).
    rewrite Rabs_right by lra. rewrite Rinv_mult by lra. nra.
  - unfold e. field. split; [nra|]. lra.
Qed.
Print Assumptions C117_thin_torus.

(** A field of 1 T with q = 3/2 and Rm = 5: a field line at r = 3 goes 15/8 times round the torus in each
    poloidal turn. *)
Example C117_example : let f := new_afield 1 5 0 4 CCW CW QConstant (3/2) None in
  (exists theta phi x y z, on_torus f 3 theta phi x y z /\ theta 0 = 0 /\ theta (2 * PI) = 2 * PI /\ field_line f x y z 0 (2 * PI) /\
     phi (2 * PI) - phi 0 = 2 * PI * (15 / 8)) /\
  safety_factor f 3 = Some (3/2).
Proof.
  intros f.
  assert (Q : safety_factor f 3 = Some (3/2)).
  { unfold safety_factor, f, ediv. cbn [a_rminor a_qt a_q1 new_afield]. destruct (Req_EM_T 4 0); [lra | reflexivity]. }
  split; [|exact Q].
  destruct (C117_exists f 3 (3/2) 0 0) as (theta & phi & x & y & z & T0 & P0 & Ts & T & L).
  { right. reflexivity. } { cbn. lra. } { cbn. lra. } { exact Q. } { lra. }
  exists theta, phi, x, y, z. split; [exact T|]. split; [exact T0|]. split; [rewrite Ts; ring|]. split; [apply L|].
  pose proof PI_RGT_0 as PP.
  rewrite (C117_turns f 3 (3/2) theta phi x y z 0 (2 * PI) 1); [|right; reflexivity|cbn; lra|exact Q|lra|apply L|exact T|rewrite !Ts; ring].
  unfold turns. cbn [f new_afield a_sB a_sI a_Rm sign_of].
  replace (1 - 3 / 5 * (3 / 5)) with ((4/5) * (4/5)) by field. rewrite sqrt_square by lra. field.
Qed.
Print Assumptions C117_example.
