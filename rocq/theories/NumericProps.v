(** Properties of numeric magnetic fields. *)
From Coq Require Import Reals Lra Lia List.
From Coquelicot Require Import Coquelicot.
From Verif Require Import Base DomainModel DomainSpec DomainProofs DomainProps AnalyticalModel AnalyticalSpec AnalyticalProofs NumericModel NumericSpec NumericProofs NumericArrays.
Import ListNotations.
Local Open Scope R_scope.
Set Bullet Behavior "Strict Subproofs".

(** * C47: evaluation *)
Lemma P3 : forall a b c a' b' c' : R, a = a' -> b = b' -> c = c' -> (a, b, c) = (a', b', c').
Proof. intros; subst; reflexivity. Qed.
Lemma angles : forall r x y, r <> 0 -> angle_sin r y = y / r /\ angle_cos r x = x / r.
Proof. intros r x y N. unfold angle_sin, angle_cos. destruct (Req_EM_T r 0); [contradiction|split; reflexivity]. Qed.
(** On the grid the field has the interpolated radial, toroidal and vertical components. *)
Theorem C47_inside : forall f x y z, on_grid f x y z -> major x y <> 0 ->
  cylindrical x y (eval_num f x y z) (s_val (n_Br f) (major x y) z) (s_val (n_Bphi f) (major x y) z) (s_val (n_Bz f) (major x y) z).
Proof.
  intros f x y z [H1 H2] N. unfold eval_num. change (hypot x y) with (major x y). rewrite !clamp_in by assumption. destruct (angles _ x y N) as [-> ->]. repeat split.
Qed.
Print Assumptions C47_inside.
Theorem C47_strength : forall f x y z, on_grid f x y z -> major x y <> 0 ->
  dot3 (eval_num f x y z) (eval_num f x y z) =
  s_val (n_Br f) (major x y) z ^ 2 + s_val (n_Bphi f) (major x y) z ^ 2 + s_val (n_Bz f) (major x y) z ^ 2.
Proof.
  intros f x y z H N. destruct (C47_inside f x y z H N) as (E0 & E1 & E2). unfold dot3. rewrite E0, E1, E2. assert (S := hypot_sq x y). change (hypot x y) with (major x y) in S.
  set (RR := major x y) in *. set (a := s_val (n_Br f) RR z). set (b := s_val (n_Bphi f) RR z).
  transitivity ((a * a + b * b) * ((x * x + y * y) / (RR * RR)) + s_val (n_Bz f) RR z ^ 2); [field; exact N|]. rewrite <- S. field. exact N.
Qed.
Print Assumptions C47_strength.
Lemma turned_radius : forall x y phi, hypot (x * cos phi - y * sin phi) (x * sin phi + y * cos phi) = hypot x y.
Proof.
  intros x y phi. unfold hypot. f_equal. assert (T := sin2_cos2 phi). unfold Rsqr in T.
  transitivity ((x * x + y * y) * (sin phi * sin phi + cos phi * cos phi)); [ring|]. rewrite T. ring.
Qed.
Lemma clamp_nonzero : forall lo hi x, 0 <= lo < hi -> 0 <= x -> x <> 0 \/ 0 < lo -> clamp lo hi x <> 0.
Proof. intros lo hi x H P N. unfold clamp. destruct (Rlt_dec x lo); [lra|]. destruct (Rlt_dec hi x); lra. Qed.
(** Turning the point about the z axis turns the field, everywhere but on the axis (if the grid
    begins there). *)
Theorem C47_axisymmetric : forall f x y z phi, 0 <= n_rmin f < n_rmax f -> major x y <> 0 \/ 0 < n_rmin f ->
  eval_num f (x * cos phi - y * sin phi) (x * sin phi + y * cos phi) z = turn phi (eval_num f x y z).
Proof.
  intros f x y z phi H N. unfold eval_num. rewrite turned_radius. change (hypot x y) with (major x y).
  assert (P : 0 <= major x y) by apply sqrt_pos. assert (Q := clamp_nonzero _ _ _ H P N). set (r := clamp (n_rmin f) (n_rmax f) (major x y)) in *.
  destruct (angles r x y Q) as [-> ->]. destruct (angles r (x * cos phi - y * sin phi) (x * sin phi + y * cos phi) Q) as [-> ->].
  unfold turn, c0, c1, c2. cbn [fst snd]. assert (P3 : forall a b c a' b' c' : R, a = a' -> b = b' -> c = c' -> (a, b, c) = (a', b', c')) by (intros; subst; reflexivity).
  apply P3; [field; exact Q|field; exact Q|reflexivity].
Qed.
Print Assumptions C47_axisymmetric.
(** The strength does not change with the angle. *)
Theorem C47_axisymmetric_strength : forall f x y z phi, 0 <= n_rmin f < n_rmax f -> major x y <> 0 \/ 0 < n_rmin f ->
  let b := eval_num f (x * cos phi - y * sin phi) (x * sin phi + y * cos phi) z in dot3 b b = dot3 (eval_num f x y z) (eval_num f x y z).
Proof.
  intros f x y z phi H N. cbv zeta. rewrite (C47_axisymmetric f x y z phi H N). destruct (eval_num f x y z) as [[a b] c]. unfold dot3, turn, c0, c1, c2. cbn [fst snd].
  assert (T := sin2_cos2 phi). unfold Rsqr in T. transitivity ((a * a + b * b) * (sin phi * sin phi + cos phi * cos phi) + c * c); [ring|]. rewrite T. ring.
Qed.
Print Assumptions C47_axisymmetric_strength.
Definition flat (v : R) : surface := Surface (fun _ _ => v) (fun _ _ => 0) (fun _ _ => 0).
(** A constant radial field on the unit disc. *)
Definition radial_field : nfield := NField 0 1 (-1) 1 (flat 1) (flat 0) (flat 0) None.
Example C47_example : exists f x y z, on_grid f x y z /\ major x y <> 0 /\ 0 <= n_rmin f < n_rmax f /\ eval_num f x y z = (1, 0, 0).
Proof.
  exists radial_field, (1/2), 0, 0. assert (E : major (1/2) 0 = 1/2) by (unfold major; transitivity (sqrt (1/2 * (1/2))); [f_equal; ring|apply sqrt_square; lra]).
  unfold on_grid. rewrite E. cbn. split; [lra|]. split; [lra|]. split; [lra|]. unfold eval_num. change (hypot (1/2) 0) with (major (1/2) 0). rewrite E. cbn [n_rmin n_rmax n_zmin n_zmax radial_field n_Br n_Bphi n_Bz s_val flat].
  rewrite !clamp_in by lra. destruct (angles (1/2) (1/2) 0 ltac:(lra)) as [-> ->]. apply P3; field.
Qed.
(** On the axis the components are taken along x, y and z. *)
Theorem C47_axis : forall f z, n_rmin f = 0 -> 0 <= n_rmax f -> n_zmin f <= z <= n_zmax f ->
  eval_num f 0 0 z = (s_val (n_Br f) 0 z, s_val (n_Bphi f) 0 z, s_val (n_Bz f) 0 z).
Proof.
  intros f z R0 R1 Z. unfold eval_num. assert (E : hypot 0 0 = 0) by (unfold hypot; transitivity (sqrt 0); [f_equal; ring|apply sqrt_0]).
  rewrite E, !clamp_in by lra. unfold angle_sin, angle_cos. destruct (Req_EM_T 0 0) as [_|X]; [|lra]. cbv zeta. apply P3; ring.
Qed.
Print Assumptions C47_axis.
(** On the axis it fails: the field points along x there, whatever the angle. *)
Theorem C47_axis_refuted : exists f phi, n_rmin f = 0 /\ n_rmax f = 1 /\ on_grid f 0 0 0 /\
  eval_num f (0 * cos phi - 0 * sin phi) (0 * sin phi + 0 * cos phi) 0 <> turn phi (eval_num f 0 0 0).
Proof.
  exists radial_field, PI. split; [reflexivity|]. split; [reflexivity|].
  assert (E : major 0 0 = 0) by (unfold major; transitivity (sqrt 0); [f_equal; ring|apply sqrt_0]).
  split; [unfold on_grid; rewrite E; cbn; lra|]. replace (0 * cos PI - 0 * sin PI) with 0 by ring. replace (0 * sin PI + 0 * cos PI) with 0 by ring.
  unfold eval_num. change (hypot 0 0) with (major 0 0). rewrite E. cbn [n_rmin n_rmax n_zmin n_zmax radial_field n_Br n_Bphi n_Bz s_val flat]. rewrite !clamp_in by lra.
  unfold angle_sin, angle_cos. destruct (Req_EM_T 0 0) as [_|X]; [|lra]. unfold turn, c0, c1, c2. cbn [fst snd]. rewrite cos_PI, sin_PI. intro H. injection H as H _. lra.
Qed.
Print Assumptions C47_axis_refuted.
(** Below and above the grid the value on its lower or upper edge is used. *)
Theorem C47_outside_z : forall f x y z, n_zmin f <= n_zmax f ->
  (z < n_zmin f -> eval_num f x y z = eval_num f x y (n_zmin f)) /\ (n_zmax f < z -> eval_num f x y z = eval_num f x y (n_zmax f)).
Proof.
  intros f x y z L. split; intro H; unfold eval_num.
  - rewrite (clamp_low _ _ _ H), (clamp_in _ _ (n_zmin f)) by lra. reflexivity.
  - rewrite (clamp_high _ _ _ L H), (clamp_in _ _ (n_zmax f)) by lra. reflexivity.
Qed.
Print Assumptions C47_outside_z.
(** Inward and outward of the grid the horizontal field is that at the nearest point of the
    edge (at radius [b]), multiplied by the ratio of the radii. *)
Theorem C47_outside_r : forall f x y z b, 0 < b -> n_rmin f <= b <= n_rmax f -> major x y <> 0 ->
  major x y < n_rmin f /\ b = n_rmin f \/ n_rmax f < major x y /\ b = n_rmax f ->
  let k := major x y / b in let edge := eval_num f (x / k) (y / k) z in
  major (x / k) (y / k) = b /\ eval_num f x y z = (k * c0 edge, k * c1 edge, c2 edge).
Proof.
  intros f x y z b Pb B N C k edge. assert (P : 0 <= major x y) by apply sqrt_pos. assert (PR : 0 < major x y) by lra.
  assert (PK : 0 < k) by (apply Rdiv_lt_0_compat; assumption). assert (NK : k <> 0) by lra.
  assert (E : major (x / k) (y / k) = b).
  { unfold major. transitivity (sqrt ((x * x + y * y) * (/ k * / k))); [f_equal; field; exact NK|]. rewrite sqrt_mult_alt by nra. change (major x y * sqrt (/ k * / k) = b).
    assert (IK := Rinv_0_lt_compat _ PK). rewrite sqrt_square by lra. unfold k. field. split; lra. }
  split; [exact E|]. unfold edge, eval_num. change (hypot x y) with (major x y). change (hypot (x / k) (y / k)) with (major (x / k) (y / k)). rewrite E. rewrite (clamp_in _ _ b) by exact B.
  assert (CL : clamp (n_rmin f) (n_rmax f) (major x y) = b) by (destruct C as [[L EB]|[L EB]]; rewrite EB; [apply clamp_low; exact L|apply clamp_high; lra]). rewrite CL.
  destruct (angles b x y ltac:(lra)) as [-> ->]. destruct (angles b (x / k) (y / k) ltac:(lra)) as [-> ->]. unfold c0, c1, c2. cbn [fst snd].
  apply P3; try reflexivity; field; split; lra.
Qed.
Print Assumptions C47_outside_r.
(** So it is not the value of the nearest boundary point. *)
Theorem C47_outside_refuted : exists f x y z x' y', n_rmin f = 0 /\ n_rmax f = 1 /\ n_zmin f <= z <= n_zmax f /\ x = 2 * x' /\ y = 2 * y' /\ major x' y' = 1 /\
  eval_num f x y z <> eval_num f x' y' z.
Proof.
  exists radial_field, 2, 0, 0, 1, 0. assert (E1 : major 1 0 = 1) by (unfold major; transitivity (sqrt 1); [f_equal; ring|apply sqrt_1]).
  assert (E2 : major 2 0 = 2) by (unfold major; transitivity (sqrt (2 * 2)); [f_equal; ring|apply sqrt_square; lra]).
  split; [reflexivity|]. split; [reflexivity|]. split; [cbn; lra|]. split; [lra|]. split; [lra|]. split; [exact E1|].
  destruct (C47_outside_r radial_field 2 0 0 1 ltac:(lra)) as [_ H]; [cbn; lra|lra|right; cbn; lra|]. rewrite E2 in H. replace (2 / (2 / 1)) with 1 in H by field. replace (0 / (2 / 1)) with 0 in H by field. rewrite H.
  unfold eval_num. change (hypot 1 0) with (major 1 0). rewrite E1. cbn [n_rmin n_rmax n_zmin n_zmax radial_field n_Br n_Bphi n_Bz s_val flat]. rewrite !clamp_in by lra.
  destruct (angles 1 1 0 ltac:(lra)) as [-> ->]. unfold c0, c1, c2. cbn [fst snd]. intro X. injection X as X _. lra.
Qed.
Print Assumptions C47_outside_refuted.

(** ** Derivatives *)
Lemma derivatives_inv : forall f x y z m, derivatives_num f x y z = Some m ->
  m_B m = eval_num f x y z /\ jacobian_num f x y z = (m_J0 m, m_J1 m, m_J2 m) /\ scaled_norm (eval_num f x y z) = Some (m_Babs m) /\
  m_gradB m = (let b := m_B m in ((c0 b * c0 (m_J0 m) + c1 b * c0 (m_J1 m) + c2 b * c0 (m_J2 m)) / m_Babs m, (c0 b * c1 (m_J0 m) + c1 b * c1 (m_J1 m) + c2 b * c1 (m_J2 m)) / m_Babs m,
    (c0 b * c2 (m_J0 m) + c1 b * c2 (m_J1 m) + c2 b * c2 (m_J2 m)) / m_Babs m)) /\
  m_curlB m = (c1 (m_J2 m) - c2 (m_J1 m), c2 (m_J0 m) - c0 (m_J2 m), c0 (m_J1 m) - c1 (m_J0 m)).
Proof.
  intros f x y z m H. unfold derivatives_num in H. destruct (jacobian_num f x y z) as [[[[a0 a1] a2] [[b0 b1] b2]] [[d0 d1] d2]]. destruct (eval_num f x y z) as [[Bx By] Bz] eqn:E.
  destruct (scaled_norm (Bx, By, Bz)) as [n|] eqn:S; [|discriminate H]. destruct (scaled_norm_ok _ _ S) as [_ P]. rewrite !ediv_ok in H by lra. injection H as <-. repeat split.
Qed.
(** The derivatives are defined wherever the field does not vanish. *)
Theorem C47_defined : forall f x y z, derivatives_num f x y z <> None <-> eval_num f x y z <> (0, 0, 0).
Proof.
  intros f x y z. unfold derivatives_num. destruct (jacobian_num f x y z) as [[[[a0 a1] a2] [[b0 b1] b2]] [[d0 d1] d2]]. destruct (eval_num f x y z) as [[Bx By] Bz] eqn:E. split.
  - intros H X. rewrite X, scaled_norm_zero in H. congruence.
  - intro N. destruct (scaled_norm_defined _ N) as [n S]. rewrite S. destruct (scaled_norm_ok _ _ S) as [_ P]. rewrite !ediv_ok by lra. discriminate.
Qed.
Print Assumptions C47_defined.
(** In the interior of the grid, off the axis, the returned field is that of [Eval], the Jacobian
    is its derivative in every direction, its strength and the gradient of that are the true
    ones, and the curl and the divergence are those of the interpolated components. *)
Theorem C47_derivatives : forall f x y z m, derivatives_num f x y z = Some m -> smooth_field f -> interior f x y z -> major x y <> 0 ->
  m_B m = eval_num f x y z /\ m_Babs m = sqrt (dot3 (m_B m) (m_B m)) /\
  (forall u v w,
    deriv_along (component c0 (field_of f)) x y z u v w (dot3 (m_J0 m) (u, v, w)) /\
    deriv_along (component c1 (field_of f)) x y z u v w (dot3 (m_J1 m) (u, v, w)) /\
    deriv_along (component c2 (field_of f)) x y z u v w (dot3 (m_J2 m) (u, v, w)) /\
    deriv_along (magnitude (field_of f)) x y z u v w (dot3 (m_gradB m) (u, v, w))) /\
  m_curlB m = (c1 (m_J2 m) - c2 (m_J1 m), c2 (m_J0 m) - c0 (m_J2 m), c0 (m_J1 m) - c1 (m_J0 m)) /\
  c0 (m_J0 m) + c1 (m_J1 m) + c2 (m_J2 m) =
    s_dr (n_Br f) (major x y) z + s_val (n_Br f) (major x y) z / major x y + s_dz (n_Bz f) (major x y) z.
Proof.
  intros f x y z m H SF HI N. destruct (derivatives_inv f x y z m H) as (EB & EJ & ES & EG & EC). destruct (scaled_norm_ok _ _ ES) as [EN PN]. split; [exact EB|]. split; [rewrite EB; exact EN|]. split; [|split; [exact EC|]].
  - intros u v w. assert (J := jacobian_true f x y z u v w N HI SF). rewrite EJ in J. destruct J as (D0 & D1 & D2). split; [exact D0|]. split; [exact D1|]. split; [exact D2|].
    assert (G := magnitude_deriv (field_of f) x y z u v w (eval_num f x y z) _ _ _ eq_refl ltac:(lra) D0 D1 D2). rewrite EG, EB. cbv zeta. rewrite EN in PN |- *.
    match type of G with deriv_along _ _ _ _ _ _ _ ?a => match goal with |- deriv_along _ _ _ _ _ _ _ ?b => replace b with a; [exact G|] end end.
    set (s := sqrt (dot3 (eval_num f x y z) (eval_num f x y z))) in *. unfold dot3, c0, c1, c2. cbn [fst snd]. field. lra.
  - assert (JI := jacobian_inside f x y z N HI). rewrite EJ in JI. assert (S := hypot_sq x y). change (hypot x y) with (major x y) in S. set (RR := major x y) in *.
    injection JI as J0 J1 J2. rewrite J0, J1, J2. unfold c0, c1, c2. cbn [fst snd].
    transitivity ((x * x + y * y) / (RR * RR) * (s_dr (n_Br f) RR z + s_val (n_Br f) RR z / RR) + s_dz (n_Bz f) RR z); [field; exact N|]. rewrite <- S. field. exact N.
Qed.
Print Assumptions C47_derivatives.
(** A point where all the hypotheses hold. *)
Lemma flat_smooth : forall f v, smooth f (flat v).
Proof.
  intros f v r z _ _ eps He. exists 1. split; [lra|]. intros h k _ _. cbn. replace (v - v - (0 * h + 0 * k)) with 0 by ring. rewrite Rabs_R0.
  apply Rmult_le_pos; [lra|]. apply Rle_trans with (Rabs h); [apply Rabs_pos|apply Rmax_l].
Qed.
Example C47_example_derivatives : exists f x y z m, derivatives_num f x y z = Some m /\ smooth_field f /\ interior f x y z /\ major x y <> 0 /\ c1 (m_J1 m) = 2.
Proof.
  assert (E : major (1/2) 0 = 1/2) by (unfold major; transitivity (sqrt (1/2 * (1/2))); [f_equal; ring|apply sqrt_square; lra]).
  assert (HI : interior radial_field (1/2) 0 0) by (unfold interior; rewrite E; cbn; lra). assert (N : major (1/2) 0 <> 0) by lra.
  assert (SF : smooth_field radial_field) by (repeat split; apply flat_smooth).
  assert (D : derivatives_num radial_field (1/2) 0 0 <> None).
  { apply C47_defined. destruct (C47_inside radial_field (1/2) 0 0) as [X _]; [split; rewrite ?E; cbn; lra|exact N|]. intro Z. rewrite Z, E in X. cbn in X. unfold c0 in X. cbn in X. lra. }
  destruct (derivatives_num radial_field (1/2) 0 0) as [m|] eqn:H; [|congruence]. exists radial_field, (1/2), 0, 0, m. split; [exact H|]. split; [exact SF|]. split; [exact HI|]. split; [exact N|].
  destruct (derivatives_inv _ _ _ _ _ H) as (_ & EJ & _). assert (JI := jacobian_inside radial_field (1/2) 0 0 N HI). rewrite EJ, E in JI. injection JI as _ J1 _. rewrite J1. unfold c1. cbn. field.
Qed.
(** Where the field vanishes its strength is not returned as zero: the computation divides zero
    by zero. *)
Theorem C47_null_refuted : exists f x y z, interior f x y z /\ smooth_field f /\ major x y <> 0 /\ eval_num f x y z = (0, 0, 0) /\ derivatives_num f x y z = None.
Proof.
  exists (NField 0 1 (-1) 1 (flat 0) (flat 0) (flat 0) None), (1/2), 0, 0.
  assert (E : major (1/2) 0 = 1/2) by (unfold major; transitivity (sqrt (1/2 * (1/2))); [f_equal; ring|apply sqrt_square; lra]).
  split; [unfold interior; rewrite E; cbn; lra|]. split; [repeat split; apply flat_smooth|]. split; [lra|].
  assert (Z : eval_num (NField 0 1 (-1) 1 (flat 0) (flat 0) (flat 0) None) (1/2) 0 0 = (0, 0, 0)).
  { unfold eval_num. cbn [n_rmin n_rmax n_zmin n_zmax n_Br n_Bphi n_Bz s_val flat]. apply P3; ring. }
  split; [exact Z|]. destruct (derivatives_num (NField 0 1 (-1) 1 (flat 0) (flat 0) (flat 0) None) (1/2) 0 0) as [m|] eqn:D; [|reflexivity]. exfalso. apply (proj1 (C47_defined _ _ _ _)) in Z; [exact Z|congruence].
Qed.
Print Assumptions C47_null_refuted.
(** Outside the grid the Jacobian is not the derivative of the returned field. *)
Theorem C47_jacobian_outside_refuted : exists f m, derivatives_num f 2 0 0 = Some m /\ smooth_field f /\ n_rmin f = 0 /\ n_rmax f = 1 /\ n_zmin f < 0 < n_zmax f /\
  dot3 (m_J0 m) (1, 0, 0) = 0 /\ deriv_along (component c0 (field_of f)) 2 0 0 1 0 0 1.
Proof.
  assert (E : forall t, -1 < t -> major (2 + t) 0 = 2 + t) by (intros t Ht; unfold major; transitivity (sqrt ((2 + t) * (2 + t))); [f_equal; ring|apply sqrt_square; lra]).
  assert (V : forall t, -1 < t -> eval_num radial_field (2 + t * 1) (0 + t * 0) (0 + t * 0) = (2 + t, 0, 0)).
  { intros t Ht. replace (2 + t * 1) with (2 + t) by ring. replace (0 + t * 0) with 0 by ring. unfold eval_num. change (hypot (2 + t) 0) with (major (2 + t) 0). rewrite (E t Ht).
    cbn [n_rmin n_rmax n_zmin n_zmax radial_field n_Br n_Bphi n_Bz s_val flat]. rewrite (clamp_high 0 1) by lra. destruct (angles 1 (2 + t) 0 ltac:(lra)) as [-> ->].
    apply P3; field. }
  assert (V0 := V 0 ltac:(lra)). replace (2 + 0 * 1) with 2 in V0 by ring. replace (0 + 0 * 0) with 0 in V0 by ring. rewrite Rplus_0_r in V0.
  assert (D : derivatives_num radial_field 2 0 0 <> None) by (apply C47_defined; rewrite V0; intro X; injection X as X; lra).
  destruct (derivatives_num radial_field 2 0 0) as [m|] eqn:H; [|congruence]. exists radial_field, m. split; [exact H|]. split; [repeat split; apply flat_smooth|]. split; [reflexivity|]. split; [reflexivity|]. split; [cbn; lra|].
  destruct (derivatives_inv _ _ _ _ _ H) as (_ & EJ & _). split.
  - assert (J0 : m_J0 m = fst (fst (jacobian_num radial_field 2 0 0))) by (rewrite EJ; reflexivity). rewrite J0. unfold jacobian_num. change (hypot 2 0) with (major 2 0).
    assert (E2 := E 0 ltac:(lra)). rewrite Rplus_0_r in E2. rewrite E2. cbn [n_rmin n_rmax n_zmin n_zmax radial_field n_Br n_Bphi n_Bz s_val s_dr s_dz flat fst snd]. rewrite (clamp_high 0 1) by lra.
    destruct (angles 1 2 0 ltac:(lra)) as [-> ->]. destruct (Req_EM_T 1 0) as [X|_]; [lra|]. unfold dot3, c0, c1, c2. cbn [fst snd]. field.
  - unfold deriv_along. apply (deriv_at_intro _ (fun t => 2 + t)).
    + exists (mkposreal 1 Rlt_0_1). intros t Ht. change (Rabs (t - 0) < 1) in Ht. apply Rabs_def2 in Ht. unfold component, field_of. rewrite (V t) by lra. reflexivity.
    + auto_derive; [exact I|ring].
Qed.
Print Assumptions C47_jacobian_outside_refuted.

(** ** Flux *)
(** Without flux data both functions throw; on the grid the value and the derivatives are
    those of the flux as a function of radius and height; outside it the program ends. *)
Theorem C47_flux : forall f x y z,
  (n_Psi f = None -> flux_num f x y z = Throw /\ flux_derivatives_num f x y z = Throw) /\
  (forall p, n_Psi f = Some p ->
    (on_grid f x y z -> flux_num f x y z = Ok (s_val p (major x y) z) /\ flux_derivatives_num f x y z = Ok (s_val p (major x y) z, s_dr p (major x y) z, s_dz p (major x y) z)) /\
    (~ on_grid f x y z -> flux_num f x y z = UB /\ flux_derivatives_num f x y z = UB)).
Proof.
  intros f x y z. unfold flux_num, flux_derivatives_num. split; [intros ->; split; reflexivity|]. intros p ->. change (hypot x y) with (major x y).
  assert (B : in_grid f (major x y) z = true <-> on_grid f x y z).
  { unfold in_grid, on_grid, Rleb. destruct (Rle_dec (n_rmin f) (major x y)), (Rle_dec (major x y) (n_rmax f)), (Rle_dec (n_zmin f) z), (Rle_dec z (n_zmax f)); cbn; split; intro H; try reflexivity; try discriminate H; lra. }
  split; intro H; [apply B in H; rewrite H; split; reflexivity|]. destruct (in_grid f (major x y) z); [destruct H; apply B; reflexivity|split; reflexivity].
Qed.
Print Assumptions C47_flux.
(** They are the derivatives of the returned flux. *)
Theorem C47_flux_gradient : forall f p x y z u v w, n_Psi f = Some p -> smooth f p -> interior f x y z -> major x y <> 0 ->
  exists psi dr dz, flux_derivatives_num f x y z = Ok (psi, dr, dz) /\ flux_num f x y z = Ok psi /\
  deriv_along (fun x y z => match flux_num f x y z with Ok v => Some v | _ => None end) x y z u v w (dr * ((x * u + y * v) / major x y) + dz * w).
Proof.
  intros f p x y z u v w EP SP HI N. destruct (C47_flux f x y z) as [_ K]. destruct (K p EP) as [K1 _].
  assert (OG : forall x y z, interior f x y z -> on_grid f x y z) by (intros a b c [A1 A2]; split; lra). destruct (K1 (OG _ _ _ HI)) as [E1 E2].
  eexists _, _, _. split; [exact E2|]. split; [exact E1|]. unfold deriv_along.
  apply (deriv_at_intro _ (fun t => s_val p (hypot (x + t * u) (y + t * v)) (z + t * w))).
  - destruct HI as [H1 H2]. assert (L1 : locally 0 (fun t => n_rmin f < hypot (x + t * u) (y + t * v) < n_rmax f)).
    { apply (locally_between (fun t => hypot (x + t * u) (y + t * v)) _ _ _ (path_dR x y u v N)). replace (x + 0 * u) with x by ring. replace (y + 0 * v) with y by ring. exact H1. }
    assert (L2 : locally 0 (fun t => n_zmin f < z + t * w < n_zmax f)) by (apply (locally_between (fun t => z + t * w) w); [auto_derive; [exact I|ring]|lra]).
    generalize (filter_and _ _ L1 L2). apply filter_imp. intros t [A B]. destruct (C47_flux f (x + t * u) (y + t * v) (z + t * w)) as [_ KK]. destruct (KK p EP) as [KK1 _].
    destruct (KK1 (OG _ _ _ (conj A B))) as [X _]. rewrite X. reflexivity.
  - exact (path_s f x y z u v w N HI p SP).
Qed.
Print Assumptions C47_flux_gradient.
(** The flux, unlike the field, is not continued outside the grid. *)
Theorem C47_flux_outside_refuted : exists f x y z, n_Psi f <> None /\ ~ on_grid f x y z /\ flux_num f x y z = UB /\ eval_num f x y z = (2, 0, 0).
Proof.
  exists (NField 0 1 (-1) 1 (flat 1) (flat 0) (flat 0) (Some (flat 0))), 2, 0, 0. assert (E2 : major 2 0 = 2) by (unfold major; transitivity (sqrt (2 * 2)); [f_equal; ring|apply sqrt_square; lra]).
  split; [discriminate|]. assert (N : ~ on_grid (NField 0 1 (-1) 1 (flat 1) (flat 0) (flat 0) (Some (flat 0))) 2 0 0) by (intros [X _]; rewrite E2 in X; cbn in X; lra). split; [exact N|].
  split; [destruct (C47_flux (NField 0 1 (-1) 1 (flat 1) (flat 0) (flat 0) (Some (flat 0))) 2 0 0) as [_ K]; destruct (K (flat 0) eq_refl) as [_ K2]; exact (proj1 (K2 N))|]. unfold eval_num. change (hypot 2 0) with (major 2 0). rewrite E2. cbn [n_rmin n_rmax n_zmin n_zmax n_Br n_Bphi n_Bz s_val flat]. rewrite (clamp_high 0 1) by lra.
  destruct (angles 1 2 0 ltac:(lra)) as [-> ->]. apply P3; field.
Qed.
Print Assumptions C47_flux_outside_refuted.

(** * C48: arrays and files *)
(** Transposing exchanges rows and columns, and twice gives back the array. *)
Theorem C48_transpose : forall A (a : marray A) rows cols g, stored a rows cols g -> rows <> O -> cols <> O ->
  (exists b, transpose a = Ok b /\ stored b cols rows (fun i j => g j i)) /\ obind (transpose a) transpose = Ok a.
Proof.
  intros A a rows cols g S N1 N2. destruct (transpose_ok _ _ _ _ _ S N1) as (b & B & SB). split; [exists b; split; assumption|]. rewrite B. cbn [obind].
  destruct (transpose_ok _ _ _ _ _ SB N2) as (c & C & SC). rewrite C. f_equal. exact (stored_unique _ _ _ _ _ _ SC S).
Qed.
Print Assumptions C48_transpose.
Example C48_example_transpose : transpose (MArray 2 3 [1; 2; 3; 4; 5; 6]%nat) = Ok (MArray 3 2 [1; 4; 2; 5; 3; 6]%nat).
Proof. reflexivity. Qed.

(** What a file must contain to describe the given field. *)
Definition describes {V T : Type} (m : mfile V T) (name desc : T) (RR Z Br Bphi Bz : list V) (Psi : option (list V)) (axis : point) (sep wall : contour) : Prop :=
  f_name V T m = Some name /\ f_desc V T m = Some desc /\ f_maxis V T m = Some [fst axis; snd axis] /\ f_r V T m = Some RR /\ f_z V T m = Some Z /\
  (let nr := length RR in let nz := length Z in
   both (represents nr nz) (f_Br V T m) (Some Br) /\ both (represents nr nz) (f_Bphi V T m) (Some Bphi) /\ both (represents nr nz) (f_Bz V T m) (Some Bz) /\
   both (represents nr nz) (f_Psi V T m) Psi) /\
  both outlines (f_wall V T m) wall /\ both outlines (f_sep V T m) sep.
Definition verified {V T : Type} (same : V -> V -> bool) (m : mfile V T) (nr : nat) (Br Bphi Bz : list V) : Prop :=
  agrees same nr Br (f_verBr V T m) /\ agrees same nr Bphi (f_verBphi V T m) /\ agrees same nr Bz (f_verBz V T m).
Lemma load_prefix : forall V T same below (m : mfile V T) name desc RR Z Br Bphi Bz Psi axis sep wall,
  describes m name desc RR Z Br Bphi Bz Psi axis sep wall -> Z <> [] ->
  exists b1 b2 b3 g1 g2 g3,
  (tabulates Br (length RR) (length Z) g1 /\ stored b1 (length Z) (length RR) (fun j i => g1 i j)) /\
  (tabulates Bphi (length RR) (length Z) g2 /\ stored b2 (length Z) (length RR) (fun j i => g2 i j)) /\
  (tabulates Bz (length RR) (length Z) g3 /\ stored b3 (length Z) (length RR) (fun j i => g3 i j)) /\
  load V T same below m = obind (verify V same (length RR) b1 (f_verBr V T m)) (fun _ => obind (verify V same (length RR) b2 (f_verBphi V T m)) (fun _ =>
    obind (verify V same (length RR) b3 (f_verBz V T m)) (fun _ => init V T below name desc RR Z Br Bphi Bz Psi axis sep wall))).
Proof.
  intros V T same below m name desc RR Z Br Bphi Bz Psi [ra za] sep wall D0 NZ0. destruct D0 as (E1 & E2 & E3 & E4 & E5 & (P1 & P2 & P3 & P4) & W & S).
  assert (NZ : length Z <> 0%nat) by (intro X; apply length_zero_iff_nil in X; contradiction).
  destruct (f_Br V T m) as [a1|] eqn:A1; [|contradiction]. destruct (f_Bphi V T m) as [a2|] eqn:A2; [|contradiction]. destruct (f_Bz V T m) as [a3|] eqn:A3; [|contradiction].
  destruct (orient_ok _ _ _ _ _ P1) as (b1 & O1 & g1 & T1 & S1). destruct (orient_ok _ _ _ _ _ P2) as (b2 & O2 & g2 & T2 & S2). destruct (orient_ok _ _ _ _ _ P3) as (b3 & O3 & g3 & T3 & S3).
  exists b1, b2, b3, g1, g2, g3. split; [split; assumption|]. split; [split; assumption|]. split; [split; assumption|].
  unfold load. rewrite E1, E2, E3, E4, E5, A1, A2, A3. cbn [need obind fst snd]. rewrite O1. cbn [obind]. rewrite O2. cbn [obind]. rewrite O3. cbn [obind].
  rewrite (optional_outlines _ _ W), (optional_outlines _ _ S). cbn [obind]. rewrite (relayout_ok _ _ _ _ _ _ S1 T1), (relayout_ok _ _ _ _ _ _ S2 T2), (relayout_ok _ _ _ _ _ _ S3 T3). cbn [obind].
  destruct (f_Psi V T m) as [a4|] eqn:A4; destruct Psi as [psi|]; try contradiction.
  - destruct (orient_ok _ _ _ _ _ P4) as (b4 & O4 & g4 & T4 & S4). cbn [optional]. rewrite O4. cbn [obind optional]. rewrite (relayout_ok _ _ _ _ _ _ S4 T4). cbn [obind]. rewrite (release_ok _ b1), (release_ok _ b2), (release_ok _ b3) by (first [rewrite (proj1 S1)|rewrite (proj1 S2)|rewrite (proj1 S3)]; exact NZ). reflexivity.
  - cbn [optional obind]. rewrite (release_ok _ b1), (release_ok _ b2), (release_ok _ b3) by (first [rewrite (proj1 S1)|rewrite (proj1 S2)|rewrite (proj1 S3)]; exact NZ). reflexivity.
Qed.
(** Whichever way its tables and contours are oriented, a file is loaded as the field it
    describes. *)
Theorem C48_load : forall V T same below (m : mfile V T) name desc RR Z Br Bphi Bz Psi axis sep wall,
  describes m name desc RR Z Br Bphi Bz Psi axis sep wall -> Z <> [] -> verified same m (length RR) Br Bphi Bz ->
  load V T same below m = init V T below name desc RR Z Br Bphi Bz Psi axis sep wall.
Proof.
  intros V T same below m name desc RR Z Br Bphi Bz Psi axis sep wall D NZ (V1 & V2 & V3).
  destruct (load_prefix V T same below m _ _ _ _ _ _ _ _ _ _ _ D NZ) as (b1 & b2 & b3 & g1 & g2 & g3 & [T1 S1] & [T2 S2] & [T3 S3] & E). rewrite E.
  rewrite (verify_ok V same _ _ _ _ _ _ T1 S1 V1), (verify_ok V same _ _ _ _ _ _ T2 S2 V2), (verify_ok V same _ _ _ _ _ _ T3 S3 V3). reflexivity.
Qed.
Print Assumptions C48_load.
(** Verification vectors that do not agree with the tables are rejected. *)
Theorem C48_verification : forall V T same below (m : mfile V T) name desc RR Z Br Bphi Bz Psi axis sep wall,
  describes m name desc RR Z Br Bphi Bz Psi axis sep wall -> Z <> [] -> ~ verified same m (length RR) Br Bphi Bz -> load V T same below m = Throw.
Proof.
  intros V T same below m name desc RR Z Br Bphi Bz Psi axis sep wall D N NV.
  destruct (load_prefix V T same below m _ _ _ _ _ _ _ _ _ _ _ D N) as (b1 & b2 & b3 & g1 & g2 & g3 & [T1 S1] & [T2 S2] & [T3 S3] & E). rewrite E.
  assert (NZ : length Z <> 0%nat) by (intro X; apply length_zero_iff_nil in X; contradiction).
  destruct (verify_decides V same _ _ _ _ _ (f_verBr V T m) NZ T1 S1) as [[A1 ->]|[_ ->]]; [|reflexivity].
  destruct (verify_decides V same _ _ _ _ _ (f_verBphi V T m) NZ T2 S2) as [[A2 ->]|[_ ->]]; [|reflexivity].
  destruct (verify_decides V same _ _ _ _ _ (f_verBz V T m) NZ T3 S3) as [[A3 ->]|[_ ->]]; [|reflexivity].
  exfalso. apply NV. split; [exact A1|]. split; [exact A2|exact A3].
Qed.
Print Assumptions C48_verification.
Lemma init_inv : forall V T below name desc RR Z Br Bphi Bz Psi axis sep wall f, init V T below name desc RR Z Br Bphi Bz Psi axis sep wall = Ok f ->
  (sep <> None \/ wall <> None) /\ (usable below RR /\ usable below Z) /\
  exists d, domain_of axis sep wall = Ok d /\ f = Numeric V T name desc axis RR Z Br Bphi Bz Psi sep wall d.
Proof.
  intros V T below name desc RR Z Br Bphi Bz Psi axis sep wall f H.
  assert (Q : (sep <> None \/ wall <> None) /\ obind (domain_of axis sep wall) (fun d => if (bicubic V below RR && bicubic V below Z)%bool then Ok (Numeric V T name desc axis RR Z Br Bphi Bz Psi sep wall d) else UB) = Ok f).
  { unfold init in H. destruct sep as [q|]; [split; [left; discriminate|exact H]|]. destruct wall as [w|]; [split; [right; discriminate|exact H]|discriminate H]. }
  destruct Q as [N Q]. split; [exact N|]. destruct (domain_of axis sep wall) as [d| |]; cbn [obind] in Q; try discriminate Q.
  destruct (bicubic V below RR && bicubic V below Z)%bool eqn:B; [|discriminate Q]. apply andb_true_iff in B. destruct B as [B1 B2]. injection Q as <-.
  split; [split; apply bicubic_ok; assumption|]. exists d. split; reflexivity.
Qed.
Lemma init_fwd : forall V T below name desc RR Z Br Bphi Bz Psi axis sep wall d, (sep <> None \/ wall <> None) -> domain_of axis sep wall = Ok d ->
  (usable below RR -> usable below Z -> init V T below name desc RR Z Br Bphi Bz Psi axis sep wall = Ok (Numeric V T name desc axis RR Z Br Bphi Bz Psi sep wall d)) /\
  (~ (usable below RR /\ usable below Z) -> init V T below name desc RR Z Br Bphi Bz Psi axis sep wall = UB).
Proof.
  intros V T below name desc RR Z Br Bphi Bz Psi axis sep wall d N D.
  assert (E : init V T below name desc RR Z Br Bphi Bz Psi axis sep wall = if (bicubic V below RR && bicubic V below Z)%bool then Ok (Numeric V T name desc axis RR Z Br Bphi Bz Psi sep wall d) else UB).
  { unfold init. destruct sep as [q|]; [|destruct wall as [w|]; [|destruct N; contradiction]]; rewrite D; reflexivity. }
  rewrite E. split.
  - intros U1 U2. rewrite (proj2 (bicubic_ok V below RR) U1), (proj2 (bicubic_ok V below Z) U2). reflexivity.
  - intro U. destruct (bicubic V below RR && bicubic V below Z)%bool eqn:B; [|reflexivity]. apply andb_true_iff in B. destruct B as [B1 B2]. exfalso. apply U. split; apply bicubic_ok; assumption.
Qed.
(** The object that is constructed: the data given; the domain is the wall, or else the
    separatrix; the radii come from the separatrix if it has points, or else from the wall.
    A field without either is refused.  With radii or heights that are fewer than four or not
    strictly increasing there is no object: contours with which another field was constructed
    are of no use, the program ends (UB). *)
Theorem C48_object : forall V T below name desc RR Z Br Bphi Bz Psi axis sep wall,
  (sep = None -> wall = None -> init V T below name desc RR Z Br Bphi Bz Psi axis sep wall = Throw) /\
  (forall f, init V T below name desc RR Z Br Bphi Bz Psi axis sep wall = Ok f ->
    (sep <> None \/ wall <> None) /\
    nm_name V T f = name /\ nm_desc V T f = desc /\ nm_axis V T f = axis /\ nm_R V T f = RR /\ nm_Z V T f = Z /\
    nm_Br V T f = Br /\ nm_Bphi V T f = Bphi /\ nm_Bz V T f = Bz /\ nm_Psi V T f = Psi /\ nm_sep V T f = sep /\ nm_wall V T f = wall /\
    d_axis (nm_dom V T f) = axis /\
    (forall w, wall = Some w -> d_pts (nm_dom V T f) = Some w) /\
    (forall q, wall = None -> sep = Some q -> d_pts (nm_dom V T f) = Some q) /\
    (forall q, sep = Some q -> q <> [] -> find_max_radius (snd axis) q = Ok (d_max (nm_dom V T f), d_min (nm_dom V T f))) /\
    (forall w, wall = Some w -> sep = None \/ sep = Some [] -> find_max_radius (snd axis) w = Ok (d_max (nm_dom V T f), d_min (nm_dom V T f)))) /\
  (forall f, init V T below name desc RR Z Br Bphi Bz Psi axis sep wall = Ok f -> usable below RR /\ usable below Z) /\
  (forall name' desc' RR' Z' Br' Bphi' Bz' Psi' f', init V T below name' desc' RR' Z' Br' Bphi' Bz' Psi' axis sep wall = Ok f' ->
    (usable below RR -> usable below Z -> exists f, init V T below name desc RR Z Br Bphi Bz Psi axis sep wall = Ok f) /\
    (~ (usable below RR /\ usable below Z) -> init V T below name desc RR Z Br Bphi Bz Psi axis sep wall = UB)).
Proof.
  intros V T below name desc RR Z Br Bphi Bz Psi axis sep wall. split; [intros -> ->; reflexivity|]. split; [|split].
  2:{ intros f H. exact (proj1 (proj2 (init_inv _ _ _ _ _ _ _ _ _ _ _ _ _ _ _ H))). }
  2:{ intros name' desc' RR' Z' Br' Bphi' Bz' Psi' f' H. destruct (init_inv _ _ _ _ _ _ _ _ _ _ _ _ _ _ _ H) as (N & _ & d & D & _).
      destruct (init_fwd V T below name desc RR Z Br Bphi Bz Psi axis sep wall d N D) as [F1 F2]. split; [intros U1 U2; eexists; exact (F1 U1 U2)|exact F2]. }
  intros f H. destruct (init_inv _ _ _ _ _ _ _ _ _ _ _ _ _ _ _ H) as (N & _ & d & Q & ->). cbn [nm_name nm_desc nm_axis nm_R nm_Z nm_Br nm_Bphi nm_Bz nm_Psi nm_sep nm_wall nm_dom].
  unfold domain_of, set_domain in Q. cbn [new_field d_axis d_max d_min d_bounds] in Q.
  destruct (find_max_radius (snd axis) (radius_contour sep wall)) as [[mx mn]| |] eqn:E; cbn [obind] in Q; try discriminate.
  injection Q as Q. subst d. cbn [d_axis d_pts d_max d_min].
  split; [exact N|]. do 11 (split; [reflexivity|]). split; [reflexivity|].
  split; [intros w ->; reflexivity|]. split; [intros q -> ->; reflexivity|]. split.
  - intros q -> Nq. unfold radius_contour in E. cbn [points] in E. destruct q as [|x q]; [contradiction Nq; reflexivity|]. exact E.
  - intros w -> [-> | ->]; exact E.
Qed.
Print Assumptions C48_object.
(** Fields whose arrays have the sizes of the grid. *)
Definition sized {V T : Type} (f : numeric V T) : Prop :=
  let n := (length (nm_R V T f) * length (nm_Z V T f))%nat in
  length (nm_Br V T f) = n /\ length (nm_Bphi V T f) = n /\ length (nm_Bz V T f) = n /\ (forall l, nm_Psi V T f = Some l -> length l = n) /\ n <> 0%nat.
(** Fields that the constructor has made. *)
Definition constructed {V T : Type} (below : V -> V -> bool) (f : numeric V T) : Prop :=
  init V T below (nm_name V T f) (nm_desc V T f) (nm_R V T f) (nm_Z V T f) (nm_Br V T f) (nm_Bphi V T f) (nm_Bz V T f) (nm_Psi V T f) (nm_axis V T f) (nm_sep V T f) (nm_wall V T f) = Ok f.
Lemma prefix_ok : forall V (l : list V) n k, length l = (n * k)%nat -> (n * k <> 0)%nat -> prefix V n l = Ok (firstn n l).
Proof. intros V l n k L N. unfold prefix. destruct (Nat.leb_spec n (length l)); [reflexivity|]. destruct k; [lia|]. nia. Qed.
Lemma save_ok : forall V T (f : numeric V T) psi, sized f -> nm_Psi V T f = Some psi ->
  exists m, save V T f = Ok m /\
  f_verBr V T m = Some (firstn (length (nm_R V T f)) (nm_Br V T f)) /\ f_verBphi V T m = Some (firstn (length (nm_R V T f)) (nm_Bphi V T f)) /\ f_verBz V T m = Some (firstn (length (nm_R V T f)) (nm_Bz V T f)) /\
  (nm_sep V T f <> Some [] -> nm_wall V T f <> Some [] ->
   describes m (nm_name V T f) (nm_desc V T f) (nm_R V T f) (nm_Z V T f) (nm_Br V T f) (nm_Bphi V T f) (nm_Bz V T f) (nm_Psi V T f) (nm_axis V T f) (nm_sep V T f) (nm_wall V T f)).
Proof.
  intros V T f psi (L1 & L2 & L3 & L4 & N) EP. unfold save. rewrite EP. rewrite (prefix_ok _ _ _ _ L2 N), (prefix_ok _ _ _ _ L1 N), (prefix_ok _ _ _ _ L3 N). cbn [obind]. eexists. split; [reflexivity|].
  cbn [f_verBr f_verBphi f_verBz]. split; [reflexivity|]. split; [reflexivity|]. split; [reflexivity|]. intros NS NW.
  unfold describes. cbn [f_name f_desc f_maxis f_r f_z f_Br f_Bphi f_Bz f_Psi f_wall f_sep both]. repeat (split; [reflexivity|]).
  split; [|split; apply contour_array_ok; assumption]. repeat split; apply represents_any; auto.
Qed.
Lemma firstn_nth : forall A (l : list A) n i v, nth_error (firstn n l) i = Some v -> nth_error l i = Some v.
Proof. intros A. induction l as [|x l IH]; intros [|n] [|i] v H; try discriminate H; cbn in *; [exact H|apply (IH n); exact H]. Qed.
(** Saving a field with flux data and loading it again gives back the same field, if no element of
    the first rows is a NaN. *)
Theorem C48_round_trip : forall V T same below (f : numeric V T), constructed below f -> sized f -> nm_Psi V T f <> None ->
  nm_sep V T f <> Some [] -> nm_wall V T f <> Some [] ->
  (forall v, In v (firstn (length (nm_R V T f)) (nm_Br V T f)) \/ In v (firstn (length (nm_R V T f)) (nm_Bphi V T f)) \/ In v (firstn (length (nm_R V T f)) (nm_Bz V T f)) -> same v v = true) ->
  obind (save V T f) (load V T same below) = Ok f.
Proof.
  intros V T same below f C S NP NS NW H. destruct (nm_Psi V T f) as [psi|] eqn:EP; [|congruence]. destruct (save_ok V T f psi S EP) as (m & EM & V1 & V2 & V3 & D). rewrite EM. cbn [obind].
  rewrite (C48_load V T same below m _ _ _ _ _ _ _ _ _ _ _ (D NS NW)); [exact C| |].
  { destruct S as (_ & _ & _ & _ & N). intro X. rewrite X in N. cbn in N. lia. }
  assert (G : forall l, (forall v, In v (firstn (length (nm_R V T f)) l) -> same v v = true) -> agrees same (length (nm_R V T f)) l (Some (firstn (length (nm_R V T f)) l))).
  { intros l HL. split; [rewrite firstn_length; lia|]. intros i w E. exists w. split; [exact (firstn_nth _ _ _ _ _ E)|]. apply HL. exact (nth_error_In _ _ E). }
  unfold verified. rewrite V1, V2, V3. split; [apply G; intros; apply H; tauto|]. split; apply G; intros; apply H; tauto.
Qed.
Print Assumptions C48_round_trip.
(** A field with a NaN in the first row of a table is saved, but cannot be loaded. *)
Theorem C48_nan_refuted : forall V T same below (f : numeric V T) psi v, constructed below f -> sized f -> nm_Psi V T f = Some psi ->
  nm_sep V T f <> Some [] -> nm_wall V T f <> Some [] -> In v (firstn (length (nm_R V T f)) (nm_Br V T f)) -> same v v = false ->
  exists m, save V T f = Ok m /\ load V T same below m = Throw.
Proof.
  intros V T same below f psi v C S EP NS NW I SV. destruct (save_ok V T f psi S EP) as (m & EM & V1 & V2 & V3 & D). exists m. split; [exact EM|].
  assert (NZ : nm_Z V T f <> []). { destruct S as (_ & _ & _ & _ & N). intro X. rewrite X in N. cbn in N. lia. }
  apply (C48_verification V T same below m _ _ _ _ _ _ _ _ _ _ _ (D NS NW) NZ). intros (A & _). rewrite V1 in A. destruct A as [_ A]. apply In_nth_error in I. destruct I as [i I].
  destruct (A i v I) as (u & E & SU). apply firstn_nth in I. congruence.
Qed.
Print Assumptions C48_nan_refuted.
(** Saving a field without flux data passes a null pointer to the file. *)
Theorem C48_no_flux_refuted : forall V T (f : numeric V T), nm_Psi V T f = None -> save V T f = UB.
Proof. intros V T f E. unfold save. rewrite E. reflexivity. Qed.
Print Assumptions C48_no_flux_refuted.

(** A field of natural numbers, with the wall of an earlier example. *)
Definition tri_field : field := Field (2, 0) (Some (triangle_wall 3)) (8/3) (4/3) None.
Lemma tri_radii : find_max_radius 0 (triangle_wall 3) = Ok (8/3, 4/3).
Proof.
  rewrite triangle_radii. unfold extremes. cbn [fold_left fst snd]. assert (E1 : 3 + (2 - 3) * (0 - -1) / (2 - -1) = 8/3) by field. assert (E2 : 2 + (1 - 2) * (0 - 2) / (-1 - 2) = 4/3) by field. rewrite E1, E2.
  destruct (Rlt_dec (8/3) (4/3)); [lra|]. destruct (Rlt_dec (4/3) (8/3)); [reflexivity|lra].
Qed.
Lemma tri_domain : domain_of (2, 0) None (Some (triangle_wall 3)) = Ok tri_field.
Proof.
  unfold domain_of, radius_contour, points, set_domain, new_field. cbn [length Nat.ltb Nat.leb d_axis snd]. rewrite tri_radii. reflexivity.
Qed.
Lemma tri_domain_sep : domain_of (2, 0) (Some (triangle_wall 3)) None = Ok tri_field.
Proof.
  unfold domain_of, radius_contour, points, set_domain, new_field. change (0 <? length (triangle_wall 3))%nat with true. cbv iota. cbn [d_axis snd]. rewrite tri_radii. reflexivity.
Qed.
Definition small_field (RR Z t : list nat) (psi : option (list nat)) : numeric nat nat :=
  Numeric nat nat 0%nat 1%nat (2, 0) RR Z t t t psi None (Some (triangle_wall 3)) tri_field.
Lemma usable_seq : forall a n, (4 <= n)%nat -> usable Nat.ltb (seq a n).
Proof.
  intros a n L. split; [rewrite seq_length; exact L|]. intros i x y E F.
  assert (G : forall k v, nth_error (seq a n) k = Some v -> v = (a + k)%nat).
  { intros k v H. assert (k < n)%nat by (rewrite <- (seq_length n a); apply nth_error_Some; congruence). rewrite (nth_error_nth' _ 0%nat) in H by (rewrite seq_length; assumption). rewrite seq_nth in H by assumption. injection H as <-. reflexivity. }
  rewrite (G _ _ E), (G _ _ F). apply Nat.ltb_lt. lia.
Qed.
Lemma small_constructed : forall nr nz t psi, (4 <= nr)%nat -> (4 <= nz)%nat -> constructed Nat.ltb (small_field (seq 1 nr) (seq 5 nz) t psi).
Proof.
  intros nr nz t psi L1 L2. unfold constructed, small_field. cbn [nm_sep nm_wall nm_axis nm_name nm_desc nm_R nm_Z nm_Br nm_Bphi nm_Bz nm_Psi].
  apply init_fwd; [right; discriminate|exact tri_domain| |]; apply usable_seq; assumption.
Qed.
Example C48_example : let f := small_field (seq 1 5) (seq 5 4) (seq 1 20) (Some (seq 11 20)) in
  constructed Nat.ltb f /\ sized f /\ nm_Psi nat nat f <> None /\ obind (save nat nat f) (load nat nat Nat.eqb Nat.ltb) = Ok f.
Proof.
  cbv zeta. assert (C := small_constructed 5 4 (seq 1 20) (Some (seq 11 20)) ltac:(lia) ltac:(lia)).
  assert (S : sized (small_field (seq 1 5) (seq 5 4) (seq 1 20) (Some (seq 11 20)))) by (unfold sized; cbn; repeat split; try lia; intros l E; injection E as <-; reflexivity).
  split; [exact C|]. split; [exact S|]. split; [discriminate|]. apply C48_round_trip; try assumption; try discriminate. intros v _. apply Nat.eqb_refl.
Qed.
(** The orientation of square tables cannot be told: with rows for the radii, they are loaded
    transposed. *)
Definition square_file : mfile nat nat :=
  let a := MArray 4 4 (seq 1 16) in
  MFile nat nat (Some 0%nat) (Some 1%nat) (Some [2; 0]) (Some (seq 1 4)) (Some (seq 5 4)) (Some a) (Some a) (Some a) None None None None
    (contour_array (Some (triangle_wall 3))) None.
Theorem C48_square_refuted : exists f, load nat nat Nat.eqb Nat.ltb square_file = Ok f /\
  (forall a, f_Br nat nat square_file = Some a -> stored a 4 4 (fun i j => 1 + 4 * i + j)%nat) /\
  tabulates (nm_Br nat nat f) 4 4 (fun i j => 1 + 4 * j + i)%nat /\ ~ tabulates (nm_Br nat nat f) 4 4 (fun i j => 1 + 4 * i + j)%nat.
Proof.
  assert (K : tabulates (seq 1 16) 4 4 (fun i j => 1 + 4 * j + i)%nat).
  { split; [reflexivity|]. intros [|[|[|[|i]]]] [|[|[|[|j]]]] Hi Hj; try lia; reflexivity. }
  assert (S : stored (MArray 4 4 (seq 1 16)) 4 4 (fun i j => 1 + 4 * i + j)%nat).
  { repeat split. intros [|[|[|[|i]]]] [|[|[|[|j]]]] Hi Hj; try lia; reflexivity. }
  exists (small_field (seq 1 4) (seq 5 4) (seq 1 16) None). split; [|split; [|split]].
  - assert (REP : represents 4 4 (MArray 4 4 (seq 1 16)) (seq 1 16)).
    { exists (fun i j => 1 + 4 * j + i)%nat. split; [exact K|left; exact S]. }
    rewrite (C48_load nat nat Nat.eqb Nat.ltb square_file 0%nat 1%nat (seq 1 4) (seq 5 4) (seq 1 16) (seq 1 16) (seq 1 16) None (2, 0) None (Some (triangle_wall 3))).
    + exact (small_constructed 4 4 (seq 1 16) None ltac:(lia) ltac:(lia)).
    + unfold describes. repeat (split; [reflexivity|]). cbn [f_Br f_Bphi f_Bz f_Psi square_file both]. rewrite !seq_length. split; [repeat split; exact REP|]. split; [|exact I].
      exact (contour_array_ok (Some (triangle_wall 3)) ltac:(discriminate)).
    + discriminate.
    + repeat split.
  - intros a E. injection E as <-. exact S.
  - exact K.
  - intros [_ T]. specialize (T 1%nat 0%nat ltac:(lia) ltac:(lia)). discriminate T.
Qed.
Print Assumptions C48_square_refuted.
(** A table that has the right number of rows but too few columns is not rejected: elements
    outside it are read. *)
Theorem C48_size_refuted : forall A nr nz (a : marray A) g, stored a nz (ma_cols a) g -> (ma_cols a < nr)%nat -> nz <> 0%nat ->
  orient nz a = Ok a /\ relayout nr nz a = UB.
Proof.
  intros A nr nz a g (ER & _ & L & _) C N. split; [unfold orient; rewrite ER, Nat.eqb_refl; reflexivity|]. unfold relayout, fill.
  assert (X : (nr * nz - 1 = (nz - 1) * nr + (nr - 1))%nat) by nia.
  apply (fill_from_ub _ _ _ _ (nr * nz - 1)%nat); [nia| |].
  - rewrite X, index_div, index_mod by lia. unfold aget. destruct (Nat.ltb (nz - 1) (ma_rows a)); [|reflexivity].
    rewrite (proj2 (nth_error_None (ma_data a) _)); [reflexivity|]. rewrite L. destruct nz as [|n]; [lia|]. rewrite Nat.sub_1_r. cbn [pred]. nia.
  - intro i. unfold aget. destruct (Nat.ltb (i / nr) (ma_rows a)); [|discriminate]. destruct (nth_error _ _); discriminate.
Qed.
Print Assumptions C48_size_refuted.
(** Nor is an array without rows: to release it the first row pointer is read, which is not
    there. *)
Theorem C48_empty_refuted : (forall A nz (a : marray A), ma_rows a = O -> nz <> O -> orient nz a = UB) /\ (forall a : marray R, ma_rows a = O -> contour_of a = UB).
Proof.
  split.
  - intros A nz a E N. unfold orient, transpose, release. rewrite E. destruct nz as [|nz]; [contradiction|]. reflexivity.
  - intros a E. unfold contour_of, release. rewrite E. reflexivity.
Qed.
Print Assumptions C48_empty_refuted.

(** * C80: clones of numeric fields *)
(** The clone of a field with a wall has the same data, domain and radii; only a missing
    separatrix has become an empty one. *)
Theorem C80_clone : forall V T below (f : numeric V T) w, constructed below f -> nm_wall V T f = Some w ->
  exists f', clone_num V T below f = Ok f' /\ constructed below f' /\
  nm_name V T f' = nm_name V T f /\ nm_desc V T f' = nm_desc V T f /\ nm_axis V T f' = nm_axis V T f /\
  nm_R V T f' = nm_R V T f /\ nm_Z V T f' = nm_Z V T f /\ nm_Br V T f' = nm_Br V T f /\ nm_Bphi V T f' = nm_Bphi V T f /\ nm_Bz V T f' = nm_Bz V T f /\
  nm_Psi V T f' = nm_Psi V T f /\ nm_dom V T f' = nm_dom V T f /\ nm_wall V T f' = nm_wall V T f /\
  (nm_sep V T f <> None -> f' = f) /\ save V T f' = save V T f.
Proof.
  intros V T below f w C W. unfold constructed in C. destruct (init_inv _ _ _ _ _ _ _ _ _ _ _ _ _ _ _ C) as (_ & (U1 & U2) & d & D & E).
  assert (ED : domain_of (nm_axis V T f) (nm_sep V T f) (Some w) = Ok (nm_dom V T f)) by (rewrite W in D; rewrite D, E; reflexivity).
  assert (ED' : domain_of (nm_axis V T f) (Some (points (nm_sep V T f))) (Some w) = Ok (nm_dom V T f)).
  { rewrite <- ED. unfold domain_of, radius_contour. cbn [points]. reflexivity. }
  unfold clone_num. rewrite W. cbn [points]. eexists. split; [apply init_fwd; [left; discriminate|exact ED'|exact U1|exact U2]|].
  split; [unfold constructed; cbn [nm_sep nm_wall nm_axis nm_name nm_desc nm_R nm_Z nm_Br nm_Bphi nm_Bz nm_Psi nm_dom]; apply init_fwd; [left; discriminate|exact ED'|exact U1|exact U2]|].
  cbn [nm_sep nm_wall nm_axis nm_name nm_desc nm_R nm_Z nm_Br nm_Bphi nm_Bz nm_Psi nm_dom]. repeat (split; [first [reflexivity|symmetry; exact W]|]). split.
    - intro NS. clear - NS W. destruct f as [n d ax RR Z b1 b2 b3 psi sep wall dom]. cbn [nm_sep nm_wall nm_axis nm_name nm_desc nm_R nm_Z nm_Br nm_Bphi nm_Bz nm_Psi nm_dom] in *. subst wall. destruct sep as [s|]; [reflexivity|congruence].
    - unfold save. cbn [nm_sep nm_wall nm_axis nm_name nm_desc nm_R nm_Z nm_Br nm_Bphi nm_Bz nm_Psi nm_dom]. rewrite W. unfold contour_array. cbn [points]. reflexivity.
Qed.
Print Assumptions C80_clone.
Example C80_example : exists f : numeric nat nat, constructed Nat.ltb f /\ nm_wall nat nat f = Some (triangle_wall 3) /\ nm_sep nat nat f = None.
Proof. exists (small_field (seq 1 5) (seq 5 4) (seq 1 20) None). split; [|split; reflexivity]. apply small_constructed; lia. Qed.
(** The clone of a field that has only a separatrix has an empty wall, which is then its domain:
    asking whether a path leaves it reads outside an array. *)
Theorem C80_separatrix_refuted : forall V T below (f : numeric V T) s, constructed below f -> nm_wall V T f = None -> nm_sep V T f = Some s -> s <> [] ->
  d_pts (nm_dom V T f) = Some s /\
  exists f', clone_num V T below f = Ok f' /\ d_pts (nm_dom V T f') = Some [] /\
  forall x1 y1 z1 x2 y2 z2, crosses_domain (current (nm_dom V T f')) x1 y1 z1 x2 y2 z2 = UB.
Proof.
  intros V T below f s C W S NS. unfold constructed in C. destruct (init_inv _ _ _ _ _ _ _ _ _ _ _ _ _ _ _ C) as (_ & (U1 & U2) & d & D & E).
  assert (ED : domain_of (nm_axis V T f) (Some s) None = Ok (nm_dom V T f)) by (rewrite W, S in D; rewrite D, E; reflexivity).
  assert (RC : forall w, radius_contour (Some s) w = s) by (intro w; unfold radius_contour; cbn [points]; destruct s; [congruence|reflexivity]).
  unfold domain_of in ED. rewrite RC in ED. cbn [points] in ED. unfold set_domain, new_field in ED. cbn [d_axis] in ED.
  destruct (find_max_radius (snd (nm_axis V T f)) s) as [[mx mn]| |] eqn:FM; try discriminate ED. cbn [obind d_bounds] in ED. injection ED as ED.
  split; [rewrite <- ED; reflexivity|].
  assert (D' : domain_of (nm_axis V T f) (Some s) (Some []) = Ok (Field (nm_axis V T f) (Some []) mx mn None)).
  { unfold domain_of. rewrite RC. unfold set_domain, new_field. cbn [d_axis]. rewrite FM. reflexivity. }
  unfold clone_num. rewrite W, S. cbn [points]. eexists. split; [apply init_fwd; [left; discriminate|exact D'|exact U1|exact U2]|].
  cbn [nm_dom d_pts]. split; [reflexivity|]. intros. unfold current. cbn [d_pts]. apply C44_no_domain.
Qed.
Print Assumptions C80_separatrix_refuted.
Example C80_example_separatrix : exists f : numeric nat nat, constructed Nat.ltb f /\ nm_wall nat nat f = None /\ nm_sep nat nat f = Some (triangle_wall 3).
Proof.
  exists (Numeric nat nat 0%nat 1%nat (2, 0) (seq 1 5) (seq 5 4) [] [] [] None (Some (triangle_wall 3)) None tri_field). split; [|split; reflexivity].
  unfold constructed. cbn [nm_sep nm_wall nm_axis nm_name nm_desc nm_R nm_Z nm_Br nm_Bphi nm_Bz nm_Psi]. apply init_fwd; [left; discriminate| | |]; try (apply usable_seq; lia).
  unfold domain_of, radius_contour, points, set_domain, new_field. change (0 <? length (triangle_wall 3))%nat with true. cbv iota. cbn [d_axis snd]. rewrite tri_radii. reflexivity.
Qed.

(** * C81: LUKE equilibria *)
(** The poloidal angle of a grid point, from the magnetic axis. *)
Theorem C81_angle : forall x y, x <> 0 \/ y <> 0 ->
  0 <= luke_theta x y < 2 * PI /\ x = major x y * cos (luke_theta x y) /\ y = major x y * sin (luke_theta x y).
Proof. intros x y H. destruct (theta_polar x y H) as (B & C & S). split; [exact B|]. split; symmetry; assumption. Qed.
Print Assumptions C81_angle.
(** Normalisation divides every value by the original last one (the loop overwrites the array,
    but the last element last). *)
Theorem C81_normalise : forall l, last l 0 <> 0 ->
  normalise l = Some (map (fun v => Rabs (v / last l 0)) l) /\ (l <> [] -> last (map (fun v => Rabs (v / last l 0)) l) 0 = 1).
Proof.
  intros l N. split; [exact (normalise_ok l N)|]. intro NE. destruct (exists_last NE) as (q & x & ->). rewrite last_last in N |- *. rewrite map_app. cbn [map]. rewrite last_last. unfold Rdiv. rewrite Rinv_r by exact N. apply Rabs_R1.
Qed.
Print Assumptions C81_normalise.
(** What a file must contain. *)
Definition luke_describes {T : Type} (m : lfile T) (id : T) (Rp Zp : R) (xs ys : list R) (psin : nat -> nat -> R) (psia : R) (psi th : list R) (bx by_ bt : marray R) (px py : nat -> nat -> R) : Prop :=
  l_id T m = Some id /\ l_Rp T m = Some Rp /\ l_Zp T m = Some Zp /\ l_x T m = Some xs /\ l_y T m = Some ys /\
  (exists a, l_psin T m = Some a /\ stored a (length ys) (length xs) (fun j i => psin i j)) /\ l_psia T m = Some psia /\ l_psi T m = Some psi /\ l_theta T m = Some th /\
  l_Bx T m = Some bx /\ l_By T m = Some by_ /\ l_Bphi T m = Some bt /\
  (forall a, a = bx \/ a = by_ \/ a = bt -> ma_rows a = length th /\ ma_cols a = length psi) /\
  (exists a b, l_ptx T m = Some a /\ l_pty T m = Some b /\ stored a (length th) (length psi) px /\ stored b (length th) (length psi) py).
Lemma check_ok : forall rows cols a, ma_rows a = rows -> ma_cols a = cols -> luke_check rows cols a = Ok tt.
Proof. intros rows cols a <- <-. unfold luke_check. rewrite !Nat.eqb_refl. reflexivity. Qed.
(** The field on the grid: at the node of x_i and y_j the interpolated components at the absolute
    normalised flux and the angle of that node; the flux is scaled; the grids are moved to the
    magnetic axis, and the separatrix is the last flux surface. *)
Theorem C81_load : forall T interp (m : lfile T) id Rp Zp xs ys psin psia psi th bx by_ bt px py wf wall,
  luke_describes m id Rp Zp xs ys psin psia psi th bx by_ bt px py -> ys <> [] -> both (both outlines) wf (match wall with None => None | Some w => Some (Some w) end) ->
  (2 <= length psi)%nat -> (2 <= length th)%nat -> last psi 0 <> 0 -> ascending (map (fun v => Rabs (v / last psi 0)) psi) -> ascending th ->
  exists Br Bphi Bz Psi sep,
  let ps := map (fun v => Rabs (v / last psi 0)) psi in
  let value b i j := interp ps th b (Rabs (psin i j)) (luke_theta (nth i xs 0) (nth j ys 0)) in
  tabulates Br (length xs) (length ys) (value bx) /\ tabulates Bphi (length xs) (length ys) (value bt) /\ tabulates Bz (length xs) (length ys) (value by_) /\
  tabulates Psi (length xs) (length ys) (fun i j => psin i j * psia) /\
  sep = map (fun i => (px i (length psi - 1)%nat + Rp, py i (length psi - 1)%nat + Zp)) (seq 0 (length th)) /\
  luke_load T interp m wf =
    init R T Rltb id id (map (fun v => v + Rp) xs) (map (fun v => v + Zp) ys) Br Bphi Bz (Some Psi) (Rp, Zp) (Some sep) wall.
Proof.
  intros T interp m id Rp Zp xs ys psin psia psi th bx by_ bt px py wf wall (E1 & E2 & E3 & E4 & E5 & (a & E6 & S6) & E7 & E8 & E9 & E10 & E11 & E12 & DM & (ax & ay & E13 & E14 & SX & SY)) NY W L1 L2 N A1 A2.
  set (ps := map (fun v => Rabs (v / last psi 0)) psi) in *.
  destruct (luke_table_ok (interp ps th bx) xs ys a psin S6) as (Br & T1 & U1). destruct (luke_table_ok (interp ps th bt) xs ys a psin S6) as (Bphi & T2 & U2).
  destruct (luke_table_ok (interp ps th by_) xs ys a psin S6) as (Bz & T3 & U3). destruct (luke_flux_ok psia _ _ a psin S6) as (Psi & T4 & U4).
  eexists Br, Bphi, Bz, Psi, _. cbv zeta. split; [exact U1|]. split; [exact U2|]. split; [exact U3|]. split; [exact U4|]. split; [reflexivity|].
  unfold luke_load. rewrite E1, E2, E3, E4, E5, E6, E7, E8, E9, E10, E11, E12, E13, E14. cbn [need obind].
  rewrite (check_ok _ _ a) by apply S6. cbn [obind]. rewrite (release_ok _ a) by (rewrite (proj1 S6); destruct ys; [congruence|discriminate]). cbn [obind]. destruct (DM bx (or_introl eq_refl)) as [D1 D2]. rewrite (check_ok _ _ bx D1 D2). cbn [obind].
  destruct (DM by_ (or_intror (or_introl eq_refl))) as [D3 D4]. rewrite (check_ok _ _ by_ D3 D4). cbn [obind]. destruct (DM bt (or_intror (or_intror eq_refl))) as [D5 D6]. rewrite (check_ok _ _ bt D5 D6). cbn [obind].
  rewrite (normalise_ok psi N). fold ps. unfold interpolable. rewrite (proj2 (increasing_ok ps) A1), (proj2 (increasing_ok th) A2). assert (LP : length ps = length psi) by apply map_length. rewrite LP.
  rewrite (proj2 (Nat.leb_le 2 _) L1), (proj2 (Nat.leb_le 2 _) L2). cbn [andb]. rewrite T1, T2, T3, T4. cbn [obind]. rewrite (check_ok _ _ ax) by apply SX. cbn [obind]. rewrite (check_ok _ _ ay) by apply SY. cbn [obind].
  assert (SEP : luke_separatrix (Rp, Zp) (length th) (length psi) ax ay = Ok (map (fun i => (px i (length psi - 1)%nat + Rp, py i (length psi - 1)%nat + Zp)) (seq 0 (length th)))).
  { unfold luke_separatrix. apply fill_ok. intros i Hi. rewrite (aget_ok _ _ _ _ _ i (length psi - 1)%nat SX) by lia. cbn [obind]. rewrite (aget_ok _ _ _ _ _ i (length psi - 1)%nat SY) by lia. reflexivity. }
  rewrite SEP. cbn [obind]. assert (OW : optional wf (fun w => obind (need w) luke_wall) = Ok wall).
  { destruct wf as [[w|]|]; destruct wall as [l|]; try contradiction; [|reflexivity]. cbn [optional need obind]. rewrite (luke_wall_ok w l W). reflexivity. }
  rewrite OW. reflexivity.
Qed.
Print Assumptions C81_load.
(** Tables of the wrong size, and a wall with neither two rows nor two columns, are rejected; grids
    that are too small or not increasing give no field either. *)
Theorem C81_rejects : forall T interp (m : lfile T) wf f, luke_load T interp m wf = Ok f ->
  exists xs ys psi th, l_x T m = Some xs /\ l_y T m = Some ys /\ l_psi T m = Some psi /\ l_theta T m = Some th /\
  (forall a, l_psin T m = Some a -> ma_rows a = length ys /\ ma_cols a = length xs) /\
  (forall a, l_Bx T m = Some a \/ l_By T m = Some a \/ l_Bphi T m = Some a \/ l_ptx T m = Some a \/ l_pty T m = Some a -> ma_rows a = length th /\ ma_cols a = length psi) /\
  (forall w, wf = Some w -> exists a, w = Some a /\ (ma_rows a = 2%nat \/ ma_cols a = 2%nat)) /\
  ascending th /\ last psi 0 <> 0 /\ ascending (map (fun v => Rabs (v / last psi 0)) psi) /\
  (4 <= length xs)%nat /\ (4 <= length ys)%nat /\ ascending xs /\ ascending ys.
Proof.
  assert (OB : forall A B (x : outcome A) (k : A -> outcome B) v, obind x k = Ok v -> exists a, x = Ok a /\ k a = Ok v) by (intros A B [a| |] k v H; try discriminate H; exists a; split; [reflexivity|exact H]).
  assert (NE : forall A (x : option A) v, need x = Ok v -> x = Some v) by (intros A [x|] v H; [injection H as <-; reflexivity|discriminate H]).
  assert (CH : forall r c a u, luke_check r c a = Ok u -> ma_rows a = r /\ ma_cols a = c).
  { intros r c a u H. unfold luke_check in H. destruct (Nat.eqb_spec (ma_rows a) r); [|discriminate H]. destruct (Nat.eqb_spec (ma_cols a) c); [|discriminate H]. split; assumption. }
  intros T interp m wf f H. unfold luke_load in H.
  apply OB in H. destruct H as (id & H1 & H). apply OB in H. destruct H as (Rp & H2 & H). apply OB in H. destruct H as (Zp & H3 & H).
  apply OB in H. destruct H as (xs & H4 & H). apply OB in H. destruct H as (ys & H5 & H). apply OB in H. destruct H as (psin & H6 & H). apply OB in H. destruct H as (u1 & C1 & H).
  apply OB in H. destruct H as (psia & H7 & H). apply OB in H. destruct H as (u0 & C0 & H). apply OB in H. destruct H as (psi & H8 & H). apply OB in H. destruct H as (th & H9 & H).
  apply OB in H. destruct H as (bx & H10 & H). apply OB in H. destruct H as (u2 & C2 & H). apply OB in H. destruct H as (by_ & H11 & H). apply OB in H. destruct H as (u3 & C3 & H).
  apply OB in H. destruct H as (bt & H12 & H). apply OB in H. destruct H as (u4 & C4 & H).
  destruct (normalise psi) as [ps|] eqn:NP; [|discriminate H]. destruct (interpolable ps && interpolable th)%bool eqn:IP; [|discriminate H]. apply andb_true_iff in IP. destruct IP as [I1 I2].
  apply OB in H. destruct H as (Br & T1 & H). apply OB in H. destruct H as (Bp & T2 & H). apply OB in H. destruct H as (Bz & T3 & H). apply OB in H. destruct H as (Ps & T4 & H).
  apply OB in H. destruct H as (ptx & H13 & H). apply OB in H. destruct H as (u5 & C5 & H). apply OB in H. destruct H as (pty & H14 & H). apply OB in H. destruct H as (u6 & C6 & H).
  apply OB in H. destruct H as (sep & T5 & H). apply OB in H. destruct H as (wall & T6 & H).
  apply NE in H4, H5, H6, H8, H9, H10, H11, H12, H13, H14. apply CH in C1, C2, C3, C4, C5, C6.
  exists xs, ys, psi, th. split; [exact H4|]. split; [exact H5|]. split; [exact H8|]. split; [exact H9|]. split; [intros a E; rewrite H6 in E; injection E as <-; exact C1|].
  split. { intros a [E|[E|[E|[E|E]]]]; [rewrite H10 in E|rewrite H11 in E|rewrite H12 in E|rewrite H13 in E|rewrite H14 in E]; injection E as <-; assumption. }
  split. { intros w ->. cbn [optional] in T6. destruct (OB _ _ _ _ _ T6) as (l & E & _). destruct (OB _ _ _ _ _ E) as (a & E1 & E2). apply NE in E1. exists a. split; [exact E1|].
    unfold luke_wall in E2. destruct (Nat.eqb_spec (ma_rows a) 2); [left; assumption|]. destruct (Nat.eqb_spec (ma_cols a) 2); [right; assumption|discriminate E2]. }
  apply andb_true_iff in I1, I2. destruct I1 as [J1 I1]. destruct I2 as [_ I2]. split; [exact (proj1 (increasing_ok th) I2)|].
  assert (N : last psi 0 <> 0). { intro Z. destruct psi as [|p0 psi']; [cbn in NP; injection NP as <-; discriminate J1|]. rewrite (normalise_zero (p0 :: psi') (fun Q => eq_ind (p0 :: psi') (fun l => match l with [] => False | _ => True end) I [] Q) Z) in NP. discriminate NP. }
  split; [exact N|]. rewrite (normalise_ok psi N) in NP. injection NP as <-. split; [exact (proj1 (increasing_ok _) I1)|].
  destruct (proj1 (proj2 (init_inv _ _ _ _ _ _ _ _ _ _ _ _ _ _ _ H))) as [U1 U2].
  assert (SH : forall l c, usable Rltb (luke_grid l c) -> (4 <= length l)%nat /\ ascending l).
  { intros l c U. assert (B := proj2 (bicubic_ok _ _ _) U). unfold bicubic in B. apply andb_true_iff in B. destruct B as [B1 B2]. apply Nat.leb_le in B1. unfold luke_grid in B1. rewrite map_length in B1. split; [exact B1|].
    change (rising R Rltb (luke_grid l c)) with (increasing (luke_grid l c)) in B2. apply increasing_ok in B2. intros i j a b L E F.
    assert (X := B2 i j (a + c) (b + c) L). unfold luke_grid in X. rewrite !nth_error_map, E, F in X. specialize (X eq_refl eq_refl). lra. }
  destruct (SH _ _ U1) as [X1 X2]. destruct (SH _ _ U2) as [Y1 Y2]. repeat (split; [assumption|]). assumption.
Qed.
Print Assumptions C81_rejects.
(** A small equilibrium that meets the hypotheses, and is loaded. *)
Example C81_example : exists (m : lfile nat) psin bx by_ bt px py psi th,
  luke_describes m 7%nat 2 0 [-1; 0; 1; 2] [-1; 0; 1; 2] psin (-3) psi th bx by_ bt px py /\ (2 <= length psi)%nat /\ (2 <= length th)%nat /\ last psi 0 <> 0 /\
  ascending (map (fun v => Rabs (v / last psi 0)) psi) /\ ascending th /\
  forall interp, exists f, luke_load nat interp m None = Ok f /\ nm_sep R nat f = Some (triangle_wall 3).
Proof.
  set (a := MArray 4 2 (repeat 1 8)).
  set (b := MArray 4 4 (repeat 1 16)). assert (SB : stored b 4 4 (fun _ _ => 1)) by (repeat split; intros [|[|[|[|j]]]] [|[|[|[|i]]]] Hj Hi; try lia; reflexivity).
  set (lx := [0; -1; 0; 1; 0; 0; 0; -1]). set (ly := [0; -1; 0; -1; 0; 2; 0; -1]).
  set (px := MArray 4 2 lx). set (py := MArray 4 2 ly).
  assert (SX : forall l, length l = 8%nat -> stored (MArray 4 2 l) 4 2 (fun i j => nth (i * 2 + j) l 0)).
  { intros l L. repeat split; [exact L|]. intros j i Hj Hi. cbn [ma_data]. apply nth_error_nth'. lia. }
  set (m := LFile nat (Some 7%nat) (Some 2) (Some 0) (Some [-1; 0; 1; 2]) (Some [-1; 0; 1; 2]) (Some b) (Some (-3)) (Some [0; -4]) (Some [0; 1; 2; 3]) (Some a) (Some a) (Some a) (Some px) (Some py)).
  assert (AS2 : forall x y, x < y -> ascending [x; y]) by (intros x y L [|[|i]] [|[|j]] u v H E1 E2; try lia; cbn in *; try (destruct i; discriminate E1); try (destruct j; discriminate E2); injection E1 as <-; injection E2 as <-; exact L).
  assert (AS : forall l, increasing l = true -> ascending l) by (intros l H; apply increasing_ok; exact H).
  assert (LT : forall x y, x < y -> Rltb x y = true) by (intros x y L; unfold Rltb; destruct (Rlt_dec x y); [reflexivity|contradiction]).
  assert (D : luke_describes m 7%nat 2 0 [-1; 0; 1; 2] [-1; 0; 1; 2] (fun _ _ => 1) (-3) [0; -4] [0; 1; 2; 3] a a a (fun i j => nth (i * 2 + j) lx 0) (fun i j => nth (i * 2 + j) ly 0)).
  { unfold luke_describes. cbn [m l_id l_Rp l_Zp l_x l_y l_psin l_psia l_psi l_theta l_Bx l_By l_Bphi l_ptx l_pty]. repeat (split; [reflexivity|]).
    split; [exists b; split; [reflexivity|exact SB]|]. repeat (split; [reflexivity|]). split; [intros c [->|[->| ->]]; split; reflexivity|].
    exists px, py. split; [reflexivity|]. split; [reflexivity|]. split; apply SX; reflexivity. }
  assert (P1 : (2 <= length [0; -4]%R)%nat) by (cbn; lia). assert (P2 : (2 <= length [0; 1; 2; 3]%R)%nat) by (cbn; lia). assert (P3 : last [0; -4] 0 <> 0) by (cbn; lra).
  assert (P4 : ascending (map (fun v => Rabs (v / last [0; -4] 0)) [0; -4])).
  { cbn [map last]. apply AS2. replace (0 / -4) with 0 by field. replace (-4 / -4) with 1 by field. rewrite Rabs_R0, Rabs_R1. lra. }
  assert (P5 : ascending [0; 1; 2; 3]) by (apply AS; cbn [increasing]; rewrite !LT by lra; reflexivity).
  exists m, (fun _ _ => 1), a, a, a. eexists. eexists. exists [0; -4], [0; 1; 2; 3]. split; [exact D|]. do 5 (split; [assumption|]). intro interp.
  destruct (C81_load nat interp m _ _ _ _ _ _ _ _ _ _ _ _ _ _ None None D ltac:(discriminate) Logic.I P1 P2 P3 P4 P5) as (Br & Bphi & Bz & Psi & sep & _ & _ & _ & _ & SE & ->).
  assert (SE' : sep = triangle_wall 3).
  { rewrite SE. cbn [length seq map Nat.sub Nat.mul Nat.add nth lx ly]. unfold triangle_wall. repeat (f_equal; [f_equal; lra|]). f_equal. f_equal; lra. }
  clear SE. subst sep. eexists. split; [apply init_fwd; [left; discriminate|exact tri_domain_sep| |]|reflexivity];
  apply bicubic_ok; unfold bicubic; cbn [map length Nat.leb rising]; rewrite !LT by lra; reflexivity.
Qed.
