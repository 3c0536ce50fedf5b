From Coq Require Import Reals Lra Lia.
From Verif Require Import Base DomainModel AnalyticalModel AnalyticalSpec AnalyticalProofs AnalyticalProps FieldLineSpec.
Local Open Scope R_scope.

Lemma sum_sq : forall a b, 0 <= a * a + b * b.
Proof. intros. pose proof (Rle_0_sqr a). pose proof (Rle_0_sqr b). unfold Rsqr in *. lra. Qed.
Lemma constant_between : forall (F : R -> R) a b, a <= b -> (forall s, a <= s <= b -> derivable_pt_lim F s 0) -> F b = F a.
Proof.
  intros F a b H D. destruct (Rle_lt_or_eq_dec a b H) as [L | ->]; [| reflexivity].
  destruct (MVT_cor2 F (fun _ => 0) a b L D) as (c & Q & _). lra.
Qed.
Lemma major_pos : forall x y, major x y <> 0 -> 0 < x * x + y * y.
Proof.
  intros x y H. destruct (Rle_lt_or_eq_dec 0 (x * x + y * y)) as [L | E]; [nra | exact L |].
  exfalso. apply H. unfold major. rewrite <- E. apply sqrt_0.
Qed.
Lemma major_sq : forall x y, major x y * major x y = x * x + y * y.
Proof. intros. unfold major. apply sqrt_sqrt. nra. Qed.
Lemma major_deriv : forall x y s u v, major (x s) (y s) <> 0 -> derivable_pt_lim x s u -> derivable_pt_lim y s v ->
  derivable_pt_lim (fun t => major (x t) (y t)) s ((x s * u + y s * v) / major (x s) (y s)).
Proof.
  intros x y s u v H Du Dv. pose proof (major_pos _ _ H) as P.
  replace ((x s * u + y s * v) / major (x s) (y s)) with (/ (2 * sqrt (x s * x s + y s * y s)) * ((u * x s + x s * u) + (v * y s + y s * v))).
  - apply (derivable_pt_lim_comp (fun t => x t * x t + y t * y t) sqrt s).
    + apply (derivable_pt_lim_plus (fun t => x t * x t) (fun t => y t * y t) s).
      * exact (derivable_pt_lim_mult x x s u u Du Du).
      * exact (derivable_pt_lim_mult y y s v v Dv Dv).
    + apply derivable_pt_lim_sqrt. exact P.
  - fold (major (x s) (y s)). field. exact H.
Qed.

(** What a field line does, by components. *)
Lemma line_velocity : forall f x y z s0 s1 s, field_line f x y z s0 s1 -> s0 <= s <= s1 ->
  exists q k, safety_factor f (minor f (x s) (y s) (z s)) = Some q /\ q <> 0 /\ major (x s) (y s) <> 0 /\ a_Rm f <> 0 /\
    derivable_pt_lim (fun t => major (x t) (y t)) s (k * (a_sI f * a_B0 f * (z s - a_zax f) / (q * major (x s) (y s)))) /\
    derivable_pt_lim z s (k * (a_sI f * a_B0 f * (a_Rm f - major (x s) (y s)) / (q * major (x s) (y s)))) /\
    (exists u v, derivable_pt_lim x s u /\ derivable_pt_lim y s v /\ x s * v - y s * u = k * (a_sB f * a_B0 f * a_Rm f)).
Proof.
  intros f x y z s0 s1 s L B. destruct (L s B) as (b & k & E & Dx & Dy & Dz).
  destruct (proj1 (C49_defined f (x s) (y s) (z s)) (ex_intro _ b E)) as (M & Rm & q & Q & Q0).
  destruct (C49_value f _ _ _ b q E Q) as (V1 & V2 & V3).
  exists q, k. split; [exact Q|]. split; [exact Q0|]. split; [exact M|]. split; [exact Rm|]. split; [|split].
  - replace (k * (a_sI f * a_B0 f * (z s - a_zax f) / (q * major (x s) (y s)))) with ((x s * (k * c0 b) + y s * (k * c1 b)) / major (x s) (y s)).
    + apply major_deriv; assumption.
    + replace (x s * (k * c0 b) + y s * (k * c1 b)) with (k * (c0 b * x s + c1 b * y s)) by ring. rewrite V1. field. split; assumption.
  - rewrite <- V3. exact Dz.
  - exists (k * c0 b), (k * c1 b). split; [exact Dx|]. split; [exact Dy|].
    replace (x s * (k * c1 b) - y s * (k * c0 b)) with (k * (c1 b * x s - c0 b * y s)) by ring. rewrite V2. field. exact M.
Qed.

Lemma minor_constant : forall f x y z s0 s1, s0 <= s1 -> field_line f x y z s0 s1 ->
  minor f (x s1) (y s1) (z s1) = minor f (x s0) (y s0) (z s0).
Proof.
  intros f x y z s0 s1 H L. unfold minor. f_equal.
  apply (constant_between (fun t => (a_Rm f - major (x t) (y t)) * (a_Rm f - major (x t) (y t)) + (z t - a_zax f) * (z t - a_zax f)) s0 s1 H).
  intros s B. destruct (line_velocity f x y z s0 s1 s L B) as (q & k & Q & Q0 & M & Rm & DR & DZ & _).
  set (u := k * (a_sI f * a_B0 f * (z s - a_zax f) / (q * major (x s) (y s)))) in *.
  set (w := k * (a_sI f * a_B0 f * (a_Rm f - major (x s) (y s)) / (q * major (x s) (y s)))) in *.
  assert (D1 : derivable_pt_lim (fun t => a_Rm f - major (x t) (y t)) s (0 - u)).
  { apply (derivable_pt_lim_minus (fun _ => a_Rm f) (fun t => major (x t) (y t)) s 0 u); [apply derivable_pt_lim_const | exact DR]. }
  assert (D2 : derivable_pt_lim (fun t => z t - a_zax f) s (w - 0)).
  { apply (derivable_pt_lim_minus z (fun _ => a_zax f) s w 0); [exact DZ | apply derivable_pt_lim_const]. }
  replace 0 with (((0 - u) * (a_Rm f - major (x s) (y s)) + (a_Rm f - major (x s) (y s)) * (0 - u)) +
                  ((w - 0) * (z s - a_zax f) + (z s - a_zax f) * (w - 0))).
  - apply (derivable_pt_lim_plus (fun t => (a_Rm f - major (x t) (y t)) * (a_Rm f - major (x t) (y t))) (fun t => (z t - a_zax f) * (z t - a_zax f)) s).
    + exact (derivable_pt_lim_mult _ _ s _ _ D1 D1).
    + exact (derivable_pt_lim_mult _ _ s _ _ D2 D2).
  - unfold u, w. field. split; assumption.
Qed.

(** The integral of 1/(Rm + r cos theta). *)
Definition gturn (Rm r th : R) : R :=
  (th - 2 * atan (r * sin th / (Rm + sqrt (Rm * Rm - r * r) + r * cos th))) / sqrt (Rm * Rm - r * r).
Lemma ring_pos : forall Rm r th, 0 <= r < Rm -> 0 < Rm + r * cos th.
Proof. intros. pose proof (COS_bound th). nra. Qed.
Lemma gturn_deriv : forall Rm r th, 0 <= r < Rm -> derivable_pt_lim (gturn Rm r) th (/ (Rm + r * cos th)).
Proof.
  intros Rm r th H. pose proof (ring_pos Rm r th H) as P. pose proof (COS_bound th) as CB.
  set (d := sqrt (Rm * Rm - r * r)).
  assert (Pd : 0 < d) by (apply sqrt_lt_R0; nra).
  assert (Sd : d * d = Rm * Rm - r * r) by (apply sqrt_sqrt; nra).
  assert (PD : 0 < Rm + d + r * cos th) by lra.
  assert (SC : sin th * sin th + cos th * cos th = 1) by (pose proof (sin2_cos2 th) as Q; unfold Rsqr in Q; exact Q).
  assert (Du : derivable_pt_lim (fun t => r * sin t / (Rm + d + r * cos t)) th
     ((r * cos th * (Rm + d + r * cos th) - (r * - sin th) * (r * sin th)) / Rsqr (Rm + d + r * cos th))).
  { apply (derivable_pt_lim_div (fun t => r * sin t) (fun t => Rm + d + r * cos t) th).
    - apply (derivable_pt_lim_scal sin r th). apply derivable_pt_lim_sin.
    - replace (r * - sin th) with (0 + r * - sin th) by ring.
      apply (derivable_pt_lim_plus (fun _ => Rm + d) (fun t => r * cos t) th); [apply derivable_pt_lim_const|].
      apply (derivable_pt_lim_scal cos r th). apply derivable_pt_lim_cos.
    - lra. }
  pose proof (derivable_pt_lim_comp (fun t => r * sin t / (Rm + d + r * cos t)) atan th _ _ Du
     (derivable_pt_lim_atan _)) as Da.
  pose proof (derivable_pt_lim_scal _ 2 th _ Da) as D2.
  pose proof (derivable_pt_lim_minus id _ th _ _ (derivable_pt_lim_id th) D2) as D3.
  pose proof (derivable_pt_lim_scal _ (/ d) th _ D3) as D4.
  match type of D4 with derivable_pt_lim _ _ ?l => replace (/ (Rm + r * cos th)) with l end.
  - intros eps He. destruct (D4 eps He) as (delta & Hd). exists delta. intros h Hh Hs. specialize (Hd h Hh Hs).
    unfold mult_real_fct, minus_fct, comp, id in Hd.
    assert (E : forall u, gturn Rm r u = / d * (u - 2 * atan (r * sin u / (Rm + d + r * cos u)))).
    { intros u. unfold gturn. fold d. unfold Rdiv. ring. }
    rewrite !E. exact Hd.
  - set (D := Rm + d + r * cos th) in *.
    assert (N : D * D + (r * sin th) * (r * sin th) = 2 * (Rm + d) * (Rm + r * cos th)).
    { replace ((r * sin th) * (r * sin th)) with (r * r * (sin th * sin th)) by ring.
      replace (sin th * sin th) with (1 - cos th * cos th) by lra.
      replace (r * r) with (Rm * Rm - d * d) by lra. unfold D. 
      replace ((Rm + d + r * cos th) * (Rm + d + r * cos th)) with ((Rm + d) * (Rm + d) + 2 * (Rm + d) * (r * cos th) + (r * r) * (cos th * cos th)) by ring.
      replace (r * r) with (Rm * Rm - d * d) by lra. ring. }
    replace (1 + (r * sin th / D) ^ 2) with (2 * (Rm + d) * (Rm + r * cos th) / (D * D)) by (rewrite <- N; field; lra).
    replace (r * cos th * D - r * - sin th * (r * sin th)) with (r * cos th * (Rm + d) + r * r).
    + unfold Rsqr. 
      assert (K : r * r = Rm * Rm - d * d) by lra.
      apply (Rmult_eq_reg_r (Rm + r * cos th)); [|lra].
      rewrite Rinv_l by lra.
      transitivity (/ d * ((Rm + r * cos th) - (r * cos th * (Rm + d) + r * r) / (Rm + d))).
      * field. repeat split; lra.
      * rewrite K. field. split; lra.
    + unfold D. replace (r * r) with (r * r * (sin th * sin th + cos th * cos th)) by (rewrite SC; ring). ring.
Qed.
Lemma gturn_period : forall Rm r th (n : Z), gturn Rm r (th + 2 * PI * IZR n) = gturn Rm r th + 2 * PI * IZR n / sqrt (Rm * Rm - r * r).
Proof.
  intros. unfold gturn.
  assert (S1 : forall (k : nat) t, sin (t + 2 * PI * INR k) = sin t /\ cos (t + 2 * PI * INR k) = cos t).
  { intros k t. replace (2 * PI * INR k) with (2 * INR k * PI) by ring. split; [apply sin_period | apply cos_period]. }
  assert (S2 : sin (th + 2 * PI * IZR n) = sin th /\ cos (th + 2 * PI * IZR n) = cos th).
  { destruct (Z_le_gt_dec 0 n) as [L | L].
    - destruct (IZN n L) as (k & ->). rewrite <- INR_IZR_INZ. apply S1.
    - destruct (IZN (- n) ltac:(lia)) as (k & E). destruct (S1 k (th + 2 * PI * IZR n)) as (A & B).
      rewrite INR_IZR_INZ, <- E, opp_IZR in A, B.
      replace (th + 2 * PI * IZR n + 2 * PI * - IZR n) with th in A, B by ring. split; symmetry; assumption. }
  destruct S2 as (-> & ->). unfold Rdiv. ring.
Qed.

Lemma torus_place : forall f r theta phi x y z s, 0 <= r < a_Rm f -> on_torus f r theta phi x y z ->
  major (x s) (y s) = a_Rm f + r * cos (theta s) /\ minor f (x s) (y s) (z s) = r.
Proof.
  intros f r theta phi x y z s Hr T. destruct (T s) as (X & Y & Zs & _).
  pose proof (ring_pos (a_Rm f) r (theta s) Hr) as P.
  assert (M : major (x s) (y s) = a_Rm f + r * cos (theta s)).
  { unfold major. rewrite X, Y. apply sqrt_lem_1; [apply sum_sq | lra |].
    pose proof (sin2_cos2 (phi s)) as Q. unfold Rsqr in Q.
    transitivity ((a_Rm f + r * cos (theta s)) * (a_Rm f + r * cos (theta s)) * (sin (phi s) * sin (phi s) + cos (phi s) * cos (phi s))); [rewrite Q; ring | ring]. }
  split; [exact M|]. unfold minor. rewrite M, Zs.
  pose proof (sin2_cos2 (theta s)) as Q. unfold Rsqr in Q.
  apply sqrt_lem_1; [apply sum_sq | lra |].
  transitivity (r * r * (sin (theta s) * sin (theta s) + cos (theta s) * cos (theta s))); [rewrite Q; ring | ring].
Qed.


Lemma deriv_ext : forall (F G : R -> R) s l, (forall t, F t = G t) -> derivable_pt_lim F s l -> derivable_pt_lim G s l.
Proof.
  intros F G s l E D eps He. destruct (D eps He) as (d & H). exists d. intros h Hh Hs. rewrite <- !E. exact (H h Hh Hs).
Qed.
Lemma cos_along : forall (g : R -> R) s d, derivable_pt_lim g s d -> derivable_pt_lim (fun t => cos (g t)) s (- sin (g s) * d).
Proof. intros g s d D. apply (derivable_pt_lim_comp g cos s d (- sin (g s)) D). apply derivable_pt_lim_cos. Qed.
Lemma sin_along : forall (g : R -> R) s d, derivable_pt_lim g s d -> derivable_pt_lim (fun t => sin (g t)) s (cos (g s) * d).
Proof. intros g s d D. apply (derivable_pt_lim_comp g sin s d (cos (g s)) D). apply derivable_pt_lim_sin. Qed.
Lemma ring_along : forall (c r : R) (g : R -> R) s d, derivable_pt_lim g s d -> derivable_pt_lim (fun t => c + r * g t) s (r * d).
Proof.
  intros c r g s d D. replace (r * d) with (0 + r * d) by ring.
  apply (derivable_pt_lim_plus (fun _ => c) (fun t => r * g t) s 0 (r * d)); [apply derivable_pt_lim_const|].
  exact (derivable_pt_lim_scal g r s d D).
Qed.
(** Velocity of a curve given by its angles. *)
Lemma torus_velocity : forall Rm r zax (theta phi : R -> R) s t' p', derivable_pt_lim theta s t' -> derivable_pt_lim phi s p' ->
  let W := Rm + r * cos (theta s) in
  derivable_pt_lim (fun t => (Rm + r * cos (theta t)) * cos (phi t)) s (r * (- sin (theta s) * t') * cos (phi s) + W * (- sin (phi s) * p')) /\
  derivable_pt_lim (fun t => (Rm + r * cos (theta t)) * sin (phi t)) s (r * (- sin (theta s) * t') * sin (phi s) + W * (cos (phi s) * p')) /\
  derivable_pt_lim (fun t => zax + r * sin (theta t)) s (r * (cos (theta s) * t')) /\
  derivable_pt_lim (fun t => Rm + r * cos (theta t)) s (r * (- sin (theta s) * t')).
Proof.
  intros Rm r zax theta phi s t' p' Dt Dp W.
  pose proof (ring_along Rm r _ s _ (cos_along theta s t' Dt)) as D1.
  split; [|split; [|split]].
  - exact (derivable_pt_lim_mult (fun t => Rm + r * cos (theta t)) (fun t => cos (phi t)) s _ _ D1 (cos_along phi s p' Dp)).
  - exact (derivable_pt_lim_mult (fun t => Rm + r * cos (theta t)) (fun t => sin (phi t)) s _ _ D1 (sin_along phi s p' Dp)).
  - exact (ring_along zax r _ s _ (sin_along theta s t' Dt)).
  - exact D1.
Qed.

Lemma line_angles : forall f r q theta phi x y z s0 s1 s t' p', is_sign (a_sI f) -> 0 < r < a_Rm f -> safety_factor f r = Some q ->
  field_line f x y z s0 s1 -> on_torus f r theta phi x y z -> s0 <= s <= s1 ->
  derivable_pt_lim theta s t' -> derivable_pt_lim phi s p' ->
  p' = - (a_sB f * a_sI f * q * a_Rm f / (a_Rm f + r * cos (theta s))) * t'.
Proof.
  intros f r q theta phi x y z s0 s1 s t' p' SI Hr Q L T B Dt Dp.
  destruct (line_velocity f x y z s0 s1 s L B) as (q' & k & Q' & Q0 & M & Rm & DR & DZ & u & v & Dx & Dy & UV).
  destruct (torus_place f r theta phi x y z s ltac:(lra) T) as (EM & Em).
  rewrite Em, Q in Q'. injection Q' as <-.
  destruct (torus_velocity (a_Rm f) r (a_zax f) theta phi s t' p' Dt Dp) as (E1 & E2 & E3 & E4).
  pose proof (ring_pos (a_Rm f) r (theta s) ltac:(lra)) as P.
  set (W := a_Rm f + r * cos (theta s)) in *.
  pose proof (uniqueness_limite _ _ _ _ Dx (deriv_ext _ _ s _ (fun t => eq_sym (proj1 (T t))) E1)) as Ux.
  pose proof (uniqueness_limite _ _ _ _ Dy (deriv_ext _ _ s _ (fun t => eq_sym (proj1 (proj2 (T t)))) E2)) as Uy.
  pose proof (uniqueness_limite _ _ _ _ DZ (deriv_ext _ _ s _ (fun t => eq_sym (proj1 (proj2 (proj2 (T t))))) E3)) as Uz.
  assert (E5 : derivable_pt_lim (fun t => major (x t) (y t)) s (r * (- sin (theta s) * t'))).
  { apply (deriv_ext (fun t => a_Rm f + r * cos (theta t))); [|exact E4]. intros t. symmetry.
    exact (proj1 (torus_place f r theta phi x y z t ltac:(lra) T)). }
  pose proof (uniqueness_limite _ _ _ _ DR E5) as Ur.
  destruct (T s) as (X & Y & Zs & _). fold W in X, Y.
  rewrite EM in Ur, Uz. rewrite Zs in Ur. clear Dx Dy DZ DR E1 E2 E3 E4 E5.
  pose proof (sin2_cos2 (theta s)) as C1. unfold Rsqr in C1.
  pose proof (sin2_cos2 (phi s)) as C2. unfold Rsqr in C2.
  assert (Kt : t' = - (k * (a_sI f * a_B0 f) / (q * W))).
  { apply (Rmult_eq_reg_l r); [|lra].
    transitivity (r * t' * (sin (theta s) * sin (theta s) + cos (theta s) * cos (theta s))); [rewrite C1; ring|].
    transitivity (- sin (theta s) * (r * (- sin (theta s) * t')) + cos (theta s) * (r * (cos (theta s) * t'))); [ring|].
    rewrite <- Ur, <- Uz. unfold W at 2. 
    transitivity (- (r * (k * (a_sI f * a_B0 f) / (q * W))) * (sin (theta s) * sin (theta s) + cos (theta s) * cos (theta s))); [|rewrite C1; ring].
    field. split; [lra | exact Q0]. }
  assert (Kp : p' = k * (a_sB f * a_B0 f * a_Rm f) / (W * W)).
  { apply (Rmult_eq_reg_l (W * W)); [|nra].
    transitivity (W * W * p' * (sin (phi s) * sin (phi s) + cos (phi s) * cos (phi s))); [rewrite C2; ring|].
    transitivity (x s * v - y s * u).
    - rewrite X, Y, Ux, Uy. ring.
    - rewrite UV. field. lra. }
  rewrite Kt, Kp.
  assert (S2 : a_sI f * a_sI f = 1) by (destruct SI as [-> | ->]; ring).
  transitivity (k * (a_sB f * a_B0 f * a_Rm f) / (W * W) * (a_sI f * a_sI f)); [rewrite S2; ring|].
  field. split; [lra | exact Q0].
Qed.
Lemma line_turn : forall f r q theta phi x y z s0 s1, is_sign (a_sI f) -> 0 < r < a_Rm f -> safety_factor f r = Some q ->
  s0 <= s1 -> field_line f x y z s0 s1 -> on_torus f r theta phi x y z ->
  phi s1 - phi s0 = - (a_sB f * a_sI f * q * a_Rm f) * (gturn (a_Rm f) r (theta s1) - gturn (a_Rm f) r (theta s0)).
Proof.
  intros f r q theta phi x y z s0 s1 SI Hr Q H L T.
  assert (E : phi s1 + (a_sB f * a_sI f * q * a_Rm f) * gturn (a_Rm f) r (theta s1) = phi s0 + (a_sB f * a_sI f * q * a_Rm f) * gturn (a_Rm f) r (theta s0)).
  { apply (constant_between (fun t => phi t + (a_sB f * a_sI f * q * a_Rm f) * gturn (a_Rm f) r (theta t)) s0 s1 H).
    intros s B. destruct (T s) as (_ & _ & _ & (t' & Dt) & (p' & Dp)).
    pose proof (line_angles f r q theta phi x y z s0 s1 s t' p' SI Hr Q L T B Dt Dp) as E.
    replace 0 with (p' + a_sB f * a_sI f * q * a_Rm f * (/ (a_Rm f + r * cos (theta s)) * t')).
    - apply (derivable_pt_lim_plus phi (fun t => a_sB f * a_sI f * q * a_Rm f * gturn (a_Rm f) r (theta t)) s); [exact Dp|].
      apply (derivable_pt_lim_scal (fun t => gturn (a_Rm f) r (theta t)) (a_sB f * a_sI f * q * a_Rm f) s).
      apply (derivable_pt_lim_comp theta (gturn (a_Rm f) r) s t' _ Dt). apply gturn_deriv. lra.
    - rewrite E. field. pose proof (ring_pos (a_Rm f) r (theta s)). lra. }
  lra.
Qed.
Lemma turns_value : forall Rm r q, 0 < r < Rm -> q / sqrt (1 - (r / Rm) * (r / Rm)) = q * Rm / sqrt (Rm * Rm - r * r).
Proof.
  intros Rm r q H.
  replace (Rm * Rm - r * r) with (Rm * Rm * (1 - (r / Rm) * (r / Rm))) by (field; lra).
  assert (0 < 1 - (r / Rm) * (r / Rm)).
  { replace (1 - (r / Rm) * (r / Rm)) with ((Rm * Rm - r * r) * / (Rm * Rm)) by (field; lra).
    apply Rmult_lt_0_compat; [nra | apply Rinv_0_lt_compat; nra]. }
  rewrite sqrt_mult by nra. rewrite sqrt_square by lra.
  assert (0 < sqrt (1 - (r / Rm) * (r / Rm))) by (apply sqrt_lt_R0; assumption).
  field. split; lra.
Qed.

(** Field lines through every point of the torus. *)
Lemma line_exists : forall f r q th0 ph0, is_sign (a_sI f) -> a_B0 f <> 0 -> 0 < r < a_Rm f -> safety_factor f r = Some q -> q <> 0 ->
  exists theta phi x y z, theta 0 = th0 /\ phi 0 = ph0 /\ (forall s, theta s = th0 + s) /\ on_torus f r theta phi x y z /\
    forall s0 s1, field_line f x y z s0 s1.
Proof.
  intros f r q th0 ph0 SI B0 Hr Q Q0.
  set (K := a_sB f * a_sI f * q * a_Rm f).
  set (theta := fun s : R => th0 + s).
  set (phi := fun s : R => ph0 - K * (gturn (a_Rm f) r (theta s) - gturn (a_Rm f) r th0)).
  exists theta, phi, (fun s => (a_Rm f + r * cos (theta s)) * cos (phi s)), (fun s => (a_Rm f + r * cos (theta s)) * sin (phi s)), (fun s => a_zax f + r * sin (theta s)).
  assert (Dt : forall s, derivable_pt_lim theta s 1).
  { intros s. replace 1 with (0 + 1) by ring. apply (derivable_pt_lim_plus (fun _ => th0) id s); [apply derivable_pt_lim_const | apply derivable_pt_lim_id]. }
  assert (Dp : forall s, derivable_pt_lim phi s (- (K / (a_Rm f + r * cos (theta s))))).
  { intros s. replace (- (K / (a_Rm f + r * cos (theta s)))) with (0 - K * ((/ (a_Rm f + r * cos (theta s)) * 1) - 0)) by (unfold Rdiv; ring).
    apply (derivable_pt_lim_minus (fun _ => ph0) (fun s => K * (gturn (a_Rm f) r (theta s) - gturn (a_Rm f) r th0)) s); [apply derivable_pt_lim_const|].
    apply (derivable_pt_lim_scal (fun s => gturn (a_Rm f) r (theta s) - gturn (a_Rm f) r th0) K s).
    apply (derivable_pt_lim_minus (fun s => gturn (a_Rm f) r (theta s)) (fun _ => gturn (a_Rm f) r th0) s); [|apply derivable_pt_lim_const].
    apply (derivable_pt_lim_comp theta (gturn (a_Rm f) r) s 1 _ (Dt s)). apply gturn_deriv. lra. }
  assert (T : on_torus f r theta phi (fun s => (a_Rm f + r * cos (theta s)) * cos (phi s)) (fun s => (a_Rm f + r * cos (theta s)) * sin (phi s)) (fun s => a_zax f + r * sin (theta s))).
  { intros s. split; [reflexivity|]. split; [reflexivity|]. split; [reflexivity|]. split; [exists 1; apply Dt | eexists; apply Dp]. }
  split; [unfold theta; ring|]. split; [unfold phi, theta; replace (th0 + 0) with th0 by ring; ring|]. split; [reflexivity|]. split; [exact T|].
  intros s0 s1 s _.
  destruct (torus_place f r theta phi _ _ _ s ltac:(lra) T) as (EM & Em).
  pose proof (ring_pos (a_Rm f) r (theta s) ltac:(lra)) as P.
  destruct (torus_velocity (a_Rm f) r (a_zax f) theta phi s 1 _ (Dt s) (Dp s)) as (E1 & E2 & E3 & _).
  set (W := a_Rm f + r * cos (theta s)) in *.
  destruct (proj2 (C49_defined f (W * cos (phi s)) (W * sin (phi s)) (a_zax f + r * sin (theta s)))) as (b & E).
  { rewrite EM, Em. split; [lra|]. split; [lra|]. exists q. split; assumption. }
  destruct (C49_value f _ _ _ b q E ltac:(rewrite Em; exact Q)) as (V1 & V2 & V3). rewrite EM in V1, V2, V3.
  exists b, (- (a_sI f * q * W / a_B0 f)). split; [exact E|].
  pose proof (sin2_cos2 (phi s)) as C2. unfold Rsqr in C2.
  assert (S2 : a_sI f * a_sI f = 1) by (destruct SI as [-> | ->]; ring).
  assert (A0 : c0 b = a_sI f * a_B0 f * (r * sin (theta s)) / (q * W) * cos (phi s) - a_sB f * a_B0 f * a_Rm f / W * sin (phi s)).
  { apply (Rmult_eq_reg_l W); [|lra].
    transitivity (W * c0 b * (sin (phi s) * sin (phi s) + cos (phi s) * cos (phi s))); [rewrite C2; ring|].
    transitivity ((c0 b * (W * cos (phi s)) + c1 b * (W * sin (phi s))) * cos (phi s) - (c1 b * (W * cos (phi s)) - c0 b * (W * sin (phi s))) * sin (phi s)); [ring|].
    rewrite V1, V2. field. split; [lra | exact Q0]. }
  assert (A1 : c1 b = a_sI f * a_B0 f * (r * sin (theta s)) / (q * W) * sin (phi s) + a_sB f * a_B0 f * a_Rm f / W * cos (phi s)).
  { apply (Rmult_eq_reg_l W); [|lra].
    transitivity (W * c1 b * (sin (phi s) * sin (phi s) + cos (phi s) * cos (phi s))); [rewrite C2; ring|].
    transitivity ((c0 b * (W * cos (phi s)) + c1 b * (W * sin (phi s))) * sin (phi s) + (c1 b * (W * cos (phi s)) - c0 b * (W * sin (phi s))) * cos (phi s)); [ring|].
    rewrite V1, V2. field. split; [lra | exact Q0]. }
  split; [|split].
  - match type of E1 with derivable_pt_lim _ _ ?l => replace (- (a_sI f * q * W / a_B0 f) * c0 b) with l; [exact E1|] end.
    rewrite A0. unfold K.
    transitivity (- (r * sin (theta s) * cos (phi s)) * (a_sI f * a_sI f) + sin (phi s) * (a_sB f * a_sI f * q * a_Rm f)); [rewrite S2; field; lra|].
    field. repeat split; try lra; assumption.
  - match type of E2 with derivable_pt_lim _ _ ?l => replace (- (a_sI f * q * W / a_B0 f) * c1 b) with l; [exact E2|] end.
    rewrite A1. unfold K.
    transitivity (- (r * sin (theta s) * sin (phi s)) * (a_sI f * a_sI f) - cos (phi s) * (a_sB f * a_sI f * q * a_Rm f)); [rewrite S2; field; lra|].
    field. repeat split; try lra; assumption.
  - match type of E3 with derivable_pt_lim _ _ ?l => replace (- (a_sI f * q * W / a_B0 f) * c2 b) with l; [exact E3|] end.
    rewrite V3. 
    transitivity (r * cos (theta s) * (a_sI f * a_sI f)); [rewrite S2; ring|]. unfold W at 2. 
    field. repeat split; try lra; assumption.
Qed.
