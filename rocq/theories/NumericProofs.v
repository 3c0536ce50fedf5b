(** Proofs about the numeric field. *)
From Coq Require Import Reals Lra Lia.
From Coquelicot Require Import Coquelicot.
From Verif Require Import Base DomainModel AnalyticalModel AnalyticalSpec AnalyticalProofs NumericModel NumericSpec.
Local Open Scope R_scope.
Set Bullet Behavior "Strict Subproofs".

Lemma clamp_in : forall lo hi x, lo <= x <= hi -> clamp lo hi x = x.
Proof. intros lo hi x H. unfold clamp. destruct (Rlt_dec x lo); [lra|]. destruct (Rlt_dec hi x); [lra|reflexivity]. Qed.
Lemma clamp_low : forall lo hi x, x < lo -> clamp lo hi x = lo.
Proof. intros lo hi x H. unfold clamp. destruct (Rlt_dec x lo); [reflexivity|lra]. Qed.
Lemma clamp_high : forall lo hi x, lo <= hi -> hi < x -> clamp lo hi x = hi.
Proof. intros lo hi x L H. unfold clamp. destruct (Rlt_dec x lo); [lra|]. destruct (Rlt_dec hi x); [reflexivity|lra]. Qed.

Lemma chain : forall F (a b : R -> R) lr lz da db, total_derivative F (a 0) (b 0) lr lz -> is_derive a 0 da -> is_derive b 0 db ->
  is_derive (fun t => F (a t) (b t)) 0 (lr * da + lz * db).
Proof.
  intros F a b lr lz da db T A B. apply is_derive_Reals in A. apply is_derive_Reals in B. apply is_derive_Reals.
  apply derivable_pt_lim_comp_2d; [|exact A|exact B]. intros [eps He]. destruct (T eps He) as (d & Hd & L). exists (mkposreal d Hd). intros u v Hu Hv. simpl in *.
  assert (X := L (u - a 0) (v - b 0) Hu Hv). replace (a 0 + (u - a 0)) with u in X by ring. replace (b 0 + (v - b 0)) with v in X by ring. exact X.
Qed.
Lemma locally_between : forall (g : R -> R) l lo hi, is_derive g 0 l -> lo < g 0 < hi -> locally 0 (fun t => lo < g t < hi).
Proof.
  intros g l lo hi D B. assert (C := deriv_continuous g 0 l D). apply continuity_pt_filterlim in C.
  assert (P : 0 < Rmin (g 0 - lo) (hi - g 0)) by (apply Rmin_glb_lt; lra).
  destruct (C _ P) as (d & Hd & L). exists (mkposreal d Hd). intros t Ht.
  assert (Q : Rabs (g t - g 0) < Rmin (g 0 - lo) (hi - g 0)).
  { destruct (Req_EM_T t 0) as [->|N]; [rewrite Rminus_diag_eq by reflexivity; rewrite Rabs_R0; exact P|].
    apply (L t). split; [split; [exact I|intro E; apply N; symmetry; exact E]|exact Ht]. }
  assert (M1 := Rmin_l (g 0 - lo) (hi - g 0)). assert (M2 := Rmin_r (g 0 - lo) (hi - g 0)). apply Rabs_def2 in Q. lra.
Qed.

Section Path.
  Variables (f : nfield) (x y z u v w : R).
  Hypothesis NR : major x y <> 0.
  Hypothesis HI : interior f x y z.
  Let Rf := fun t => hypot (x + t * u) (y + t * v).
  Let Zf := fun t => z + t * w.
  Lemma path_R0 : Rf 0 = major x y.
  Proof. unfold Rf, hypot, major. f_equal. ring. Qed.
  Lemma path_Z0 : Zf 0 = z.
  Proof. unfold Zf. ring. Qed.
  Lemma path_DR : is_derive Rf 0 ((x * u + y * v) / major x y).
  Proof. exact (path_dR x y u v NR). Qed.
  Lemma path_DZ : is_derive Zf 0 w.
  Proof. unfold Zf. auto_derive; [exact I|ring]. Qed.
  Lemma path_eval : locally 0 (fun t => Rf t <> 0 /\ eval_num f (x + t * u) (y + t * v) (z + t * w) =
    (s_val (n_Br f) (Rf t) (Zf t) * ((x + t * u) / Rf t) - s_val (n_Bphi f) (Rf t) (Zf t) * ((y + t * v) / Rf t),
     s_val (n_Br f) (Rf t) (Zf t) * ((y + t * v) / Rf t) + s_val (n_Bphi f) (Rf t) (Zf t) * ((x + t * u) / Rf t),
     s_val (n_Bz f) (Rf t) (Zf t))).
  Proof.
    destruct HI as [H1 H2].
    assert (L1 : locally 0 (fun t => n_rmin f < Rf t < n_rmax f)) by (apply (locally_between Rf _ _ _ path_DR); rewrite path_R0; exact H1).
    assert (L2 : locally 0 (fun t => n_zmin f < Zf t < n_zmax f)) by (apply (locally_between Zf _ _ _ path_DZ); rewrite path_Z0; exact H2).
    assert (L3 : locally 0 (fun t => Rf t <> 0)) by (apply (locally_nonzero Rf 0 (deriv_continuous _ _ _ path_DR)); rewrite path_R0; exact NR).
    generalize (filter_and _ _ (filter_and _ _ L1 L2) L3). apply filter_imp. intros t [[A B] C]. split; [exact C|].
    unfold eval_num. rewrite (clamp_in (n_rmin f) (n_rmax f)) by (fold (Rf t); lra). rewrite (clamp_in (n_zmin f) (n_zmax f)) by (fold (Zf t); lra).
    fold (Rf t). fold (Zf t). unfold angle_sin, angle_cos. destruct (Req_EM_T (Rf t) 0); [contradiction|reflexivity].
  Qed.
  Lemma path_s : forall s, smooth f s -> is_derive (fun t => s_val s (Rf t) (Zf t)) 0
    (s_dr s (major x y) z * ((x * u + y * v) / major x y) + s_dz s (major x y) z * w).
  Proof.
    intros s HS. destruct HI as [H1 H2]. assert (T := HS (major x y) z H1 H2). apply (chain (s_val s) Rf Zf); [rewrite path_R0, path_Z0; exact T|exact path_DR|exact path_DZ].
  Qed.
  Hypothesis SF : smooth_field f.
  Let br := s_val (n_Br f) (major x y) z.
  Let bp := s_val (n_Bphi f) (major x y) z.
  Let R0 := major x y.
  Lemma jacobian_inside :
    jacobian_num f x y z =
    ((x * x / (R0 * R0) * s_dr (n_Br f) R0 z + br * (y * y / (R0 * R0 * R0)) - x * y / (R0 * R0) * s_dr (n_Bphi f) R0 z + bp * (x * y / (R0 * R0 * R0)),
      x * y / (R0 * R0) * s_dr (n_Br f) R0 z - br * (x * y / (R0 * R0 * R0)) - y * y / (R0 * R0) * s_dr (n_Bphi f) R0 z - bp * (x * x / (R0 * R0 * R0)),
      x / R0 * s_dz (n_Br f) R0 z - y / R0 * s_dz (n_Bphi f) R0 z),
     (x * y / (R0 * R0) * s_dr (n_Br f) R0 z - br * (x * y / (R0 * R0 * R0)) + x * x / (R0 * R0) * s_dr (n_Bphi f) R0 z + bp * (y * y / (R0 * R0 * R0)),
      y * y / (R0 * R0) * s_dr (n_Br f) R0 z + br * (x * x / (R0 * R0 * R0)) + x * y / (R0 * R0) * s_dr (n_Bphi f) R0 z - bp * (x * y / (R0 * R0 * R0)),
      y / R0 * s_dz (n_Br f) R0 z + x / R0 * s_dz (n_Bphi f) R0 z),
     (x / R0 * s_dr (n_Bz f) R0 z, y / R0 * s_dr (n_Bz f) R0 z, s_dz (n_Bz f) R0 z)).
  Proof.
    destruct HI as [H1 H2]. unfold jacobian_num. change (hypot x y) with R0. rewrite (clamp_in (n_rmin f) (n_rmax f)) by (unfold R0; lra). rewrite (clamp_in (n_zmin f) (n_zmax f)) by lra.
    unfold angle_sin, angle_cos. destruct (Req_EM_T R0 0) as [E|_]; [unfold R0 in E; contradiction|].
    assert (P3 : forall a b c a' b' c' : R, a = a' -> b = b' -> c = c' -> (a, b, c) = (a', b', c')) by (intros; subst; reflexivity).
    assert (P33 : forall a b c a' b' c' : R * R * R, a = a' -> b = b' -> c = c' -> (a, b, c) = (a', b', c')) by (intros; subst; reflexivity).
    fold R0 in NR. unfold br, bp. fold R0. apply P33; apply P3; try reflexivity; field; exact NR.
  Qed.
  Lemma jacobian_true :
    let '(j0, j1, j2) := jacobian_num f x y z in
    deriv_along (component c0 (field_of f)) x y z u v w (dot3 j0 (u, v, w)) /\
    deriv_along (component c1 (field_of f)) x y z u v w (dot3 j1 (u, v, w)) /\
    deriv_along (component c2 (field_of f)) x y z u v w (dot3 j2 (u, v, w)).
  Proof.
    rewrite jacobian_inside. destruct SF as (S1 & S2 & S3).
    assert (D1 := path_s (n_Br f) S1). assert (D2 := path_s (n_Bphi f) S2). assert (D3 := path_s (n_Bz f) S3).
    set (A := fun t => s_val (n_Br f) (Rf t) (Zf t)) in *. set (B := fun t => s_val (n_Bphi f) (Rf t) (Zf t)) in *. set (C := fun t => s_val (n_Bz f) (Rf t) (Zf t)) in *.
    assert (XA : ex_derive A 0) by (eexists; exact D1). assert (XB : ex_derive B 0) by (eexists; exact D2). assert (XR : ex_derive Rf 0) by (eexists; exact path_DR).
    assert (FA := is_derive_unique _ _ _ D1). assert (FB := is_derive_unique _ _ _ D2). assert (FR := is_derive_unique _ _ _ path_DR).
    assert (A0 : A 0 = br) by (unfold A; rewrite path_R0, path_Z0; reflexivity). assert (B0 : B 0 = bp) by (unfold B; rewrite path_R0, path_Z0; reflexivity).
    change (Derive (fun x => A x) 0 = s_dr (n_Br f) (major x y) z * ((x * u + y * v) / major x y) + s_dz (n_Br f) (major x y) z * w) in FA.
    change (Derive (fun x => B x) 0 = s_dr (n_Bphi f) (major x y) z * ((x * u + y * v) / major x y) + s_dz (n_Bphi f) (major x y) z * w) in FB.
    change (Derive (fun x => Rf x) 0 = (x * u + y * v) / major x y) in FR.
    assert (SQ := hypot_sq x y). change (hypot x y) with R0 in SQ. fold R0 in NR.
    split; [|split].
    - unfold deriv_along. apply (deriv_at_intro _ (fun t => A t * ((x + t * u) / Rf t) - B t * ((y + t * v) / Rf t))).
      + generalize path_eval. apply filter_imp. intros t [_ E]. unfold component, field_of. rewrite E. reflexivity.
      + eapply is_derive_eq.
        * auto_derive.
          { conj_all; try exact XA; try exact XB; try exact XR; try exact I; rewrite path_R0; exact NR. }
          rewrite FA, FB, FR, A0, B0, path_R0. reflexivity.
        * unfold dot3, c0, c1, c2. cbn [fst snd]. fold R0.
          transitivity ((s_dr (n_Br f) R0 z * ((x * u + y * v) / R0) + s_dz (n_Br f) R0 z * w) * (x / R0) + br * (u * (R0 * R0) - x * (x * u + y * v)) / (R0 * R0 * R0)
             - (s_dr (n_Bphi f) R0 z * ((x * u + y * v) / R0) + s_dz (n_Bphi f) R0 z * w) * (y / R0) - bp * (v * (R0 * R0) - y * (x * u + y * v)) / (R0 * R0 * R0)); [field; exact NR|].
          replace (u * (R0 * R0) - x * (x * u + y * v)) with (y * y * u - x * y * v) by (rewrite SQ; ring).
          replace (v * (R0 * R0) - y * (x * u + y * v)) with (x * x * v - x * y * u) by (rewrite SQ; ring). field. exact NR.
    - unfold deriv_along. apply (deriv_at_intro _ (fun t => A t * ((y + t * v) / Rf t) + B t * ((x + t * u) / Rf t))).
      + generalize path_eval. apply filter_imp. intros t [_ E]. unfold component, field_of. rewrite E. reflexivity.
      + eapply is_derive_eq.
        * auto_derive.
          { conj_all; try exact XA; try exact XB; try exact XR; try exact I; rewrite path_R0; exact NR. }
          rewrite FA, FB, FR, A0, B0, path_R0. reflexivity.
        * unfold dot3, c0, c1, c2. cbn [fst snd]. fold R0.
          transitivity ((s_dr (n_Br f) R0 z * ((x * u + y * v) / R0) + s_dz (n_Br f) R0 z * w) * (y / R0) + br * (v * (R0 * R0) - y * (x * u + y * v)) / (R0 * R0 * R0)
             + (s_dr (n_Bphi f) R0 z * ((x * u + y * v) / R0) + s_dz (n_Bphi f) R0 z * w) * (x / R0) + bp * (u * (R0 * R0) - x * (x * u + y * v)) / (R0 * R0 * R0)); [field; exact NR|].
          replace (u * (R0 * R0) - x * (x * u + y * v)) with (y * y * u - x * y * v) by (rewrite SQ; ring).
          replace (v * (R0 * R0) - y * (x * u + y * v)) with (x * x * v - x * y * u) by (rewrite SQ; ring). field. exact NR.
    - unfold deriv_along. apply (deriv_at_intro _ C).
      + generalize path_eval. apply filter_imp. intros t [_ E]. unfold component, field_of. rewrite E. reflexivity.
      + eapply is_derive_eq; [exact D3|]. unfold dot3, c0, c1, c2. cbn [fst snd]. fold R0. field. exact NR.
  Qed.
End Path.

(** The norm. *)
Lemma scaled_norm_ok : forall b n, scaled_norm b = Some n -> n = sqrt (dot3 b b) /\ 0 < n.
Proof.
  assert (G : forall m p q n, 0 <= m -> ediv p m (fun r1 => ediv q m (fun r2 => Some (m * sqrt (1 + r1 * r1 + r2 * r2)))) = Some n ->
    n = sqrt (m * m + p * p + q * q) /\ 0 < n).
  { intros m p q n Hm H. apply ediv_inv in H. destruct H as [Nm H]. rewrite ediv_ok in H by exact Nm. injection H as <-. assert (Pm : 0 < m) by lra.
    assert (E : m * sqrt (1 + p / m * (p / m) + q / m * (q / m)) = sqrt (m * m + p * p + q * q)).
    { rewrite <- (sqrt_square m) at 1 by lra. rewrite <- sqrt_mult_alt by nra. f_equal. field. exact Nm. }
    split; [exact E|]. rewrite E. apply sqrt_lt_R0. nra. }
  intros [[b0 b1] b2] n H. unfold scaled_norm in H. cbn [fst snd] in H.
  assert (Q : forall t, Rabs t * Rabs t = t * t) by (intro t; rewrite <- Rabs_mult; apply Rabs_pos_eq; nra).
  destruct (Rltb (Rabs b1) (Rabs b0) && Rltb (Rabs b2) (Rabs b0))%bool; [|destruct (Rltb (Rabs b2) (Rabs b1))];
    destruct (G _ _ _ _ (Rabs_pos _) H) as [E P]; (split; [|exact P]); rewrite E, !Q; f_equal; unfold dot3, c0, c1, c2; cbn [fst snd]; ring.
Qed.
Lemma scaled_norm_defined : forall b, b <> (0, 0, 0) -> exists n, scaled_norm b = Some n.
Proof.
  intros [[b0 b1] b2] N. unfold scaled_norm. cbn [fst snd]. unfold Rltb.
  assert (P0 := Rabs_pos b0). assert (P1 := Rabs_pos b1). assert (P2 := Rabs_pos b2).
  destruct (Rlt_dec (Rabs b1) (Rabs b0)); destruct (Rlt_dec (Rabs b2) (Rabs b0)); cbn [andb];
    try (rewrite !ediv_ok by lra; eexists; reflexivity);
  (destruct (Rlt_dec (Rabs b2) (Rabs b1)); [rewrite !ediv_ok by lra; eexists; reflexivity|]);
  (assert (NZ : Rabs b2 <> 0); [|rewrite !ediv_ok by exact NZ; eexists; reflexivity]); intro Z;
    apply N; assert (Z0 : Rabs b0 = 0) by lra; assert (Z1 : Rabs b1 = 0) by lra;
    assert (K : forall t, Rabs t = 0 -> t = 0) by (intros t; unfold Rabs; destruct (Rcase_abs t); lra);
    rewrite (K _ Z0), (K _ Z1), (K _ Z); reflexivity.
Qed.
Lemma scaled_norm_zero : scaled_norm (0, 0, 0) = None.
Proof. unfold scaled_norm, Rltb. cbn [fst snd]. rewrite Rabs_R0. destruct (Rlt_dec 0 0); [lra|]. cbn [andb]. unfold ediv. destruct (Req_EM_T 0 0); [reflexivity|contradiction]. Qed.
(** The derivative of the norm of a vector field. *)
Lemma magnitude_deriv : forall F x y z u v w b d0 d1 d2, F x y z = Some b -> sqrt (dot3 b b) <> 0 ->
  deriv_along (component c0 F) x y z u v w d0 -> deriv_along (component c1 F) x y z u v w d1 -> deriv_along (component c2 F) x y z u v w d2 ->
  deriv_along (magnitude F) x y z u v w ((c0 b * d0 + c1 b * d1 + c2 b * d2) / sqrt (dot3 b b)).
Proof.
  intros F x y z u v w b d0 d1 d2 E N D0 D1 D2. unfold deriv_along in *.
  set (G := fun t => F (x + t * u) (y + t * v) (z + t * w)).
  assert (G0 : G 0 = Some b) by (unfold G; rewrite <- E; f_equal; ring).
  set (g := fun c t => match G t with Some b => c b | None => 0 end).
  assert (K : forall c d, deriv_at (fun t => component c F (x + t * u) (y + t * v) (z + t * w)) 0 d ->
    locally 0 (fun t => exists b, G t = Some b) /\ is_derive (g c) 0 d).
  { intros c d (v0 & E0 & D).
    assert (V0 : v0 = c b). { unfold component in E0. fold (G 0) in E0. rewrite G0 in E0. injection E0 as <-. reflexivity. }
    split.
    - destruct (D 1 Rlt_0_1) as (dl & Hd & A). exists (mkposreal dl Hd). intros t Ht. destruct (Req_EM_T t 0) as [->|Nt]; [exists b; exact G0|].
      assert (Bt : Rabs t < dl). { change (Rabs (t - 0) < dl) in Ht. rewrite Rminus_0_r in Ht. exact Ht. }
      destruct (A t Nt Bt) as (v1 & E1 & _). rewrite Rplus_0_l in E1. unfold component in E1. fold (G t) in E1. destruct (G t) as [bt|]; [exists bt; reflexivity|discriminate E1].
    - apply is_derive_Reals. intros eps He. destruct (D eps He) as (dl & Hd & A). exists (mkposreal dl Hd). intros h Hh Bh. destruct (A h Hh Bh) as (v1 & E1 & B1).
      unfold component in E1. fold (G (0 + h)) in E1. unfold g. rewrite G0. destruct (G (0 + h)) as [bt|]; [|discriminate E1]. injection E1 as <-. rewrite <- V0. exact B1. }
  destruct (K c0 d0 D0) as [L P0]. destruct (K c1 d1 D1) as [_ P1]. destruct (K c2 d2 D2) as [_ P2].
  apply (deriv_at_intro _ (fun t => sqrt (g c0 t * g c0 t + g c1 t * g c1 t + g c2 t * g c2 t))).
  - revert L. apply filter_imp. intros t [bt Et]. unfold magnitude. fold (G t). unfold g. rewrite Et. reflexivity.
  - assert (X0 : ex_derive (g c0) 0) by (eexists; exact P0). assert (X1 : ex_derive (g c1) 0) by (eexists; exact P1). assert (X2 : ex_derive (g c2) 0) by (eexists; exact P2).
    assert (F0 : Derive (fun x => g c0 x) 0 = d0) by (apply is_derive_unique; exact P0). assert (F1 : Derive (fun x => g c1 x) 0 = d1) by (apply is_derive_unique; exact P1). assert (F2 : Derive (fun x => g c2 x) 0 = d2) by (apply is_derive_unique; exact P2).
    assert (Q0 : forall c, g c 0 = c b) by (intro c; unfold g; rewrite G0; reflexivity).
    assert (PD : 0 < dot3 b b). { destruct (Rle_lt_dec (dot3 b b) 0) as [Z|]; [|assumption]. exfalso. apply N. apply sqrt_neg_0. exact Z. }
    eapply is_derive_eq.
    + auto_derive.
      { conj_all; try exact X0; try exact X1; try exact X2; try exact I. rewrite !Q0. exact PD. }
      rewrite F0, F1, F2, !Q0. reflexivity.
    + fold (dot3 b b). change (c0 b * c0 b + c1 b * c1 b + c2 b * c2 b) with (dot3 b b). field. exact N.
Qed.
