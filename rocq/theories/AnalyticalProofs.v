(** Proofs about the analytical field. *)
From Coq Require Import Reals Lra.
From Coquelicot Require Import Coquelicot.
From Verif Require Import Base DomainModel AnalyticalModel AnalyticalSpec.
Local Open Scope R_scope.

Lemma ediv_ok : forall A x y (k : R -> option A), y <> 0 -> ediv x y k = k (x / y).
Proof. intros A x y k H. unfold ediv. destruct (Req_EM_T y 0); [contradiction|reflexivity]. Qed.
Lemma ediv_inv : forall A x y (k : R -> option A) v, ediv x y k = Some v -> y <> 0 /\ k (x / y) = Some v.
Proof. intros A x y k v H. unfold ediv in H. destruct (Req_EM_T y 0); [discriminate H|]. split; assumption. Qed.

Lemma deriv_at_intro : forall F g x l, locally x (fun t => F t = Some (g t)) -> is_derive g x l -> deriv_at F x l.
Proof.
  intros F g x l [d L] D. exists (g x). split; [apply L, ball_center|].
  apply is_derive_Reals in D. intros eps He. destruct (D eps He) as [d2 D2].
  exists (Rmin d d2). split; [apply Rmin_pos; [apply cond_pos|apply cond_pos]|].
  intros h Hh Hb. exists (g (x + h)). split.
  - apply L. unfold ball. simpl. unfold AbsRing_ball, abs, minus, plus, opp. simpl. replace (x + h + - x) with h by ring.
    eapply Rlt_le_trans; [exact Hb|apply Rmin_l].
  - apply D2; [exact Hh|]. eapply Rlt_le_trans; [exact Hb|apply Rmin_r].
Qed.
Lemma locally_nonzero : forall (g : R -> R) x, continuous g x -> g x <> 0 -> locally x (fun t => g t <> 0).
Proof. intros g x C N. apply (C (fun y => y <> 0)). apply (open_neq 0). exact N. Qed.
Lemma deriv_continuous : forall (g : R -> R) x l, is_derive g x l -> continuous g x.
Proof. intros g x l D. exact (ex_derive_continuous (K := R_AbsRing) (V := R_NormedModule) g x (ex_intro _ l D)). Qed.

(** * Safety factor *)
Lemma Rpower_pos : forall x a, 0 < Rpower x a.
Proof. intros x a. unfold Rpower. apply exp_pos. Qed.
Lemma profile : forall f r q, 0 < r -> safety_factor f r = Some q ->
  exists qf q', locally r (fun s => safety_factor f s = Some (qf s)) /\ qf r = q /\ is_derive qf r q' /\ r_dq_dr f r = Some (r * q').
Proof.
  intros f r q Hr H. unfold safety_factor in H. apply ediv_inv in H. destruct H as [HM H].
  unfold safety_factor, r_dq_dr. destruct f as [B0 Rm zax rm sB sI qt q1 q2]. cbn [a_rminor a_qt a_q1 a_q2] in *.
  assert (LOC : forall (k : R -> option R) (qf : R -> R), (forall s, k s = Some (qf s)) -> locally r (fun s => ediv s rm (fun rn => k rn) = Some (qf (s / rm)))).
  { intros k qf E. exists (mkposreal 1 Rlt_0_1). intros s _. rewrite ediv_ok by exact HM. apply E. }
  destruct qt.
  - injection H as <-. exists (fun _ => q1), 0. split; [apply (LOC (fun _ => Some q1) (fun _ => q1)); reflexivity|]. split; [reflexivity|].
    split; [apply (is_derive_const (K := R_AbsRing) (V := R_NormedModule))|]. rewrite ediv_ok by exact HM. f_equal. ring.
  - destruct q2 as [q2|]; [|discriminate H]. injection H as <-. exists (fun s => q1 * (s / rm) + q2), (q1 / rm).
    split; [apply (LOC (fun rn => Some (q1 * rn + q2)) (fun rn => q1 * rn + q2)); reflexivity|]. split; [reflexivity|].
    split; [auto_derive; [exact I|unfold Rdiv; field; exact HM]|]. rewrite ediv_ok by exact HM. f_equal. field. exact HM.
  - destruct q2 as [q2|]; [|discriminate H]. injection H as <-. exists (fun s => q1 * (s / rm) * (s / rm) + q2), (2 * q1 * r / (rm * rm)).
    split; [apply (LOC (fun rn => Some (q1 * rn * rn + q2)) (fun rn => q1 * rn * rn + q2)); reflexivity|]. split; [reflexivity|].
    split; [auto_derive; [exact I|unfold Rdiv; field; exact HM]|]. rewrite ediv_ok by exact HM. f_equal. field. exact HM.
  - destruct q2 as [q2|]; [|discriminate H]. injection H as <-. exists (fun s => exp (s / rm * q1) + q2), (q1 / rm * exp (r / rm * q1)).
    split; [apply (LOC (fun rn => Some (exp (rn * q1) + q2)) (fun rn => exp (rn * q1) + q2)); reflexivity|]. split; [reflexivity|].
    split; [auto_derive; [exact I|unfold Rdiv; field; exact HM]|]. rewrite ediv_ok by exact HM. f_equal. field. exact HM.
  - destruct q2 as [q2|].
    + apply ediv_inv in H. destruct H as [H2 H]. unfold cpow in H at 1. destruct (Rlt_dec 0 (r / rm)) as [RN|RN].
      2:{ destruct (Req_EM_T (r / rm) 0) as [E|_]; [|discriminate H]. exfalso. apply Rmult_integral in E. destruct E as [E|E]; [lra|]. apply Rinv_neq_0_compat in E; assumption. }
      apply ediv_inv in H. destruct H as [HD H]. injection H as <-.
      set (c := 2 / (q2 + 2)) in *.
      assert (RM : 0 < rm). { destruct (Rlt_dec 0 rm) as [L|L]; [exact L|]. exfalso. assert (/ rm < 0) by (apply Rinv_lt_0_compat; lra). unfold Rdiv in RN. nra. }
      exists (fun s => q1 / (1 - c * Rpower (s / rm) q2)), (q1 * c * q2 * Rpower (r / rm) q2 / r / ((1 - c * Rpower (r / rm) q2) * (1 - c * Rpower (r / rm) q2))).
      assert (DP : is_derive (fun s => Rpower (s / rm) q2) r (q2 * Rpower (r / rm) q2 / r)).
      { unfold Rpower. auto_derive; [exact RN|]. unfold Rdiv. field. split; lra. }
      assert (DD : is_derive (fun s => 1 - c * Rpower (s / rm) q2) r (- c * (q2 * Rpower (r / rm) q2 / r))).
      { replace (- c * (q2 * Rpower (r / rm) q2 / r)) with (0 - c * (q2 * Rpower (r / rm) q2 / r)) by ring.
        apply (is_derive_minus (K := R_AbsRing) (V := R_NormedModule)); [apply (is_derive_const (K := R_AbsRing) (V := R_NormedModule))|]. apply is_derive_scal. exact DP. }
      split.
      { assert (L1 := locally_nonzero _ _ (deriv_continuous _ _ _ DD) HD).
        assert (L2 : locally r (fun s => 0 < s)) by (apply (open_gt 0); exact Hr).
        generalize (filter_and _ _ L1 L2). apply filter_imp. intros s [N P]. rewrite ediv_ok by exact HM. rewrite ediv_ok by exact H2. fold c.
        assert (SP : 0 < s / rm) by (apply Rdiv_lt_0_compat; assumption).
        unfold cpow. destruct (Rlt_dec 0 (s / rm)); [|contradiction]. rewrite ediv_ok by exact N. reflexivity. }
      split; [reflexivity|]. split.
      { replace (q1 * c * q2 * Rpower (r / rm) q2 / r / ((1 - c * Rpower (r / rm) q2) * (1 - c * Rpower (r / rm) q2)))
          with (q1 * (- (- c * (q2 * Rpower (r / rm) q2 / r)) / (1 - c * Rpower (r / rm) q2) ^ 2)) by (field; split; [lra|exact HD]).
        apply (is_derive_scal (fun s => / (1 - c * Rpower (s / rm) q2))). exact (is_derive_inv (fun s => 1 - c * Rpower (s / rm) q2) r _ DD HD). }
      rewrite ediv_ok by exact HM. unfold cpow. destruct (Rlt_dec 0 (r / rm)); [|contradiction]. rewrite ediv_ok by exact H2. cbv zeta. fold c.
      rewrite ediv_ok by exact H2. rewrite ediv_ok by (apply Rmult_integral_contrapositive_currified; exact HD). f_equal. unfold c. unfold c in HD. field.
      repeat match goal with |- _ /\ _ => split end; try exact H2; try lra.
      intro E; apply HD; apply (Rmult_eq_reg_r (q2 + 2)); [|exact H2]; rewrite Rmult_0_l; rewrite <- E; field; exact H2.
    + injection H as <-. exists (fun _ => q1), 0. split; [apply (LOC (fun _ => Some q1) (fun _ => q1)); reflexivity|]. split; [reflexivity|].
      split; [apply (is_derive_const (K := R_AbsRing) (V := R_NormedModule))|]. rewrite ediv_ok by exact HM. f_equal. ring.
Qed.
Lemma profile_axis : forall f d, r_dq_dr f 0 = Some d -> d = 0.
Proof.
  intros f d H. unfold r_dq_dr in H. apply ediv_inv in H. destruct H as [HM H].
  assert (Z : 0 / a_rminor f = 0) by (field; exact HM). rewrite Z in H. destruct (a_qt f).
  { congruence. } { injection H as <-. ring. } { injection H as <-. ring. } { injection H as <-. ring. }
  destruct (a_q2 f) as [q2|]; [|congruence]. unfold cpow in H. destruct (Rlt_dec 0 0); [lra|]. destruct (Req_EM_T 0 0); [|lra].
  destruct (Rlt_dec 0 q2).
  { apply ediv_inv in H. destruct H as [_ H]. apply ediv_inv in H. destruct H as [_ H]. apply ediv_inv in H. destruct H as [_ H]. injection H as <-. ring. }
  destruct (Req_EM_T q2 0) as [E2|]; [|discriminate H]. apply ediv_inv in H. destruct H as [N1 H]. apply ediv_inv in H. destruct H as [_ H].
  apply ediv_inv in H. destruct H as [N2 H]. exfalso. apply N2. rewrite E2. field.
Qed.
Lemma profile_defined : forall f r, (exists q, safety_factor f r = Some q) -> exists d, r_dq_dr f r = Some d.
Proof.
  intros f r [q H]. unfold safety_factor in H. apply ediv_inv in H. destruct H as [HM H]. unfold r_dq_dr. rewrite ediv_ok by exact HM.
  destruct (a_qt f); try (eexists; reflexivity). destruct (a_q2 f) as [q2|]; [|eexists; reflexivity].
  apply ediv_inv in H. destruct H as [H2 H].
  assert (K : forall an, ediv (a_q1 f) (1 - 2 / (q2 + 2) * an) Some = Some q -> exists d, ediv 2 (q2 + 2) (fun c =>
      let den := 1 - c * an in ediv (2 * q2) (q2 + 2) (fun c2 => ediv (c2 * a_q1 f) (den * den) (fun v => Some (v * an)))) = Some d).
  { intros an E. apply ediv_inv in E. destruct E as [E _]. rewrite ediv_ok by exact H2. cbv zeta. rewrite ediv_ok by exact H2.
    rewrite ediv_ok by (apply Rmult_integral_contrapositive_currified; exact E). eexists. reflexivity. }
  unfold cpow in *. destruct (Rlt_dec 0 (r / a_rminor f)); [apply K; exact H|]. destruct (Req_EM_T (r / a_rminor f) 0); [|discriminate H].
  destruct (Rlt_dec 0 q2); [apply K; exact H|]. destruct (Req_EM_T q2 0); [apply K; exact H|discriminate H].
Qed.

(** * Paths *)
Lemma hypot_sq : forall x y, hypot x y * hypot x y = x * x + y * y.
Proof. intros x y. unfold hypot. apply sqrt_sqrt. nra. Qed.
Lemma hypot_pos : forall x y, hypot x y <> 0 -> 0 < hypot x y.
Proof. intros x y H. assert (P := sqrt_pos (x * x + y * y)). unfold hypot in *. lra. Qed.
Lemma hypot_arg : forall x y, hypot x y <> 0 -> 0 < x * x + y * y.
Proof. intros x y H. rewrite <- hypot_sq. assert (P := hypot_pos x y H). nra. Qed.
Lemma is_derive_hypot : forall (a b : R -> R) t da db, is_derive a t da -> is_derive b t db -> hypot (a t) (b t) <> 0 ->
  is_derive (fun s => hypot (a s) (b s)) t ((a t * da + b t * db) / hypot (a t) (b t)).
Proof.
  intros a b t da db Da Db N. unfold hypot. assert (P := hypot_arg _ _ N). unfold hypot in N.
  assert (Ea : ex_derive a t) by (exists da; exact Da). assert (Eb : ex_derive b t) by (exists db; exact Db).
  auto_derive.
  { repeat match goal with |- _ /\ _ => split end; try exact Ea; try exact Eb; try exact P; exact I. }
  assert (Fa : Derive (fun x => a x) t = da) by (apply is_derive_unique; exact Da).
  assert (Fb : Derive (fun x => b x) t = db) by (apply is_derive_unique; exact Db).
  rewrite Fa, Fb. field. exact N.
Qed.

Section Path.
  Variables (f : afield) (x y z u v w q : R).
  Let Rf := fun t => hypot (x + t * u) (y + t * v).
  Let Zf := fun t => z + t * w - a_zax f.
  Let rf := fun t => hypot (a_Rm f - Rf t) (Zf t).
  Hypothesis HR : hypot x y <> 0.
  Hypothesis Hr : hypot (a_Rm f - hypot x y) (z - a_zax f) <> 0.
  Hypothesis Hq : safety_factor f (hypot (a_Rm f - hypot x y) (z - a_zax f)) = Some q.
  Hypothesis Nq : q <> 0.
  Let R0 := hypot x y.
  Let Z0 := z - a_zax f.
  Let r0 := hypot (a_Rm f - R0) Z0.
  Let dR := (x * u + y * v) / R0.
  Let dr := ((R0 - a_Rm f) * dR + Z0 * w) / r0.
  Lemma path_zero : Rf 0 = R0 /\ Zf 0 = Z0 /\ rf 0 = r0.
  Proof.
    assert (A : Rf 0 = R0) by (unfold Rf, R0; f_equal; ring). assert (B : Zf 0 = Z0) by (unfold Zf, Z0; ring).
    split; [exact A|]. split; [exact B|]. unfold rf. rewrite A, B. reflexivity.
  Qed.
  Lemma path_dR : is_derive Rf 0 dR.
  Proof.
    assert (D := is_derive_hypot (fun t => x + t * u) (fun t => y + t * v) 0 u v).
    cbv beta in D. replace (x + 0 * u) with x in D by ring. replace (y + 0 * v) with y in D by ring. apply D; [| |exact HR]; auto_derive; try exact I; ring.
  Qed.
  Lemma path_dr : is_derive rf 0 dr.
  Proof.
    destruct path_zero as (A & B & C).
    assert (D := is_derive_hypot (fun t => a_Rm f - Rf t) Zf 0 (- dR) w). cbv beta in D. rewrite A, B in D.
    replace dr with (((a_Rm f - R0) * - dR + Z0 * w) / hypot (a_Rm f - R0) Z0) by (unfold dr, r0; f_equal; ring).
    apply D; [| |exact Hr].
    { replace (- dR) with (0 - dR) by ring. apply (is_derive_minus (K := R_AbsRing) (V := R_NormedModule)); [apply (is_derive_const (K := R_AbsRing) (V := R_NormedModule))|exact path_dR]. }
    unfold Zf. auto_derive; [exact I|ring].
  Qed.
  Lemma path_q : exists Q rd, locally 0 (fun t => safety_factor f (rf t) = Some (Q t) /\ Q t <> 0 /\ Rf t <> 0) /\ Q 0 = q /\
    r_dq_dr f r0 = Some rd /\ is_derive Q 0 (rd / r0 * dr).
  Proof.
    destruct path_zero as (A & B & C).
    assert (P : 0 < r0) by (apply hypot_pos; exact Hr).
    destruct (profile f r0 q P Hq) as (qf & q' & L & E & D & F).
    exists (fun t => qf (rf t)), (r0 * q').
    assert (DQ : is_derive (fun t => qf (rf t)) 0 (r0 * q' / r0 * dr)).
    { replace (r0 * q' / r0 * dr) with (dr * q') by (field; lra). apply (is_derive_comp (K := R_AbsRing) (V := R_NormedModule) qf rf 0 q' dr); [rewrite C; exact D|exact path_dr]. }
    split; [|split; [rewrite C; exact E|split; [exact F|exact DQ]]].
    assert (CR := deriv_continuous _ _ _ path_dR). assert (Cr := deriv_continuous _ _ _ path_dr). assert (CQ := deriv_continuous _ _ _ DQ).
    assert (L1 : locally 0 (fun t => safety_factor f (rf t) = Some (qf (rf t)))).
    { apply (Cr (fun s => safety_factor f s = Some (qf s))). rewrite C. exact L. }
    assert (L2 := locally_nonzero _ _ CQ). cbv beta in L2. rewrite C, E in L2. specialize (L2 Nq).
    assert (L3 := locally_nonzero _ _ CR). rewrite A in L3. specialize (L3 HR).
    generalize (filter_and _ _ L1 (filter_and _ _ L2 L3)). apply filter_imp. tauto.
  Qed.
End Path.

(** * Closed form of the field *)
Definition Bx (f : afield) (x y RR Z q : R) : R := a_B0 f * (a_sI f * Z * x / (q * (RR * RR)) - a_sB f * a_Rm f * y / (RR * RR)).
Definition By (f : afield) (x y RR Z q : R) : R := a_B0 f * (a_sI f * Z * y / (q * (RR * RR)) + a_sB f * a_Rm f * x / (RR * RR)).
Definition Bz (f : afield) (RR q : R) : R := a_B0 f * a_sI f * (a_Rm f - RR) / (q * RR).
Lemma some3 : forall a b c a' b' c' : R, a = a' -> b = b' -> c = c' -> Some (a, b, c) = Some (a', b', c').
Proof. intros; subst; reflexivity. Qed.
Lemma hypot_zero : forall x y, hypot x y = 0 -> x = 0 /\ y = 0.
Proof. intros x y H. assert (S := hypot_sq x y). rewrite H in S. split; nra. Qed.
Lemma eval_closed : forall f x y z q, hypot x y <> 0 -> a_Rm f <> 0 -> q <> 0 ->
  safety_factor f (hypot (a_Rm f - hypot x y) (z - a_zax f)) = Some q ->
  eval f x y z = Some (Bx f x y (hypot x y) (z - a_zax f) q, By f x y (hypot x y) (z - a_zax f) q, Bz f (hypot x y) q).
Proof.
  intros f x y z q HR HM Nq Hq. unfold eval, geometry. rewrite ediv_ok by exact HR. rewrite Hq.
  set (R := hypot x y) in *. set (Z := z - a_zax f) in *. assert (S := hypot_sq (a_Rm f - R) Z). set (r := hypot (a_Rm f - R) Z) in *.
  assert (N : a_Rm f * q <> 0) by (apply Rmult_integral_contrapositive_currified; assumption).
  destruct (Req_EM_T r 0) as [E|E].
  { rewrite ediv_ok by exact N. destruct (hypot_zero _ _ E) as [E1 E2]. unfold Bx, By, Bz. rewrite E1, E2, E. apply some3; field; repeat split; assumption. }
  rewrite ediv_ok by exact N. unfold Bx, By, Bz. apply some3; field; repeat split; assumption.
Qed.
Lemma eval_inv : forall f x y z b, eval f x y z = Some b ->
  hypot x y <> 0 /\ a_Rm f <> 0 /\ exists q, q <> 0 /\ safety_factor f (hypot (a_Rm f - hypot x y) (z - a_zax f)) = Some q.
Proof.
  intros f x y z b H. unfold eval, geometry in H. apply ediv_inv in H. destruct H as [HR H]. split; [exact HR|].
  destruct (safety_factor f _) as [q|] eqn:Hq; [|destruct (Req_EM_T _ 0); discriminate H].
  assert (N : a_Rm f * q <> 0). { destruct (Req_EM_T _ 0); apply ediv_inv in H; apply H. }
  split; [intro E; apply N; rewrite E; ring|]. exists q. split; [intro E; apply N; rewrite E; ring|reflexivity].
Qed.
(** What [EvalDerivatives] needs. *)
Lemma derivs_inv : forall f x y z m, eval_derivatives f x y z = Some m ->
  hypot x y <> 0 /\ a_Rm f <> 0 /\ exists q, q <> 0 /\ safety_factor f (hypot (a_Rm f - hypot x y) (z - a_zax f)) = Some q.
Proof.
  intros f x y z m H. unfold eval_derivatives, geometry in H. apply ediv_inv in H. destruct H as [HR H]. split; [exact HR|].
  destruct (safety_factor f _) as [q|] eqn:Hq; [|destruct (Req_EM_T _ 0); discriminate H].
  assert (N : a_Rm f * q <> 0). { destruct (r_dq_dr f _); [|destruct (Req_EM_T _ 0); discriminate H]. destruct (Req_EM_T _ 0); apply ediv_inv in H; apply H. }
  split; [intro E; apply N; rewrite E; ring|]. exists q. split; [intro E; apply N; rewrite E; ring|reflexivity].
Qed.
Lemma derivs_defined : forall f x y z, (exists m, eval_derivatives f x y z = Some m) <-> (exists b, eval f x y z = Some b).
Proof.
  intros f x y z. split.
  { intros [m H]. apply derivs_inv in H. destruct H as (HR & HM & q & Nq & Hq). eexists. eapply eval_closed; eassumption. }
  intros [b H]. apply eval_inv in H. destruct H as (HR & HM & q & Nq & Hq). unfold eval_derivatives, geometry. rewrite ediv_ok by exact HR. rewrite Hq.
  destruct (profile_defined f _ (ex_intro _ q Hq)) as [d Hd]. rewrite Hd.
  assert (N : a_Rm f * q <> 0) by (apply Rmult_integral_contrapositive_currified; assumption).
  destruct (Req_EM_T _ 0); rewrite ediv_ok by exact N; eexists; reflexivity.
Qed.

Lemma locally_eval : forall f x y z u v w q, hypot x y <> 0 -> a_Rm f <> 0 -> q <> 0 ->
  hypot (a_Rm f - hypot x y) (z - a_zax f) <> 0 -> safety_factor f (hypot (a_Rm f - hypot x y) (z - a_zax f)) = Some q ->
  exists Q rd, r_dq_dr f (hypot (a_Rm f - hypot x y) (z - a_zax f)) = Some rd /\ Q 0 = q /\
  is_derive Q 0 (rd / hypot (a_Rm f - hypot x y) (z - a_zax f) *
     (((hypot x y - a_Rm f) * ((x * u + y * v) / hypot x y) + (z - a_zax f) * w) / hypot (a_Rm f - hypot x y) (z - a_zax f))) /\
  locally 0 (fun t => let R := hypot (x + t * u) (y + t * v) in
    R <> 0 /\ Q t <> 0 /\ safety_factor f (hypot (a_Rm f - R) (z + t * w - a_zax f)) = Some (Q t) /\
    eval f (x + t * u) (y + t * v) (z + t * w) =
    Some (Bx f (x + t * u) (y + t * v) R (z + t * w - a_zax f) (Q t), By f (x + t * u) (y + t * v) R (z + t * w - a_zax f) (Q t), Bz f R (Q t))).
Proof.
  intros f x y z u v w q HR HM Nq Hr Hq. destruct (path_q f x y z u v w q HR Hr Hq Nq) as (Q & rd & L & E & F & D).
  exists Q, rd. split; [exact F|]. split; [exact E|]. split; [exact D|]. revert L. apply filter_imp. intros t (A & B & C). cbv zeta.
  split; [exact C|]. split; [exact B|]. split; [exact A|]. apply eval_closed; assumption.
Qed.

Lemma is_derive_eq : forall (g : R -> R) (t l l' : R), is_derive g t l -> l = l' -> is_derive g t l'.
Proof. intros g t l l' D E. rewrite <- E. exact D. Qed.
Ltac conj_all := repeat match goal with |- _ /\ _ => split end.
Section Components.
  Variables (B0 Rm sI sB x y Z u v w R0 q dR dQ : R) (Rf Q : R -> R).
  Hypothesis ER : Rf 0 = R0.
  Hypothesis EQ : Q 0 = q.
  Hypothesis NR : R0 <> 0.
  Hypothesis NQ : q <> 0.
  Hypothesis DR : is_derive Rf 0 dR.
  Hypothesis DQ : is_derive Q 0 dQ.
  Let FR : Derive (fun x => Rf x) 0 = dR := is_derive_unique _ _ _ DR.
  Let FQ : Derive (fun x => Q x) 0 = dQ := is_derive_unique _ _ _ DQ.
  Let XR : ex_derive Rf 0 := ex_intro _ dR DR.
  Let XQ : ex_derive Q 0 := ex_intro _ dQ DQ.
  Ltac sides := conj_all; try exact XR; try exact XQ; try (rewrite ?ER, ?EQ; try assumption); try exact I;
    try (repeat apply Rmult_integral_contrapositive_currified; assumption).
  Lemma derive_x : is_derive (fun t => B0 * (sI * (Z + t * w) * (x + t * u) / (Q t * (Rf t * Rf t)) - sB * Rm * (y + t * v) / (Rf t * Rf t))) 0
    (B0 * (sI * (w * x + Z * u) / (q * (R0 * R0)) - sI * Z * x * dQ / (q * q * (R0 * R0)) - 2 * sI * Z * x * dR / (q * (R0 * R0 * R0))
           - sB * Rm * v / (R0 * R0) + 2 * sB * Rm * y * dR / (R0 * R0 * R0))).
  Proof. auto_derive; [sides|]. rewrite FR, FQ, ER, EQ. field. split; assumption. Qed.
  Lemma derive_y : is_derive (fun t => B0 * (sI * (Z + t * w) * (y + t * v) / (Q t * (Rf t * Rf t)) + sB * Rm * (x + t * u) / (Rf t * Rf t))) 0
    (B0 * (sI * (w * y + Z * v) / (q * (R0 * R0)) - sI * Z * y * dQ / (q * q * (R0 * R0)) - 2 * sI * Z * y * dR / (q * (R0 * R0 * R0))
           + sB * Rm * u / (R0 * R0) - 2 * sB * Rm * x * dR / (R0 * R0 * R0))).
  Proof. auto_derive; [sides|]. rewrite FR, FQ, ER, EQ. field. split; assumption. Qed.
  Lemma derive_z : is_derive (fun t => B0 * sI * (Rm - Rf t) / (Q t * Rf t)) 0
    (B0 * sI * (- dR / (q * R0) - (Rm - R0) * dR / (q * (R0 * R0)) - (Rm - R0) * dQ / (q * q * R0))).
  Proof. auto_derive; [sides|]. rewrite FR, FQ, ER, EQ. field. split; assumption. Qed.
End Components.
Lemma is_derive_shift : forall (g h : R -> R) l, (forall t, g t = h t) -> is_derive g 0 l -> is_derive h 0 l.
Proof. intros g h l E D. apply (is_derive_ext g); [exact E|exact D]. Qed.

(** [EvalDerivatives], off the magnetic axis. *)
Definition off_axis (f : afield) (x y z : R) : Prop := hypot (a_Rm f - hypot x y) (z - a_zax f) <> 0.
Lemma derivs_off : forall f x y z m, off_axis f x y z -> eval_derivatives f x y z = Some m -> exists q rd,
  let R := hypot x y in let Z := z - a_zax f in let r := hypot (a_Rm f - R) Z in
  R <> 0 /\ a_Rm f <> 0 /\ q <> 0 /\ safety_factor f r = Some q /\ r_dq_dr f r = Some rd /\
  m_B m = (Bx f x y R Z q, By f x y R Z q, Bz f R q) /\
  m_J0 m = (a_B0 f * (a_sI f * Z / (q * R * R) * (1 - 2 * x * x / (R * R)) + 2 * a_Rm f * a_sB f * x * y / (R * R * R * R)
              + a_sI f * rd * Z * (a_Rm f - R) * x * x / (q * q * R * R * R * r * r)),
            a_B0 f * (2 * a_Rm f * a_sB f * y * y / (R * R * R * R) - a_Rm f * a_sB f / (R * R) - 2 * a_sI f * Z * x * y / (q * R * R * R * R)
              + a_sI f * rd * Z * (a_Rm f - R) * x * y / (q * q * R * R * R * r * r)),
            a_sI f * a_B0 f * x / (q * R * R) * (1 - rd / q * Z * Z / (r * r))) /\
  m_J1 m = (a_B0 f * (a_Rm f * a_sB f / (R * R) - 2 * a_Rm f * a_sB f * x * x / (R * R * R * R) - 2 * a_sI f * Z * x * y / (q * R * R * R * R)
              + a_sI f * rd * Z * (a_Rm f - R) * x * y / (q * q * R * R * R * r * r)),
            a_B0 f * (a_sI f * Z / (q * R * R) * (1 - 2 * y * y / (R * R)) - 2 * a_Rm f * a_sB f * x * y / (R * R * R * R)
              + a_sI f * rd * Z * (a_Rm f - R) * y * y / (q * q * R * R * R * r * r)),
            a_sI f * a_B0 f * y / (q * R * R) * (1 - rd / q * Z * Z / (r * r))) /\
  m_J2 m = (a_sI f * a_B0 f * x / (q * R * R) * (rd / q * (a_Rm f - R) * (a_Rm f - R) / (r * r) - a_Rm f / R),
            a_sI f * a_B0 f * y / (q * R * R) * (rd / q * (a_Rm f - R) * (a_Rm f - R) / (r * r) - a_Rm f / R),
            - a_sI f * a_B0 f * rd * Z * (a_Rm f - R) / (q * q * R * r * r)) /\
  m_curlB m = (- (a_sI f * a_B0 f / (q * R) * (a_Rm f / R + 1 - rd / q)) * (y / R), a_sI f * a_B0 f / (q * R) * (a_Rm f / R + 1 - rd / q) * (x / R), 0) /\
  m_Babs m = a_B0 f * a_Rm f / R * sqrt (r / (a_Rm f * q) * (r / (a_Rm f * q)) + 1) /\
  (let s := sqrt (r / (a_Rm f * q) * (r / (a_Rm f * q)) + 1) in
   let DBr := a_B0 f * a_Rm f / R * (r / (a_Rm f * q) / (a_Rm f * q) * (1 - rd) / s + (a_Rm f - R) / (r * R) * s) in
   let DB0 := - a_B0 f * a_Rm f * Z / (r * R * R) * s in
   m_gradB m = ((DB0 * Z - DBr * (a_Rm f - R)) * x / (r * R), (DB0 * Z - DBr * (a_Rm f - R)) * y / (r * R), (DBr * Z + DB0 * (a_Rm f - R)) / r)).
Proof.
  intros f x y z m OFF H. assert (I := derivs_inv _ _ _ _ _ H). destruct I as (HR & HM & q & Nq & Hq).
  unfold off_axis in OFF. unfold eval_derivatives, geometry in H. rewrite ediv_ok in H by exact HR. rewrite Hq in H.
  set (RR := hypot x y) in *. set (Z := z - a_zax f) in *. set (r := hypot (a_Rm f - RR) Z) in *.
  destruct (r_dq_dr f r) as [rd|] eqn:Hd; [|destruct (Req_EM_T r 0); discriminate H]. destruct (Req_EM_T r 0); [contradiction|].
  assert (N : a_Rm f * q <> 0) by (apply Rmult_integral_contrapositive_currified; assumption). rewrite ediv_ok in H by exact N.
  injection H as <-. exists q, rd. cbv zeta. fold RR Z r.
  assert (SP : 0 < sqrt (r / (a_Rm f * q) * (r / (a_Rm f * q)) + 1)).
  { apply sqrt_lt_R0. assert (Q := Rle_0_sqr (r / (a_Rm f * q))). unfold Rsqr in Q. lra. }
  set (s := sqrt (r / (a_Rm f * q) * (r / (a_Rm f * q)) + 1)) in *.
  cbn [m_B m_J0 m_J1 m_J2 m_curlB m_Babs m_gradB].
  assert (P3 : forall a b c a' b' c' : R, a = a' -> b = b' -> c = c' -> (a, b, c) = (a', b', c')) by (intros; subst; reflexivity).
  split; [exact HR|]. split; [exact HM|]. split; [exact Nq|]. split; [exact Hq|]. split; [exact Hd|].
  split; [unfold Bx, By, Bz; apply P3; field; repeat split; assumption|].
  split; [apply P3; field; repeat split; assumption|].
  split; [apply P3; field; repeat split; assumption|].
  split; [apply P3; field; repeat split; assumption|].
  split; [apply P3; try (field; repeat split; assumption)|].
  split; [field; repeat split; assumption|].
  apply P3; field; repeat split; try assumption; lra.
Qed.
Lemma component_some : forall c F x y z b, F x y z = Some b -> component c F x y z = Some (c b).
Proof. intros c F x y z b H. unfold component. rewrite H. reflexivity. Qed.
Lemma jacobian : forall f x y z m u v w, off_axis f x y z -> eval_derivatives f x y z = Some m ->
  deriv_along (component c0 (eval f)) x y z u v w (dot3 (m_J0 m) (u, v, w)) /\
  deriv_along (component c1 (eval f)) x y z u v w (dot3 (m_J1 m) (u, v, w)) /\
  deriv_along (component c2 (eval f)) x y z u v w (dot3 (m_J2 m) (u, v, w)).
Proof.
  intros f x y z m u v w OFF H. destruct (derivs_off f x y z m OFF H) as (q & rd & HR & HM & Nq & Hq & Hd & _ & J0 & J1 & J2 & _).
  unfold off_axis in OFF. destruct (locally_eval f x y z u v w q HR HM Nq OFF Hq) as (Q & rd' & Hd' & E & D & L).
  rewrite Hd in Hd'. injection Hd' as <-.
  assert (DR := path_dR x y u v HR). cbv beta zeta in DR.
  set (RR := hypot x y) in *. set (Z := z - a_zax f) in *. set (r := hypot (a_Rm f - RR) Z) in *.
  set (Rf := fun t : R => hypot (x + t * u) (y + t * v)) in *.
  assert (ER : Rf 0 = RR) by (unfold Rf, RR; f_equal; ring).
  assert (SQ : RR * RR = x * x + y * y) by (apply hypot_sq).
  assert (SR : r * r = (a_Rm f - RR) * (a_Rm f - RR) + Z * Z) by (apply hypot_sq).
  split; [|split].
  { unfold deriv_along. apply (deriv_at_intro _ (fun t => Bx f (x + t * u) (y + t * v) (Rf t) (z + t * w - a_zax f) (Q t))).
    { revert L. apply filter_imp. intros t (_ & _ & _ & A). apply (component_some c0 (eval f) _ _ _ _ A). }
    eapply is_derive_eq.
    { eapply is_derive_shift; [|apply (derive_x (a_B0 f) (a_Rm f) (a_sI f) (a_sB f) x y Z u v w RR q _ _ Rf Q ER E HR Nq DR D)].
      intro t. unfold Bx, Z. f_equal. f_equal. f_equal. f_equal. ring. }
    rewrite J0. unfold dot3, c0, c1, c2. cbn [fst snd]. field. repeat split; assumption. }
  { unfold deriv_along. apply (deriv_at_intro _ (fun t => By f (x + t * u) (y + t * v) (Rf t) (z + t * w - a_zax f) (Q t))).
    { revert L. apply filter_imp. intros t (_ & _ & _ & A). apply (component_some c1 (eval f) _ _ _ _ A). }
    eapply is_derive_eq.
    { eapply is_derive_shift; [|apply (derive_y (a_B0 f) (a_Rm f) (a_sI f) (a_sB f) x y Z u v w RR q _ _ Rf Q ER E HR Nq DR D)].
      intro t. unfold By, Z. f_equal. f_equal. f_equal. f_equal. ring. }
    rewrite J1. unfold dot3, c0, c1, c2. cbn [fst snd]. field. repeat split; assumption. }
  { unfold deriv_along. apply (deriv_at_intro _ (fun t => Bz f (Rf t) (Q t))).
    { revert L. apply filter_imp. intros t (_ & _ & _ & A). apply (component_some c2 (eval f) _ _ _ _ A). }
    eapply is_derive_eq.
    { eapply is_derive_shift; [|apply (derive_z (a_B0 f) (a_Rm f) (a_sI f) RR q _ _ Rf Q ER E HR Nq DR D)].
      intro t. unfold Bz. reflexivity. }
    rewrite J2. unfold dot3, c0, c1, c2. cbn [fst snd]. field. repeat split; assumption. }
Qed.

(** * Strength of the field *)
Definition strength (f : afield) (x y z : R) : option R :=
  match eval_derivatives f x y z with Some m => Some (m_Babs m) | None => None end.
Lemma strength_closed : forall f x y z q, hypot x y <> 0 -> a_Rm f <> 0 -> q <> 0 ->
  safety_factor f (hypot (a_Rm f - hypot x y) (z - a_zax f)) = Some q ->
  strength f x y z = Some (a_B0 f * a_Rm f / hypot x y *
     sqrt (hypot (a_Rm f - hypot x y) (z - a_zax f) / (a_Rm f * q) * (hypot (a_Rm f - hypot x y) (z - a_zax f) / (a_Rm f * q)) + 1)).
Proof.
  intros f x y z q HR HM Nq Hq. unfold strength, eval_derivatives, geometry. rewrite ediv_ok by exact HR. rewrite Hq.
  destruct (profile_defined f _ (ex_intro _ q Hq)) as [d Hd]. rewrite Hd.
  assert (N : a_Rm f * q <> 0) by (apply Rmult_integral_contrapositive_currified; assumption).
  destruct (Req_EM_T _ 0); rewrite ediv_ok by exact N; cbn [m_Babs]; f_equal; field; exact HR.
Qed.
Section Strength.
  Variables (K Rm R0 q dR dQ r0 dr : R) (Rf Q rf : R -> R).
  Hypothesis ER : Rf 0 = R0.
  Hypothesis EQ : Q 0 = q.
  Hypothesis Er : rf 0 = r0.
  Hypothesis NR : R0 <> 0.
  Hypothesis NQ : q <> 0.
  Hypothesis NM : Rm <> 0.
  Hypothesis DR : is_derive Rf 0 dR.
  Hypothesis DQ : is_derive Q 0 dQ.
  Hypothesis Dr : is_derive rf 0 dr.
  Let FR : Derive (fun x => Rf x) 0 = dR := is_derive_unique _ _ _ DR.
  Let FQ : Derive (fun x => Q x) 0 = dQ := is_derive_unique _ _ _ DQ.
  Let Fr : Derive (fun x => rf x) 0 = dr := is_derive_unique _ _ _ Dr.
  Let XR : ex_derive Rf 0 := ex_intro _ dR DR.
  Let XQ : ex_derive Q 0 := ex_intro _ dQ DQ.
  Let Xr : ex_derive rf 0 := ex_intro _ dr Dr.
  Lemma square_plus : forall a, 0 < a * a + 1.
  Proof. intro a. assert (P := Rle_0_sqr a). unfold Rsqr in P. lra. Qed.
  Lemma derive_strength : is_derive (fun t => K / Rf t * sqrt (rf t / (Rm * Q t) * (rf t / (Rm * Q t)) + 1)) 0
    (- K * dR / (R0 * R0) * sqrt (r0 / (Rm * q) * (r0 / (Rm * q)) + 1)
     + K / R0 * (r0 / (Rm * q) * (dr / (Rm * q) - r0 * dQ / (Rm * q * q))) / sqrt (r0 / (Rm * q) * (r0 / (Rm * q)) + 1)).
  Proof.
    assert (SP : 0 < sqrt (r0 * / (Rm * q) * (r0 * / (Rm * q)) + 1)) by (apply sqrt_lt_R0, square_plus).
    auto_derive.
    { conj_all; try exact XR; try exact XQ; try exact Xr; rewrite ?ER, ?EQ, ?Er; try assumption; try exact I; try apply square_plus;
      repeat apply Rmult_integral_contrapositive_currified; assumption. }
    rewrite FR, FQ, Fr, ER, EQ, Er. unfold Rdiv. set (s := sqrt _) in *. field. repeat split; try assumption; lra.
  Qed.
End Strength.
Lemma gradient : forall f x y z m u v w, off_axis f x y z -> eval_derivatives f x y z = Some m ->
  exists q rd, safety_factor f (hypot (a_Rm f - hypot x y) (z - a_zax f)) = Some q /\ q <> 0 /\ hypot x y <> 0 /\ a_Rm f <> 0 /\
    r_dq_dr f (hypot (a_Rm f - hypot x y) (z - a_zax f)) = Some rd /\
  deriv_along (strength f) x y z u v w (dot3 (m_gradB m) (u, v, w) +
    a_B0 f * rd * (1 - 1 / q) / (hypot x y * a_Rm f * q * q * sqrt (hypot (a_Rm f - hypot x y) (z - a_zax f) / (a_Rm f * q) * (hypot (a_Rm f - hypot x y) (z - a_zax f) / (a_Rm f * q)) + 1)) *
      ((hypot x y - a_Rm f) * (x * u + y * v) / hypot x y + (z - a_zax f) * w)).
Proof.
  intros f x y z m u v w OFF H. destruct (derivs_off f x y z m OFF H) as (q & rd & HR & HM & Nq & Hq & Hd & _ & _ & _ & _ & _ & _ & G).
  exists q, rd. split; [exact Hq|]. split; [exact Nq|]. split; [exact HR|]. split; [exact HM|]. split; [exact Hd|].
  unfold off_axis in OFF. destruct (locally_eval f x y z u v w q HR HM Nq OFF Hq) as (Q & rd' & Hd' & E & D & L).
  rewrite Hd in Hd'. injection Hd' as <-.
  assert (DR := path_dR x y u v HR). assert (Dr := path_dr f x y z u v w HR OFF). cbv beta zeta in DR, Dr.
  set (RR := hypot x y) in *. set (Z := z - a_zax f) in *. set (r := hypot (a_Rm f - RR) Z) in *.
  set (Rf := fun t : R => hypot (x + t * u) (y + t * v)) in *.
  set (rf := fun t : R => hypot (a_Rm f - hypot (x + t * u) (y + t * v)) (z + t * w - a_zax f)) in *.
  assert (ER : Rf 0 = RR) by (unfold Rf, RR; f_equal; ring).
  assert (Er : rf 0 = r). { change (rf 0) with (hypot (a_Rm f - Rf 0) (z + 0 * w - a_zax f)). rewrite ER. unfold r, Z. f_equal. ring. }
  assert (SR : r * r = (a_Rm f - RR) * (a_Rm f - RR) + Z * Z) by (apply hypot_sq).
  unfold deriv_along. apply (deriv_at_intro _ (fun t => a_B0 f * a_Rm f / Rf t * sqrt (rf t / (a_Rm f * Q t) * (rf t / (a_Rm f * Q t)) + 1))).
  { revert L. apply filter_imp. intros t (A & B & C & _). apply strength_closed; assumption. }
  eapply is_derive_eq.
  { apply (derive_strength (a_B0 f * a_Rm f) (a_Rm f) RR q _ _ r _ Rf Q rf ER E Er HR Nq HM DR D Dr). }
  assert (SP : 0 < sqrt (r / (a_Rm f * q) * (r / (a_Rm f * q)) + 1)) by (apply sqrt_lt_R0, square_plus).
  rewrite G. set (s := sqrt (r / (a_Rm f * q) * (r / (a_Rm f * q)) + 1)) in *. unfold dot3, c0, c1, c2. cbn [fst snd].
  set (dd := x * u + y * v). set (M := a_Rm f - RR) in *.
  assert (E2 : Z * Z = r * r - M * M) by lra.
  apply (Rmult_eq_reg_r (r * r)); [|apply Rmult_integral_contrapositive_currified; assumption].
  replace (RR - a_Rm f) with (- M) by (unfold M; ring).
  assert (KEY : forall P S : R, (P * Z - S * M) * x / (r * RR) * u + (P * Z - S * M) * y / (r * RR) * v + (S * Z + P * M) / r * w
     = ((P * Z - S * M) * (dd / RR) + (S * Z + P * M) * w) / r).
  { intros P S. unfold dd. field. split; assumption. }
  rewrite KEY. clear KEY.
  transitivity ((a_B0 f * a_Rm f / RR * (- (dd / RR) / RR * s * (M * M + Z * Z) + r * r / (a_Rm f * q * s * (a_Rm f * q)) * (1 - rd / q) * (- M * (dd / RR) + Z * w)))).
  { rewrite <- SR. unfold dd. field. repeat split; try assumption; lra. }
  unfold dd. field. repeat split; try assumption; lra.
Qed.

(** * Flux *)
Lemma flux_closed : forall f x y z q, q <> 0 -> safety_factor f (hypot (a_Rm f - hypot x y) (z - a_zax f)) = Some q ->
  eval_flux f x y z = Some (a_sI f * PI * a_B0 f * ((a_Rm f - hypot x y) * (a_Rm f - hypot x y) + (z - a_zax f) * (z - a_zax f)) / q).
Proof.
  intros f x y z q Nq Hq. unfold eval_flux. fold (hypot x y).
  replace ((z - a_zax f) * (z - a_zax f) + (a_Rm f - hypot x y) * (a_Rm f - hypot x y)) with
          ((a_Rm f - hypot x y) * (a_Rm f - hypot x y) + (z - a_zax f) * (z - a_zax f)) by ring.
  fold (hypot (a_Rm f - hypot x y) (z - a_zax f)). rewrite Hq. rewrite ediv_ok by exact Nq. reflexivity.
Qed.
Lemma fluxd_closed : forall f x y z v, eval_flux_derivatives f x y z = Some v ->
  exists q rd, q <> 0 /\ safety_factor f (hypot (a_Rm f - hypot x y) (z - a_zax f)) = Some q /\
  r_dq_dr f (hypot (a_Rm f - hypot x y) (z - a_zax f)) = Some rd /\
  v = (a_sI f * PI * a_B0 f * ((a_Rm f - hypot x y) * (a_Rm f - hypot x y) + (z - a_zax f) * (z - a_zax f)) / q,
       a_sI f * PI * a_B0 f * (hypot x y - a_Rm f) / q * (2 - rd / q), a_sI f * PI * a_B0 f * (z - a_zax f) / q * (2 - rd / q)).
Proof.
  intros f x y z v H. unfold eval_flux_derivatives in H. fold (hypot x y) in H.
  replace ((z - a_zax f) * (z - a_zax f) + (a_Rm f - hypot x y) * (a_Rm f - hypot x y)) with
          ((a_Rm f - hypot x y) * (a_Rm f - hypot x y) + (z - a_zax f) * (z - a_zax f)) in H by ring.
  fold (hypot (a_Rm f - hypot x y) (z - a_zax f)) in H.
  destruct (safety_factor f _) as [q|] eqn:Hq; [|discriminate H]. destruct (r_dq_dr f _) as [rd|] eqn:Hd; [|discriminate H].
  apply ediv_inv in H. destruct H as [Nq H]. injection H as <-. exists q, rd. split; [exact Nq|]. split; [reflexivity|]. split; reflexivity.
Qed.
Section Flux.
  Variables (K Rm Z w R0 q dR dQ : R) (Rf Q : R -> R).
  Hypothesis ER : Rf 0 = R0.
  Hypothesis EQ : Q 0 = q.
  Hypothesis NQ : q <> 0.
  Hypothesis DR : is_derive Rf 0 dR.
  Hypothesis DQ : is_derive Q 0 dQ.
  Let FR : Derive (fun x => Rf x) 0 = dR := is_derive_unique _ _ _ DR.
  Let FQ : Derive (fun x => Q x) 0 = dQ := is_derive_unique _ _ _ DQ.
  Let XR : ex_derive Rf 0 := ex_intro _ dR DR.
  Let XQ : ex_derive Q 0 := ex_intro _ dQ DQ.
  Lemma derive_flux : is_derive (fun t => K * ((Rm - Rf t) * (Rm - Rf t) + (Z + t * w) * (Z + t * w)) / Q t) 0
    (K * (2 * (R0 - Rm) * dR + 2 * Z * w) / q - K * ((Rm - R0) * (Rm - R0) + Z * Z) * dQ / (q * q)).
  Proof.
    auto_derive; [conj_all; try exact XR; try exact XQ; rewrite ?EQ; try assumption; exact I|].
    rewrite FR, FQ, ER, EQ. field. assumption.
  Qed.
End Flux.
Lemma flux_gradient : forall f x y z v u1 u2 w, off_axis f x y z -> hypot x y <> 0 -> eval_flux_derivatives f x y z = Some v ->
  deriv_along (eval_flux f) x y z u1 u2 w (c1 v * ((x * u1 + y * u2) / hypot x y) + c2 v * w).
Proof.
  intros f x y z v u1 u2 w OFF HR H. destruct (fluxd_closed _ _ _ _ _ H) as (q & rd & Nq & Hq & Hd & EV). unfold off_axis in OFF.
  destruct (path_q f x y z u1 u2 w q HR OFF Hq Nq) as (Q & rd' & L & E & Hd' & D). rewrite Hd in Hd'. injection Hd' as <-.
  assert (DR := path_dR x y u1 u2 HR). cbv beta zeta in DR.
  rewrite EV. unfold c1, c2. cbn [fst snd]. clear EV H v.
  set (RR := hypot x y) in *. set (Z := z - a_zax f) in *. set (r := hypot (a_Rm f - RR) Z) in *.
  set (Rf := fun t : R => hypot (x + t * u1) (y + t * u2)) in *.
  assert (ER : Rf 0 = RR) by (unfold Rf, RR; f_equal; ring).
  assert (SR : r * r = (a_Rm f - RR) * (a_Rm f - RR) + Z * Z) by (apply hypot_sq).
  unfold deriv_along. apply (deriv_at_intro _ (fun t => a_sI f * PI * a_B0 f * ((a_Rm f - Rf t) * (a_Rm f - Rf t) + (z + t * w - a_zax f) * (z + t * w - a_zax f)) / Q t)).
  { revert L. apply filter_imp. intros t (A & B & C). apply flux_closed; assumption. }
  eapply is_derive_eq.
  { eapply is_derive_shift; [|apply (derive_flux (a_sI f * PI * a_B0 f) (a_Rm f) Z w RR q _ _ Rf Q ER E Nq DR D)].
    intro t. unfold Z. cbv beta. f_equal. f_equal. f_equal. f_equal; ring. }
  rewrite <- SR. field. repeat split; assumption.
Qed.

(** * On the magnetic axis *)
Lemma Rpower_small : forall a eps, 0 < a -> 0 < eps -> exists d, 0 < d /\ forall s, 0 < s < d -> Rpower s a < eps.
Proof.
  intros a eps Ha He. exists (Rpower eps (/ a)). split; [apply Rpower_pos|]. intros s [S1 S2].
  replace eps with (Rpower (Rpower eps (/ a)) a) at 1.
  { apply Rlt_Rpower_l; [exact Ha|split; assumption]. }
  rewrite Rpower_mult. rewrite Rinv_l by lra. apply Rpower_1. exact He.
Qed.
Definition qval (f : afield) (s : R) : R := match safety_factor f s with Some v => v | None => 0 end.
Lemma safety_near_axis : forall f q, safety_factor f 0 = Some q -> q <> 0 -> 0 < a_rminor f ->
  forall eps, 0 < eps -> exists d, 0 < d /\ forall s, 0 <= s < d -> safety_factor f s = Some (qval f s) /\ Rabs (qval f s - q) < eps.
Proof.
  intros f q H Nq HM eps He.
  assert (NM : a_rminor f <> 0) by lra.
  assert (W : forall g : R -> R, (forall s, safety_factor f s = Some (g s)) -> continuous g 0 ->
    exists d, 0 < d /\ forall s, 0 <= s < d -> safety_factor f s = Some (qval f s) /\ Rabs (qval f s - q) < eps).
  { intros g Eg Cg. rewrite Eg in H. injection H as <-. apply continuity_pt_filterlim in Cg. destruct (Cg eps He) as (d & Hd & L).
    exists d. split; [exact Hd|]. intros s [S1 S2]. unfold qval. rewrite Eg. split; [reflexivity|].
    destruct (Req_EM_T s 0) as [->|Ns]; [rewrite Rminus_eq_0, Rabs_R0; exact He|].
    apply L. split; [split; [exact I|intro E; apply Ns; symmetry; exact E]|]. simpl. unfold R_dist. rewrite Rminus_0_r. rewrite Rabs_pos_eq by exact S1. exact S2. }
  assert (CD : forall g : R -> R, (exists l, is_derive g 0 l) -> continuous g 0) by (intros g [l D]; exact (deriv_continuous g 0 l D)).
  unfold safety_factor in H, W. destruct f as [B0 Rm zax rm sB sI qt q1 q2]. cbn [a_rminor a_qt a_q1 a_q2] in *.
  destruct qt.
  { apply (W (fun _ => q1)); [intro s; rewrite ediv_ok by exact NM; reflexivity|]. apply CD. exists 0. auto_derive; [exact I|ring]. }
  { destruct q2 as [q2|]; [|unfold ediv in H; destruct (Req_EM_T rm 0); discriminate H].
    apply (W (fun s => q1 * (s / rm) + q2)); [intro s; rewrite ediv_ok by exact NM; reflexivity|]. apply CD. eexists. auto_derive; [exact I|reflexivity]. }
  { destruct q2 as [q2|]; [|unfold ediv in H; destruct (Req_EM_T rm 0); discriminate H].
    apply (W (fun s => q1 * (s / rm) * (s / rm) + q2)); [intro s; rewrite ediv_ok by exact NM; reflexivity|]. apply CD. eexists. auto_derive; [exact I|reflexivity]. }
  { destruct q2 as [q2|]; [|unfold ediv in H; destruct (Req_EM_T rm 0); discriminate H].
    apply (W (fun s => exp (s / rm * q1) + q2)); [intro s; rewrite ediv_ok by exact NM; reflexivity|]. apply CD. eexists. auto_derive; [exact I|reflexivity]. }
  destruct q2 as [q2|].
  2:{ apply (W (fun _ => q1)); [intro s; rewrite ediv_ok by exact NM; reflexivity|]. apply CD. exists 0. auto_derive; [exact I|ring]. }
  clear W CD. rewrite ediv_ok in H by exact NM. replace (0 / rm) with 0 in H by (field; exact NM). apply ediv_inv in H. destruct H as [N2 H].
  unfold cpow in H at 1. destruct (Rlt_dec 0 0); [lra|]. destruct (Req_EM_T 0 0); [|lra]. destruct (Rlt_dec 0 q2) as [P2|P2].
  2:{ exfalso. destruct (Req_EM_T q2 0) as [E2|]; [|discriminate H]. apply ediv_inv in H. destruct H as [ND _]. apply ND. rewrite E2. field. }
  apply ediv_inv in H. destruct H as [_ H]. injection H as <-. set (c := 2 / (q2 + 2)) in *.
  assert (C0 : 0 < c) by (apply Rdiv_lt_0_compat; lra). assert (C1 : c < 1). { unfold c. apply (Rmult_lt_reg_r (q2 + 2)); [lra|]. replace (2 / (q2 + 2) * (q2 + 2)) with 2 by (field; lra). lra. }
  assert (M : 0 < Rabs q1). { apply Rabs_pos_lt. intro E. apply Nq. rewrite E. unfold Rdiv. ring. }
  (* the denominator stays close to one *)
  set (ee := Rmin (1 / 2) (eps / (2 * Rabs q1 + 1))).
  assert (E0 : 0 < ee). { apply Rmin_pos; [lra|]. apply Rdiv_lt_0_compat; lra. }
  destruct (Rpower_small q2 ee P2 E0) as (d & Hd & SM). exists (d * rm). split; [apply Rmult_lt_0_compat; assumption|].
  intros s [S1 S2]. destruct (Req_EM_T s 0) as [->|Ns].
  { assert (EQ : safety_factor (AField B0 Rm zax rm sB sI QCurrent q1 (Some q2)) 0 = Some (q1 / (1 - c * 0))).
    { unfold safety_factor. cbn [a_rminor a_qt a_q1 a_q2]. rewrite ediv_ok by exact NM. replace (0 / rm) with 0 by (field; exact NM). rewrite ediv_ok by exact N2.
      fold c. unfold cpow. destruct (Rlt_dec 0 0); [lra|]. destruct (Req_EM_T 0 0); [|lra]. destruct (Rlt_dec 0 q2); [|lra]. apply ediv_ok. lra. }
    unfold qval. unfold safety_factor in EQ. cbn [a_rminor a_qt a_q1 a_q2] in EQ. unfold safety_factor. cbn [a_rminor a_qt a_q1 a_q2]. rewrite EQ.
    split; [reflexivity|]. rewrite Rminus_eq_0, Rabs_R0. exact He. }
  assert (SR : 0 < s / rm) by (apply Rdiv_lt_0_compat; lra).
  assert (SD : s / rm < d). { apply (Rmult_lt_reg_r rm); [exact HM|]. replace (s / rm * rm) with s by (field; exact NM). exact S2. }
  assert (PW := SM (s / rm) (conj SR SD)). assert (PP := Rpower_pos (s / rm) q2). set (a := Rpower (s / rm) q2) in *.
  assert (AE : a < 1 / 2) by (eapply Rlt_le_trans; [exact PW|apply Rmin_l]).
  assert (DE : 1 / 2 < 1 - c * a) by nra.
  assert (EQ : safety_factor (AField B0 Rm zax rm sB sI QCurrent q1 (Some q2)) s = Some (q1 / (1 - c * a))).
  { unfold safety_factor. cbn [a_rminor a_qt a_q1 a_q2]. rewrite ediv_ok by exact NM. rewrite ediv_ok by exact N2. fold c. unfold cpow.
    destruct (Rlt_dec 0 (s / rm)); [|contradiction]. apply ediv_ok. fold a. lra. }
  unfold qval. unfold safety_factor in EQ. cbn [a_rminor a_qt a_q1 a_q2] in EQ. unfold safety_factor. cbn [a_rminor a_qt a_q1 a_q2]. rewrite EQ.
  split; [reflexivity|].
  replace (q1 / (1 - c * a) - q1 / (1 - c * 0)) with (q1 * (c * a / (1 - c * a))) by (field; lra).
  rewrite Rabs_mult. assert (B : 0 <= c * a / (1 - c * a) < 2 * a).
  { split; [apply Rmult_le_pos; [nra|apply Rlt_le, Rinv_0_lt_compat; lra]|]. apply (Rmult_lt_reg_r (1 - c * a)); [lra|].
    replace (c * a / (1 - c * a) * (1 - c * a)) with (c * a) by (field; lra). nra. }
  rewrite (Rabs_pos_eq (c * a / (1 - c * a))) by apply B.
  assert (A2 : a < eps / (2 * Rabs q1 + 1)) by (eapply Rlt_le_trans; [exact PW|apply Rmin_r]).
  assert (A3 : a * (2 * Rabs q1 + 1) < eps). { apply (Rmult_lt_compat_r (2 * Rabs q1 + 1)) in A2; [|lra]. replace (eps / (2 * Rabs q1 + 1) * (2 * Rabs q1 + 1)) with eps in A2 by (field; lra). exact A2. }
  nra.
Qed.
(** A differentiable function that vanishes, divided by a continuous one. *)
Lemma is_derive_vanish : forall (U Q : R -> R) dU q, is_derive U 0 dU -> U 0 = 0 -> Q 0 = q -> q <> 0 ->
  (forall eps, 0 < eps -> exists d, 0 < d /\ forall t, Rabs t < d -> Rabs (Q t - q) < eps) ->
  is_derive (fun t => U t / Q t) 0 (dU / q).
Proof.
  intros U Q dU q DU U0 Q0 Nq CQ. apply is_derive_Reals in DU. apply is_derive_Reals.
  assert (L1 : limit1_in (fun h => U (0 + h) / h) (fun h => h <> 0) dU 0).
  { intros eps He. destruct (DU eps He) as [d D]. exists d. split; [apply cond_pos|]. intros h [Hn Hd]. simpl in *. unfold R_dist in *. rewrite Rminus_0_r in Hd.
    specialize (D h Hn Hd). rewrite U0 in D. rewrite Rminus_0_r in D. exact D. }
  assert (L2 : limit1_in Q (fun h => h <> 0) q 0).
  { intros eps He. destruct (CQ eps He) as (d & Hd & D). exists d. split; [exact Hd|]. intros h [_ Hh]. simpl in *. unfold R_dist in *. rewrite Rminus_0_r in Hh. apply D. exact Hh. }
  assert (L3 : limit1_in (fun h => / Q h) (fun h => h <> 0) (/ q) 0) by (apply limit_inv; assumption).
  assert (L := limit_mul _ _ _ _ _ _ L1 L3).
  apply uniqueness_step3. intros eps He. destruct (L eps He) as (d & Hd & D). exists d. split; [exact Hd|]. intros h Hh. specialize (D h Hh).
  simpl in *. unfold R_dist in *. rewrite U0. replace ((U (0 + h) / Q (0 + h) - 0 / Q 0) / h) with (U (0 + h) / h * / Q h); [exact D|].
  replace (0 + h) with h by ring. unfold Rdiv. ring.
Qed.
Ltac req := match goal with |- ?a = ?b => change (@eq R a b) end.
Section Axis.
  Variables (f : afield) (x y z u v w q : R).
  Let Rf := fun t => hypot (x + t * u) (y + t * v).
  Let rf := fun t => hypot (a_Rm f - Rf t) (z + t * w - a_zax f).
  Hypothesis HR : hypot x y <> 0.
  Hypothesis HA : hypot (a_Rm f - hypot x y) (z - a_zax f) = 0.
  Hypothesis Hq : safety_factor f 0 = Some q.
  Hypothesis Nq : q <> 0.
  Hypothesis HM : 0 < a_rminor f.
  Let dR := (x * u + y * v) / a_Rm f.
  Lemma axis_point : hypot x y = a_Rm f /\ z = a_zax f.
  Proof. destruct (hypot_zero _ _ HA). split; lra. Qed.
  Lemma axis_dR : is_derive Rf 0 dR.
  Proof. assert (D := path_dR x y u v HR). cbv zeta in D. rewrite (proj1 axis_point) in D. exact D. Qed.
  Lemma axis_R0 : Rf 0 = a_Rm f.
  Proof. rewrite <- (proj1 axis_point). unfold Rf. f_equal; ring. Qed.
  Definition near (P : R -> Prop) : Prop := exists d, 0 < d /\ forall t, Rabs t < d -> P t.
  Lemma axis_near_r : forall eps, 0 < eps -> near (fun t => 0 <= rf t < eps).
  Proof.
    intros eps He.
    assert (C : continuous rf 0).
    { unfold rf, hypot at 1. apply (continuous_comp (fun t => (a_Rm f - Rf t) * (a_Rm f - Rf t) + (z + t * w - a_zax f) * (z + t * w - a_zax f)) sqrt).
      { assert (XR : ex_derive Rf 0) by (exists dR; exact axis_dR).
        apply (ex_derive_continuous (K := R_AbsRing) (V := R_NormedModule)). auto_derive. conj_all; try exact XR; exact I. }
      apply continuity_pt_filterlim. apply continuity_pt_sqrt. apply Rplus_le_le_0_compat; apply Rle_0_sqr. }
    apply continuity_pt_filterlim in C. destruct (C eps He) as (d & Hd & L). exists d. split; [exact Hd|]. intros t Ht.
    assert (Z0 : rf 0 = 0). { unfold rf. rewrite axis_R0. rewrite (proj2 axis_point). unfold hypot. transitivity (sqrt 0); [f_equal; ring|apply sqrt_0]. }
    split; [apply sqrt_pos|]. destruct (Req_EM_T t 0) as [->|Nt]; [rewrite Z0; exact He|].
    assert (B := L t). simpl in B. unfold R_dist in B. rewrite Z0, !Rminus_0_r in B. eapply Rle_lt_trans; [apply Rle_abs|]. apply B. split; [split; [exact I|intro E; apply Nt; symmetry; exact E]|exact Ht].
  Qed.
  Lemma axis_near_q : forall eps, 0 < eps -> near (fun t => safety_factor f (rf t) = Some (qval f (rf t)) /\ Rabs (qval f (rf t) - q) < eps).
  Proof.
    intros eps He. destruct (safety_near_axis f q Hq Nq HM eps He) as (d & Hd & L). destruct (axis_near_r d Hd) as (d' & Hd' & L').
    exists d'. split; [exact Hd'|]. intros t Ht. apply L. apply L'. exact Ht.
  Qed.
  Lemma axis_Q0 : qval f (rf 0) = q.
  Proof.
    assert (Z0 : rf 0 = 0). { unfold rf. rewrite axis_R0. rewrite (proj2 axis_point). unfold hypot. transitivity (sqrt 0); [f_equal; ring|apply sqrt_0]. }
    rewrite Z0. unfold qval. rewrite Hq. reflexivity.
  Qed.
  Lemma near_locally : forall P : R -> Prop, near P -> locally 0 P.
  Proof.
    intros P (d & Hd & L). exists (mkposreal d Hd). intros t B. apply L.
    change (Rabs (t - 0) < d) in B. rewrite Rminus_0_r in B. exact B.
  Qed.
  Lemma axis_locally : a_Rm f <> 0 -> locally 0 (fun t => Rf t <> 0 /\ qval f (rf t) <> 0 /\ safety_factor f (rf t) = Some (qval f (rf t)) /\
    eval f (x + t * u) (y + t * v) (z + t * w) = Some (Bx f (x + t * u) (y + t * v) (Rf t) (z + t * w - a_zax f) (qval f (rf t)),
      By f (x + t * u) (y + t * v) (Rf t) (z + t * w - a_zax f) (qval f (rf t)), Bz f (Rf t) (qval f (rf t)))).
  Proof.
    intro NM. assert (P : 0 < Rabs q) by (apply Rabs_pos_lt; exact Nq).
    assert (L1 := near_locally _ (axis_near_q (Rabs q) P)).
    assert (L2 := locally_nonzero _ _ (deriv_continuous _ _ _ axis_dR)). rewrite axis_R0 in L2. specialize (L2 NM).
    generalize (filter_and _ _ L1 L2). apply filter_imp. intros t [[A B] C].
    assert (N : qval f (rf t) <> 0). { intro E. rewrite E in B. rewrite Rminus_0_l, Rabs_Ropp in B. lra. }
    split; [exact C|]. split; [exact N|]. split; [exact A|]. apply eval_closed; try assumption.
  Qed.
  Lemma axis_continuous_q : forall eps, 0 < eps -> exists d, 0 < d /\ forall t, Rabs t < d -> Rabs (qval f (rf t) - q) < eps.
  Proof. intros eps He. destruct (axis_near_q eps He) as (d & Hd & L). exists d. split; [exact Hd|]. intros t Ht. apply L. exact Ht. Qed.
  (** Derivatives of the closed forms. *)
  Hypothesis NM : a_Rm f <> 0.
  Let XR : ex_derive Rf 0 := ex_intro _ dR axis_dR.
  Let FR : Derive (fun x => Rf x) 0 = dR := is_derive_unique _ _ _ axis_dR.
  Lemma axis_x : is_derive (fun t => Bx f (x + t * u) (y + t * v) (Rf t) (z + t * w - a_zax f) (qval f (rf t))) 0
    (a_B0 f * (a_sI f * w * x / (q * (a_Rm f * a_Rm f)) - a_sB f * v / a_Rm f + 2 * a_sB f * y * dR / (a_Rm f * a_Rm f))).
  Proof.
    apply (is_derive_ext_loc (fun t => a_B0 f * a_sI f * (z + t * w - a_zax f) * (x + t * u) / (Rf t * Rf t) / qval f (rf t) +
       - a_B0 f * a_sB f * a_Rm f * (y + t * v) / (Rf t * Rf t))).
    { generalize (axis_locally NM). apply filter_imp. intros t (A & B & _). unfold Bx. req. field. split; assumption. }
    eapply is_derive_eq.
    { apply (is_derive_plus (K := R_AbsRing) (V := R_NormedModule)).
      { apply (is_derive_vanish (fun t => a_B0 f * a_sI f * (z + t * w - a_zax f) * (x + t * u) / (Rf t * Rf t)) (fun t => qval f (rf t)) (a_B0 f * a_sI f * w * x / (a_Rm f * a_Rm f)) q).
        { auto_derive.
          { conj_all; try exact XR; try exact I. rewrite axis_R0. apply Rmult_integral_contrapositive_currified; assumption. }
          rewrite FR, axis_R0. rewrite (proj2 axis_point). field. assumption. }
        { rewrite (proj2 axis_point). unfold Rdiv. ring. }
        { exact axis_Q0. } { exact Nq. } { exact axis_continuous_q. } }
      auto_derive.
      { conj_all; try exact XR; try exact I. rewrite axis_R0. apply Rmult_integral_contrapositive_currified; assumption. }
      rewrite FR, axis_R0. reflexivity. }
    unfold plus; simpl. field. split; assumption.
  Qed.
  Lemma axis_y : is_derive (fun t => By f (x + t * u) (y + t * v) (Rf t) (z + t * w - a_zax f) (qval f (rf t))) 0
    (a_B0 f * (a_sI f * w * y / (q * (a_Rm f * a_Rm f)) + a_sB f * u / a_Rm f - 2 * a_sB f * x * dR / (a_Rm f * a_Rm f))).
  Proof.
    apply (is_derive_ext_loc (fun t => a_B0 f * a_sI f * (z + t * w - a_zax f) * (y + t * v) / (Rf t * Rf t) / qval f (rf t) +
       a_B0 f * a_sB f * a_Rm f * (x + t * u) / (Rf t * Rf t))).
    { generalize (axis_locally NM). apply filter_imp. intros t (A & B & _). unfold By. req. field. split; assumption. }
    eapply is_derive_eq.
    { apply (is_derive_plus (K := R_AbsRing) (V := R_NormedModule)).
      { apply (is_derive_vanish (fun t => a_B0 f * a_sI f * (z + t * w - a_zax f) * (y + t * v) / (Rf t * Rf t)) (fun t => qval f (rf t)) (a_B0 f * a_sI f * w * y / (a_Rm f * a_Rm f)) q).
        { auto_derive.
          { conj_all; try exact XR; try exact I. rewrite axis_R0. apply Rmult_integral_contrapositive_currified; assumption. }
          rewrite FR, axis_R0. rewrite (proj2 axis_point). field. assumption. }
        { rewrite (proj2 axis_point). unfold Rdiv. ring. }
        { exact axis_Q0. } { exact Nq. } { exact axis_continuous_q. } }
      auto_derive.
      { conj_all; try exact XR; try exact I. rewrite axis_R0. apply Rmult_integral_contrapositive_currified; assumption. }
      rewrite FR, axis_R0. reflexivity. }
    unfold plus; simpl. field. split; assumption.
  Qed.
  Lemma axis_z : is_derive (fun t => Bz f (Rf t) (qval f (rf t))) 0 (- a_B0 f * a_sI f * dR / (q * a_Rm f)).
  Proof.
    apply (is_derive_ext_loc (fun t => a_B0 f * a_sI f * (a_Rm f - Rf t) / Rf t / qval f (rf t))).
    { generalize (axis_locally NM). apply filter_imp. intros t (A & B & _). unfold Bz. req. field. split; assumption. }
    eapply is_derive_eq.
    { apply (is_derive_vanish (fun t => a_B0 f * a_sI f * (a_Rm f - Rf t) / Rf t) (fun t => qval f (rf t)) (- a_B0 f * a_sI f * dR / a_Rm f) q).
      { auto_derive.
        { conj_all; try exact XR; try exact I. rewrite axis_R0. assumption. }
        rewrite FR, axis_R0. field. assumption. }
      { rewrite axis_R0. unfold Rdiv. ring. }
      { exact axis_Q0. } { exact Nq. } { exact axis_continuous_q. } }
    field. split; assumption.
  Qed.
  (** The square of r / (Rm q) has a vanishing derivative. *)
  Lemma axis_square : is_derive (fun t => rf t / (a_Rm f * qval f (rf t)) * (rf t / (a_Rm f * qval f (rf t)))) 0 0.
  Proof.
    apply (is_derive_ext_loc (fun t => ((a_Rm f - Rf t) * (a_Rm f - Rf t) + (z + t * w - a_zax f) * (z + t * w - a_zax f)) / (a_Rm f * a_Rm f) / qval f (rf t) / qval f (rf t))).
    { generalize (axis_locally NM). apply filter_imp. intros t (A & B & _). rewrite <- (hypot_sq (a_Rm f - Rf t)). fold (rf t). req. field. split; assumption. }
    assert (D1 : is_derive (fun t => ((a_Rm f - Rf t) * (a_Rm f - Rf t) + (z + t * w - a_zax f) * (z + t * w - a_zax f)) / (a_Rm f * a_Rm f) / qval f (rf t)) 0 (0 / q)).
    { apply (is_derive_vanish (fun t => ((a_Rm f - Rf t) * (a_Rm f - Rf t) + (z + t * w - a_zax f) * (z + t * w - a_zax f)) / (a_Rm f * a_Rm f)) (fun t => qval f (rf t)) 0 q).
      { auto_derive; [conj_all; try exact XR; exact I|]. rewrite FR, axis_R0, (proj2 axis_point). unfold Rdiv. ring. }
      { rewrite axis_R0, (proj2 axis_point). unfold Rdiv. ring. }
      { exact axis_Q0. } { exact Nq. } { exact axis_continuous_q. } }
    eapply is_derive_eq.
    { apply (is_derive_vanish _ (fun t => qval f (rf t)) _ q D1).
      { rewrite axis_R0, (proj2 axis_point). unfold Rdiv. ring. }
      { exact axis_Q0. } { exact Nq. } { exact axis_continuous_q. } }
    field. assumption.
  Qed.
  Lemma axis_strength : deriv_along (strength f) x y z u v w (- a_B0 f * dR / a_Rm f).
  Proof.
    unfold deriv_along.
    apply (deriv_at_intro _ (fun t => a_B0 f * a_Rm f / Rf t * sqrt (rf t / (a_Rm f * qval f (rf t)) * (rf t / (a_Rm f * qval f (rf t))) + 1))).
    { generalize (axis_locally NM). apply filter_imp. intros t (A & B & C & _). apply strength_closed; assumption. }
    set (S := fun t => rf t / (a_Rm f * qval f (rf t)) * (rf t / (a_Rm f * qval f (rf t)))).
    assert (DS : is_derive S 0 0) by exact axis_square.
    assert (S0 : S 0 = 0). { unfold S. assert (Z0 : rf 0 = 0). { unfold rf. rewrite axis_R0. rewrite (proj2 axis_point). unfold hypot. transitivity (sqrt 0); [f_equal; ring|apply sqrt_0]. } rewrite Z0. unfold Rdiv. ring. }
    apply (is_derive_ext (fun t => a_B0 f * a_Rm f / Rf t * sqrt (S t + 1))); [reflexivity|].
    assert (XS : ex_derive S 0) by (exists 0; exact DS). assert (FS : Derive (fun x => S x) 0 = 0) by (apply is_derive_unique; exact DS).
    eapply is_derive_eq.
    { auto_derive.
      { conj_all; try exact XR; try exact XS; try exact I; [rewrite axis_R0; exact NM|rewrite S0; lra]. }
      rewrite FR, FS, S0, axis_R0. reflexivity. }
    rewrite Rplus_0_l, sqrt_1. field. exact NM.
  Qed.
End Axis.
(** [EvalDerivatives] on the magnetic axis. *)
Lemma derivs_on : forall f x y z m, ~ off_axis f x y z -> eval_derivatives f x y z = Some m -> exists q,
  hypot x y = a_Rm f /\ z = a_zax f /\ a_Rm f <> 0 /\ q <> 0 /\ safety_factor f 0 = Some q /\ hypot (a_Rm f - hypot x y) (z - a_zax f) = 0 /\
  m_B m = (- a_B0 f * a_sB f * y / a_Rm f, a_B0 f * a_sB f * x / a_Rm f, 0) /\
  m_J0 m = (2 * a_B0 f * a_sB f * x * y / (a_Rm f * a_Rm f * a_Rm f), a_B0 f * a_sB f * (2 * y * y / (a_Rm f * a_Rm f) - 1) / a_Rm f, a_sI f * a_B0 f * x / (q * a_Rm f * a_Rm f)) /\
  m_J1 m = (a_B0 f * a_sB f * (1 - 2 * x * x / (a_Rm f * a_Rm f)) / a_Rm f, - 2 * a_B0 f * a_sB f * x * y / (a_Rm f * a_Rm f * a_Rm f), a_sI f * a_B0 f * y / (q * a_Rm f * a_Rm f)) /\
  m_J2 m = (- a_sI f * a_B0 f * x / (q * a_Rm f * a_Rm f), - a_sI f * a_B0 f * y / (q * a_Rm f * a_Rm f), 0) /\
  m_curlB m = (- 2 * a_sI f * a_B0 f * y / (q * a_Rm f * a_Rm f), 2 * a_sI f * a_B0 f * x / (q * a_Rm f * a_Rm f), 0) /\
  m_gradB m = (0, 0, 0) /\ m_Babs m = a_B0 f.
Proof.
  intros f x y z m ON H. assert (II := derivs_inv _ _ _ _ _ H). destruct II as (HR & HM & q & Nq & Hq).
  unfold off_axis in ON. assert (HA : hypot (a_Rm f - hypot x y) (z - a_zax f) = 0) by (destruct (Req_EM_T (hypot (a_Rm f - hypot x y) (z - a_zax f)) 0); [assumption|contradiction]).
  destruct (hypot_zero _ _ HA) as [E1 E2]. assert (ER : hypot x y = a_Rm f) by lra. assert (EZ : z = a_zax f) by lra.
  assert (SQ := hypot_sq x y). rewrite ER in SQ.
  unfold eval_derivatives, geometry in H. rewrite HA in H. rewrite HA in Hq. rewrite ediv_ok in H by exact HR. rewrite Hq in H. destruct (Req_EM_T 0 0); [|lra].
  destruct (r_dq_dr f 0) as [rd|] eqn:Hd; [|discriminate H]. assert (R0 := profile_axis f rd Hd). subst rd.
  assert (N : a_Rm f * q <> 0) by (apply Rmult_integral_contrapositive_currified; assumption). rewrite ediv_ok in H by exact N.
  injection H as <-. exists q. rewrite E2, ER. cbn [m_B m_J0 m_J1 m_J2 m_curlB m_Babs m_gradB].
  assert (P3 : forall a b c a' b' c' : R, a = a' -> b = b' -> c = c' -> (a, b, c) = (a', b', c')) by (intros; subst; reflexivity).
  assert (S1 : sqrt (0 / (a_Rm f * q) * (0 / (a_Rm f * q)) + 1) = 1). { transitivity (sqrt 1); [f_equal; field; split; assumption|apply sqrt_1]. }
  rewrite S1. split; [reflexivity|]. split; [exact EZ|]. split; [exact HM|]. split; [exact Nq|]. split; [exact Hq|].
  split; [rewrite ER, E2 in HA; exact HA|].
  split; [apply P3; field; repeat split; assumption|].
  split; [apply P3; field; repeat split; assumption|].
  split; [apply P3; field; repeat split; assumption|].
  split; [apply P3; field; repeat split; assumption|].
  split; [apply P3; try reflexivity; field; repeat split; assumption|].
  split; [apply P3; field; repeat split; assumption|].
  field. exact HM.
Qed.
Lemma jacobian_axis : forall f x y z m u v w, ~ off_axis f x y z -> 0 < a_rminor f -> eval_derivatives f x y z = Some m ->
  deriv_along (component c0 (eval f)) x y z u v w (dot3 (m_J0 m) (u, v, w)) /\
  deriv_along (component c1 (eval f)) x y z u v w (dot3 (m_J1 m) (u, v, w)) /\
  deriv_along (component c2 (eval f)) x y z u v w (dot3 (m_J2 m) (u, v, w)).
Proof.
  intros f x y z m u v w ON HM H. destruct (derivs_on f x y z m ON H) as (q & ER & EZ & NM & Nq & Hq & HA & _ & J0 & J1 & J2 & _).
  assert (HR : hypot x y <> 0) by (rewrite ER; exact NM).
  assert (L := axis_locally f x y z u v w q HR HA Hq Nq HM NM). cbv beta zeta in L.
  split; [|split]; unfold deriv_along.
  { apply (deriv_at_intro _ (fun t => Bx f (x + t * u) (y + t * v) (hypot (x + t * u) (y + t * v)) (z + t * w - a_zax f) (qval f (hypot (a_Rm f - hypot (x + t * u) (y + t * v)) (z + t * w - a_zax f))))).
    { revert L. apply filter_imp. intros t (_ & _ & _ & A). exact (component_some c0 (eval f) _ _ _ _ A). }
    eapply is_derive_eq; [exact (axis_x f x y z u v w q HR HA Hq Nq HM NM)|].
    rewrite J0. unfold dot3, c0, c1, c2. cbn [fst snd]. field. split; assumption. }
  { apply (deriv_at_intro _ (fun t => By f (x + t * u) (y + t * v) (hypot (x + t * u) (y + t * v)) (z + t * w - a_zax f) (qval f (hypot (a_Rm f - hypot (x + t * u) (y + t * v)) (z + t * w - a_zax f))))).
    { revert L. apply filter_imp. intros t (_ & _ & _ & A). exact (component_some c1 (eval f) _ _ _ _ A). }
    eapply is_derive_eq; [exact (axis_y f x y z u v w q HR HA Hq Nq HM NM)|].
    rewrite J1. unfold dot3, c0, c1, c2. cbn [fst snd]. field. split; assumption. }
  { apply (deriv_at_intro _ (fun t => Bz f (hypot (x + t * u) (y + t * v)) (qval f (hypot (a_Rm f - hypot (x + t * u) (y + t * v)) (z + t * w - a_zax f))))).
    { revert L. apply filter_imp. intros t (_ & _ & _ & A). exact (component_some c2 (eval f) _ _ _ _ A). }
    eapply is_derive_eq; [exact (axis_z f x y z u v w q HR HA Hq Nq HM NM)|].
    rewrite J2. unfold dot3, c0, c1, c2. cbn [fst snd]. field. split; assumption. }
Qed.
Lemma deriv_at_unique : forall F x l l', deriv_at F x l -> deriv_at F x l' -> l = l'.
Proof.
  intros F x l l' (v0 & E0 & D) (v1 & E1 & D'). rewrite E0 in E1. injection E1 as <-.
  destruct (Req_EM_T l l') as [|N]; [assumption|exfalso].
  assert (P : 0 < Rabs (l - l') / 2) by (assert (0 < Rabs (l - l')) by (apply Rabs_pos_lt; lra); lra).
  destruct (D _ P) as (d & Hd & A). destruct (D' _ P) as (d' & Hd' & A').
  assert (Hm : 0 < Rmin d d') by (apply Rmin_glb_lt; assumption).
  assert (M1 := Rmin_l d d'). assert (M2 := Rmin_r d d').
  assert (AB : Rabs (Rmin d d' / 2) = Rmin d d' / 2) by (apply Rabs_pos_eq; lra).
  destruct (A (Rmin d d' / 2)) as (a & Ea & Ia); [lra|rewrite AB; lra|]. destruct (A' (Rmin d d' / 2)) as (a' & Ea' & Ia'); [lra|rewrite AB; lra|].
  rewrite Ea in Ea'. injection Ea' as <-. set (t := (a - v0) / (Rmin d d' / 2)) in *.
  assert (T := Rabs_triang (l - t) (t - l')). replace (l - t + (t - l')) with (l - l') in T by ring. rewrite (Rabs_minus_sym l t) in T. lra.
Qed.
Lemma deriv_at_ext : forall F G x l, (forall t, F t = G t) -> deriv_at F x l -> deriv_at G x l.
Proof.
  intros F G x l E (v0 & E0 & D). exists v0. split; [rewrite <- E; exact E0|]. intros eps He. destruct (D eps He) as (d & Hd & A). exists d. split; [exact Hd|].
  intros h Hh Hb. destruct (A h Hh Hb) as (v & Ev & Hv). exists v. rewrite <- E. split; assumption.
Qed.
Lemma norm_B : forall f x y RR Z q, is_sign (a_sB f) -> is_sign (a_sI f) -> 0 < a_B0 f * a_Rm f -> 0 < RR -> RR * RR = x * x + y * y -> a_Rm f <> 0 -> q <> 0 ->
  sqrt (dot3 (Bx f x y RR Z q, By f x y RR Z q, Bz f RR q) (Bx f x y RR Z q, By f x y RR Z q, Bz f RR q)) =
  a_B0 f * a_Rm f / RR * sqrt (hypot (a_Rm f - RR) Z / (a_Rm f * q) * (hypot (a_Rm f - RR) Z / (a_Rm f * q)) + 1).
Proof.
  intros f x y RR Z q SB SI P PR ER NM Nq. assert (NR : RR <> 0) by lra.
  assert (K : 0 < a_B0 f * a_Rm f / RR) by (apply Rdiv_lt_0_compat; assumption).
  rewrite <- (sqrt_square (a_B0 f * a_Rm f / RR)) at 1 by lra. rewrite <- sqrt_mult_alt by nra. f_equal.
  replace (hypot (a_Rm f - RR) Z / (a_Rm f * q) * (hypot (a_Rm f - RR) Z / (a_Rm f * q))) with (((a_Rm f - RR) * (a_Rm f - RR) + Z * Z) / (a_Rm f * q * (a_Rm f * q)))
    by (rewrite <- hypot_sq; field; split; assumption).
  assert (Y : y * y = RR * RR - x * x) by lra.
  assert (B2 : a_sB f * a_sB f = 1) by (destruct SB as [->| ->]; lra). assert (I2 : a_sI f * a_sI f = 1) by (destruct SI as [->| ->]; lra).
  transitivity (a_B0 f * a_B0 f * ((a_sI f * a_sI f) * (Z * Z) * (x * x + y * y) / (q * q * (RR * RR * (RR * RR))) + (a_sB f * a_sB f) * (a_Rm f * a_Rm f) * (x * x + y * y) / (RR * RR * (RR * RR))
     + (a_sI f * a_sI f) * (a_Rm f - RR) * (a_Rm f - RR) / (q * q * (RR * RR)))).
  { unfold dot3, Bx, By, Bz, c0, c1, c2. cbn [fst snd]. field. split; assumption. }
  rewrite <- ER, B2, I2. field. repeat split; assumption.
Qed.
Lemma strength_magnitude : forall f x y z, is_sign (a_sB f) -> is_sign (a_sI f) -> 0 < a_B0 f * a_Rm f -> strength f x y z = magnitude (eval f) x y z.
Proof.
  intros f x y z SB SI P. unfold magnitude. destruct (eval f x y z) as [b|] eqn:E.
  { destruct (eval_inv _ _ _ _ _ E) as (NR & NM & q & Nq & Hq). rewrite (strength_closed f x y z q NR NM Nq Hq).
    rewrite (eval_closed f x y z q NR NM Nq Hq) in E. injection E as <-. f_equal. symmetry.
    apply norm_B; try assumption; [apply hypot_pos; exact NR|apply hypot_sq]. }
  unfold strength. destruct (eval_derivatives f x y z) as [m|] eqn:D; [|reflexivity].
  assert (X : exists b, eval f x y z = Some b) by (apply derivs_defined; exists m; exact D). destruct X as [b X]. rewrite E in X. discriminate X.
Qed.
(** The flux on the axis. *)
Lemma flux_gradient_axis : forall f x y z v u1 u2 w, ~ off_axis f x y z -> 0 < a_rminor f -> hypot x y <> 0 -> eval_flux_derivatives f x y z = Some v ->
  deriv_along (eval_flux f) x y z u1 u2 w (c1 v * ((x * u1 + y * u2) / hypot x y) + c2 v * w).
Proof.
  intros f x y z v u1 u2 w ON HM HR H. destruct (fluxd_closed _ _ _ _ _ H) as (q & rd & Nq & Hq & Hd & EV).
  unfold off_axis in ON. assert (HA : hypot (a_Rm f - hypot x y) (z - a_zax f) = 0) by (destruct (Req_EM_T (hypot (a_Rm f - hypot x y) (z - a_zax f)) 0); [assumption|contradiction]).
  rewrite HA in Hq. destruct (hypot_zero _ _ HA) as [E1 E2]. assert (ER : hypot x y = a_Rm f) by lra.
  assert (NM : a_Rm f <> 0) by (rewrite <- ER; exact HR).
  assert (L := axis_locally f x y z u1 u2 w q HR HA Hq Nq HM NM). cbv beta zeta in L.
  set (Rf := fun t => hypot (x + t * u1) (y + t * u2)). set (rf := fun t => hypot (a_Rm f - Rf t) (z + t * w - a_zax f)).
  unfold deriv_along. apply (deriv_at_intro _ (fun t => a_sI f * PI * a_B0 f * ((a_Rm f - Rf t) * (a_Rm f - Rf t) + (z + t * w - a_zax f) * (z + t * w - a_zax f)) / qval f (rf t))).
  { revert L. apply filter_imp. intros t (_ & A & B & _). apply flux_closed; assumption. }
  assert (DR := axis_dR f x y z u1 u2 HR HA). cbv zeta in DR. fold Rf in DR.
  assert (XR : ex_derive Rf 0) by (eexists; exact DR). assert (R0 : Rf 0 = a_Rm f) by exact (axis_R0 f x y z u1 u2 HA).
  assert (FR : Derive (fun x => Rf x) 0 = (x * u1 + y * u2) / a_Rm f) by (apply is_derive_unique; exact DR).
  eapply is_derive_eq.
  { apply (is_derive_vanish (fun t => a_sI f * PI * a_B0 f * ((a_Rm f - Rf t) * (a_Rm f - Rf t) + (z + t * w - a_zax f) * (z + t * w - a_zax f))) (fun t => qval f (rf t)) 0 q).
    { auto_derive; [conj_all; try exact XR; exact I|]. rewrite FR, R0. replace (z + 0 * w + - a_zax f) with (z - a_zax f) by ring. rewrite E2. unfold Rdiv. ring. }
    { rewrite R0. replace (z + 0 * w - a_zax f) with (z - a_zax f) by ring. rewrite E2. ring. }
    { exact (axis_Q0 f x y z u1 u2 w q HA Hq). } { exact Nq. }
    { exact (axis_continuous_q f x y z u1 u2 w q HR HA Hq Nq HM). } }
  rewrite EV. unfold c1, c2. cbn [fst snd]. rewrite E2, ER. field. repeat split; assumption.
Qed.
