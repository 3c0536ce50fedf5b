(** C124: replacing the equation during an integration. *)
From Coq Require Import ZArith Reals Lra Lia.
From Verif Require Import Base AlgebraModel IntegratorModel IntegratorSpec IntegratorProofs StepProofs DenseProofs IntegratorUse EquationSpec EquationProofs.
Local Open Scope R_scope.

Definition begin (tol : R) (f : R -> vec -> vec) : rk := set_equation (new_rk tol) f.
Lemma do_ecalls_app : forall N eps fuel cs1 cs2 s, do_ecalls N eps fuel s (cs1 ++ cs2) =
  match do_ecalls N eps fuel s cs1 with Some (Ok s') => do_ecalls N eps fuel s' cs2 | o => o end.
Proof.
  intros N eps fuel cs1 cs2. induction cs1 as [|c cs1 IH]; intros s; [reflexivity|]. cbn [app do_ecalls].
  destruct (do_ecall N eps fuel s c) as [[s'| |]|]; try reflexivity. apply IH.
Qed.
Lemma started : forall N f eps fuel tol y0 (cs : list ecall), (1 <= N)%nat -> (Z.of_nat N * (Z.of_nat (length cs) + 1002) < 2 ^ 32)%Z ->
  exists s, (forall cs, do_ecalls N eps fuel (begin tol f) (ECall (CInit y0) :: cs) = do_ecalls N eps fuel s cs) /\
    rkinv N f (Z.of_nat (length cs) + 2) s [(0, y0, f 0 y0)] /\ k_ctrl s = new_control /\ k_par s = default_params tol.
Proof.
  intros N f eps fuel tol y0 cs HN HB.
  destruct (init_inv N HN f (Z.of_nat (length cs) + 2) (begin tol f) y0 ltac:(lia) ltac:(lia)
              (new_pre N HN f (Z.of_nat (length cs) + 2) tol ltac:(lia))) as (s & E & I & _ & _ & C).
  exists s. split; [intros cs0; cbn [do_ecalls do_ecall do_call]; rewrite E; reflexivity|]. split; [exact I|]. split; [exact C|].
  unfold rk_initial_value in E. destruct (initial_value N _ _ y0) as [st| |]; try discriminate E. injection E as <-. reflexivity.
Qed.

(** Whatever the calls, nothing is undefined; the points are reached from one another by
    steps of equations that have been set, and all but the first stage of a step are
    evaluated with the same equation. *)
Theorem C124_history : forall N f eps fuel tol y0 cs o, fits_e N cs -> reads_components N f ->
  do_ecalls N eps fuel (begin tol f) (ECall (CInit y0) :: cs) = Some o ->
  exists s l, o = Ok s /\ represents N (k_store s) l /\ switched N (fun g => g = f \/ In (ESet g) cs) l.
Proof.
  intros N f eps fuel tol y0 cs o (HN & HB & Hg) Hf H.
  destruct (started N f eps fuel tol y0 cs HN HB) as (s1 & E1 & I1 & _). rewrite (E1 cs) in H.
  destruct (xcalls N (fun g => g = f \/ In (ESet g) cs) HN ltac:(intros g [->|G]; [exact Hf|apply (Hg _ G)]) (Z.of_nat (length cs) + 2) eps fuel cs s1 [(0, y0, f 0 y0)] f o)
    as (s & l & Eo & I & SW & _); [lia|apply rk_x; exact I1|left; reflexivity|intros g G; right; exact G|cbn [length]; lia|exact Hg| |exact H|].
  - apply (sw_start N _ f); [left; reflexivity|]. intros j Hj. reflexivity.
  - exists s, l. split; [exact Eo|]. split; [|exact SW]. apply (sinv_represents N HN (Z.of_nat (length cs) + 2)); [lia|apply (xi_store _ _ _ _ _ I)].
Qed.
Print Assumptions C124_history.

Lemma last_derivative_of : forall N E l p, switched N E (l ++ [p]) -> exists f, E f /\ derivative_of N f p.
Proof.
  intros N E l p H. inversion H as [f y yp EF D EL|g l0 p0 q EG SW ST EL].
  - destruct l as [|x l]; [|destruct l; discriminate EL]. injection EL as <-. exists f. split; assumption.
  - change (l0 ++ [p0; q]) with (l0 ++ [p0] ++ [q]) in EL. rewrite app_assoc in EL. apply app_inj_tail in EL. destruct EL as (_ & <-). exists g. split; [exact EG|].
    destruct p0 as ((t, y), yp), q as ((t', y'), yp'). intros j Hj. apply (proj2 ST j Hj).
Qed.
Lemma steps_derivative : forall N g l p, steps_from N g p l -> forall q, In q l -> derivative_of N g q.
Proof.
  intros N g l. induction l as [|r l IH]; intros p H q Q; [destruct Q|]. destruct H as (ST & H). destruct Q as [->|Q]; [|apply (IH r H q Q)].
  destruct p as ((t, y), yp), q as ((t', y'), yp'). intros j Hj. apply (proj2 ST j Hj).
Qed.

(** SetEquation(g) between two steps: the points so far stay.  The following ones are reached by
    steps of [g], but the first of these steps starts with the derivative of the equation
    that was in force when the last point was stored; only the later ones belong to [g] entirely. *)
Theorem C124_change : forall N f eps fuel tol y0 cs s g cs' o, fits_e N (cs ++ ESet g :: cs') -> reads_components N f ->
  do_ecalls N eps fuel (begin tol f) (ECall (CInit y0) :: cs) = Some (Ok s) ->
  (forall c, In c cs' -> goes_on c /\ forall e, c <> ESet e) -> do_ecalls N eps fuel s (ESet g :: cs') = Some o ->
  exists s' l p l2 e, o = Ok s' /\ represents N (k_store s) (l ++ [p]) /\ (e = f \/ In (ESet e) cs) /\ derivative_of N e p /\
    represents N (k_store s') ((l ++ [p]) ++ l2) /\ steps_from N g p l2 /\ forall q, In q l2 -> derivative_of N g q.
Proof.
  intros N f eps fuel tol y0 cs s g cs' o (HN & HB & Hg) Hf H Hc H'. rewrite app_length in HB. cbn [length] in HB.
  destruct (init_inv N HN f (Z.of_nat (length cs) + Z.of_nat (length cs') + 3) (begin tol f) y0 ltac:(lia) ltac:(lia)
              (new_pre N HN f (Z.of_nat (length cs) + Z.of_nat (length cs') + 3) tol ltac:(lia))) as (s1 & E1 & I1 & _).
  set (P := (Z.of_nat (length cs) + Z.of_nat (length cs') + 3)%Z) in *.
  assert (HP : (Z.of_nat N * (P + 1000) < 2 ^ 32)%Z) by (unfold P; lia).
  cbn [do_ecalls] in H. unfold do_ecall in H at 1. unfold do_call in H at 1. rewrite E1 in H.
  assert (RC : forall e, e = f \/ In (ESet e) cs -> reads_components N e).
  { intros e [->|G]; [exact Hf|]. apply (Hg (ESet e)). apply in_app_iff. left. exact G. }
  destruct (xcalls N (fun e => e = f \/ In (ESet e) cs) HN RC P eps fuel cs s1 [(0, y0, f 0 y0)] f (Ok s))
    as (s2 & l & Eo & I & SW & Hlen & _); [exact HP|apply rk_x; exact I1|left; reflexivity|intros e G; right; exact G|cbn [length]; lia| | |exact H|].
  { intros c C. apply Hg. apply in_app_iff. left. exact C. }
  { apply (sw_start N _ f); [left; reflexivity|]. intros j Hj. reflexivity. }
  injection Eo as <-. cbn [length] in Hlen.
  cbn [do_ecalls do_ecall] in H'.
  set (E2 := fun e => (e = f \/ In (ESet e) cs) \/ e = g).
  assert (RG : reads_components N g) by (apply (Hg (ESet g)); apply in_app_iff; right; left; reflexivity).
  assert (SW2 : switched N E2 l).
  { clear - SW. induction SW as [e y yp EE D|e l p q EE SW IH ST]; [apply (sw_start N E2 e); [left; exact EE|exact D]|apply (sw_step N E2 e); [left; exact EE|exact IH|exact ST]]. }
  destruct (xcalls N E2 HN ltac:(intros e [X| ->]; [apply RC; exact X|exact RG]) P eps fuel cs' (set_equation s g) l g o)
    as (s' & l' & Eo' & I' & _ & _ & _ & K); [exact HP|apply (x_set N _ g P s l I)|right; reflexivity| |lia| |exact SW2|exact H'|].
  { intros e G. exfalso. apply (proj2 (Hc _ G) e). reflexivity. }
  { intros c C. apply Hg. apply in_app_iff. right. right. exact C. }
  destruct (K Hc) as (l0 & p & l2 & A1 & A2 & A3). rewrite A1 in *.
  destruct (last_derivative_of N _ l0 p SW) as (e & EE & DE).
  exists s', l0, p, l2, e. split; [exact Eo'|]. split; [apply (sinv_represents N HN P); [exact HP|apply (xi_store _ _ _ _ _ I)]|].
  split; [exact EE|]. split; [exact DE|]. split; [rewrite <- A2; apply (sinv_represents N HN P); [exact HP|apply (xi_store _ _ _ _ _ I')]|].
  split; [exact A3|]. apply (steps_derivative N g l2 p A3).
Qed.
Print Assumptions C124_change.

(** SetEquation itself changes nothing else: points, dense output, tolerances and the step size to
    be tried next are those of before. *)
Theorem C124_keeps : forall N s g i ts, k_store (set_equation s g) = k_store s /\ output_dense N (set_equation s g) i ts = output_dense N s i ts /\
  k_par (set_equation s g) = k_par s /\ k_ctrl (set_equation s g) = k_ctrl s /\ k_on (set_equation s g) = k_on s.
Proof. intros N s g i ts. split; [reflexivity|]. split; [|split; [reflexivity|split; reflexivity]]. revert i. induction ts as [|T ts IH]; intros i; [reflexivity|].
  cbn [output_dense]. change (k_store (set_equation s g)) with (k_store s). change (k_dense (set_equation s g)) with (k_dense s). cbv zeta.
  destruct (advance _ (k_store s) i T) as [it| |]; cbn [obind]; [|reflexivity|reflexivity].
  destruct (bread (s_time (k_store s)) (it + 1)) as [t1| |]; cbn [obind]; [|reflexivity|reflexivity]. destruct (Rlt_dec t1 T); [reflexivity|].
  destruct (bread (s_time (k_store s)) it) as [t0| |]; cbn [obind]; [|reflexivity|reflexivity]. rewrite IH. reflexivity.
Qed.
Print Assumptions C124_keeps.

(** For constant right-hand sides: [u] before, [v] after the change. *)
Theorem C124_constant : forall N u v p q j, (j < N)%nat -> dp_step N (fun _ _ => v) p q -> derivative_of N (fun _ _ => u) p ->
  snd (fst q) j = snd (fst p) j + (time_of q - time_of p) * (35 / 384 * u j + 349 / 384 * v j).
Proof.
  intros N u v ((t, y), yp) ((t', y'), yp') j Hj (_ & ST) D. unfold time_of. cbn [fst snd]. rewrite (proj1 (ST j Hj)). cbn [derivative_of] in D.
  unfold inner_step. cbn [a_yout]. rewrite (D j Hj). unfold a71, a73, a74, a75, a76. field.
Qed.
Print Assumptions C124_constant.

Lemma do_plain : forall N eps fuel cs s, do_ecalls N eps fuel s (map ECall cs) = do_calls N eps fuel s cs.
Proof. intros N eps fuel cs. induction cs as [|c cs IH]; intros s; [reflexivity|]. cbn [map do_ecalls do_calls do_ecall]. destruct (do_call N eps fuel s c) as [[s'| |]|]; try reflexivity. apply IH. Qed.
(** With a new initial value after SetEquation(g) everything that came before is forgotten: the
    points are a solution of [g]. *)
Theorem C124_reset : forall N f eps fuel tol y0 cs s g y1 cs' o, fits_e N (cs ++ ESet g :: ECall (CInit y1) :: map ECall cs') -> reads_components N f ->
  do_ecalls N eps fuel (begin tol f) (ECall (CInit y0) :: cs) = Some (Ok s) ->
  do_ecalls N eps fuel s (ESet g :: ECall (CInit y1) :: map ECall cs') = Some o ->
  exists s' l, o = Ok s' /\ represents N (k_store s') l /\ trajectory N g l.
Proof.
  intros N f eps fuel tol y0 cs s g y1 cs' o (HN & HB & Hg) Hf H H'. rewrite app_length in HB. cbn [length] in HB. rewrite map_length in HB.
  destruct (init_inv N HN f (Z.of_nat (length cs) + Z.of_nat (length cs') + 3) (begin tol f) y0 ltac:(lia) ltac:(lia)
              (new_pre N HN f (Z.of_nat (length cs) + Z.of_nat (length cs') + 3) tol ltac:(lia))) as (s1 & E1 & I1 & _).
  set (P := (Z.of_nat (length cs) + Z.of_nat (length cs') + 3)%Z) in *.
  assert (HP : (Z.of_nat N * (P + 1000) < 2 ^ 32)%Z) by (unfold P; lia).
  cbn [do_ecalls] in H. unfold do_ecall in H at 1. unfold do_call in H at 1. rewrite E1 in H.
  assert (RC : forall e, e = f \/ In (ESet e) cs -> reads_components N e).
  { intros e [->|G]; [exact Hf|]. apply (Hg (ESet e)). apply in_app_iff. left. exact G. }
  destruct (xcalls N (fun e => e = f \/ In (ESet e) cs) HN RC P eps fuel cs s1 [(0, y0, f 0 y0)] f (Ok s))
    as (s2 & l & Eo & I & _); [exact HP|apply rk_x; exact I1|left; reflexivity|intros e G; right; exact G|cbn [length]; lia| | |exact H|].
  { intros c C. apply Hg. apply in_app_iff. left. exact C. }
  { apply (sw_start N _ f); [left; reflexivity|]. intros j Hj. reflexivity. }
  injection Eo as <-. cbn [do_ecalls do_ecall do_call] in H'.
  destruct (xinit N HN g P (set_equation s g) l y1 HP ltac:(lia) (x_set _ _ g _ _ _ I)) as (s3 & E3 & I3). rewrite E3, do_plain in H'.
  assert (RG : reads_components N g) by (apply (Hg (ESet g)); apply in_app_iff; right; left; reflexivity).
  destruct (calls_inv N HN g RG P eps fuel cs' s3 _ o HP I3) as (s' & l' & Eo' & I' & _); [cbn [length]; lia| |exact H'|].
  { intros c C. apply (Hg (ECall c)). apply in_app_iff. right. right. right. apply in_map. exact C. }
  exists s', l'. split; [exact Eo'|]. split; [apply (sinv_represents N HN P); [exact HP|apply (ri_store _ _ _ _ _ I')]|apply (ri_traj _ _ _ _ _ I')].
Qed.
Print Assumptions C124_reset.

(** * The equation y' = 1 is replaced by y' = 0, and the solution goes on growing *)
Definition one (_ : R) (_ : vec) : vec := fun _ => 1.
Definition nought (_ : R) (_ : vec) : vec := fun _ => 0.
Lemma one_reads : forall N, reads_components N one. Proof. intros N t v w _ j _. reflexivity. Qed.
Lemma nought_reads : forall N, reads_components N nought. Proof. intros N t v w _ j _. reflexivity. Qed.
Lemma mixed_error : forall v w, v 0%nat = 0 -> w 0%nat = 1 -> let a := inner_step nought 0 1 v w in
  exists x, estimate_error 1 (default_params 1) v (a_yout a) (a_yerr a) = ENum x /\ x <= 1.
Proof.
  intros v w V W a. assert (Y : a_yerr a 0%nat = 71 / 57600).
  { unfold a, inner_step, nought. cbn [a_yerr]. rewrite W. unfold e1. field. }
  assert (S1 : 1 <= sk (default_params 1) v (a_yout a) 0).
  { unfold sk, default_params. cbn [g_atol g_rtol]. pose proof (Rabs_pos (v 0%nat)). pose proof (Rmax_l (Rabs (v 0%nat)) (Rabs (a_yout a 0%nat))). lra. }
  unfold estimate_error. rewrite error_sum_eq.
  - eexists. split; [reflexivity|]. cbn [seq map fold_right]. unfold rsum. cbn [seq map fold_right INR]. rewrite Y.
    assert (Q : 0 <= 71 / 57600 / sk (default_params 1) v (a_yout a) 0 <= 1).
    { split; [apply Rmult_le_pos; [lra|left; apply Rinv_0_lt_compat; lra]|].
      apply Rmult_le_reg_r with (sk (default_params 1) v (a_yout a) 0); [lra|].
      unfold Rdiv at 1. rewrite Rmult_assoc, Rinv_l by lra. lra. }
    apply Rle_trans with (sqrt 1); [|rewrite sqrt_1; lra]. apply sqrt_le_1_alt. set (z := 71 / 57600 / sk (default_params 1) v (a_yout a) 0) in *. unfold Rsqr. replace ((z * z + 0) / 1) with (z * z) by field. clear - Q. nra.
  - intros i Hi. assert (i = 0%nat) by lia. subst i. lra.
Qed.

(** A step whose first attempt is accepted. *)
Lemma xfirst : forall N f P eps s l t y yp x, (1 <= N)%nat -> (Z.of_nat N * (P + 1000) < 2 ^ 32)%Z ->
  xinv N f P s (l ++ [(t, y, yp)]) -> (Z.of_nat (length l) + 1 < P)%Z ->
  (forall v w, (forall j, (j < N)%nat -> v j = y j) -> (forall j, (j < N)%nat -> w j = yp j) ->
     let a := inner_step f t (c_opt (k_ctrl s)) v w in exists x, estimate_error N (k_par s) v (a_yout a) (a_yerr a) = ENum x /\ x <= 1) ->
  x = t + c_opt (k_ctrl s) -> exists s', rk_step N eps 1 s = Some (Ok x, s').
Proof.
  intros N f P eps s l t y yp xx HN HB I HP Hest ->.
  destruct (last_reads N HN P (k_store s) l t y yp (k_y s) HB (xi_store _ _ _ _ _ I)) as (E1 & (v & E2 & Ev) & _).
  destruct (last_reads N HN P (k_store s) l t y yp (k_dydx s) HB (xi_store _ _ _ _ _ I)) as (_ & _ & (w & E3 & Ew)).
  specialize (Hest v w Ev Ew). cbv zeta in Hest. destruct Hest as (x & Hest & Hx).
  set (c := Control (c_opt (k_ctrl s)) (c_opt (k_ctrl s)) (c_errold (k_ctrl s)) (c_rejected (k_ctrl s))).
  destruct (store_solution_inv N HN P (k_store s) _ (t + c_opt (k_ctrl s)) (a_yout (inner_step f t (c_opt (k_ctrl s)) v w))
     (a_dydxout (inner_step f t (c_opt (k_ctrl s)) v w)) HB (xi_store _ _ _ _ _ I)) as (st & Est & SI & HA).
  { rewrite app_length. cbn [length]. lia. }
  pose proof (xi_par _ _ _ _ _ I) as Hp.
  destruct (accept_bounds (k_par s) c x Hp Hx) as (q & Eq & Hq1 & Hq2).
  unfold rk_step. rewrite (xi_eqn _ _ _ _ _ I), E2, E3, E1. fold c. cbn [try_steps].
  change (c_h c) with (c_opt (k_ctrl s)). rewrite Hest, Eq.
  cbn [c_h]. change (c_h c) with (c_opt (k_ctrl s)). rewrite Est.
  destruct (k_on s && (1 <? s_n st)%Z)%bool eqn:Eon; [|eexists; reflexivity].
  destruct (prepare_dense_inv N HN (s_n st) (s_alloc st) (k_dense s) (c_opt (k_ctrl s)) v (a_yout (inner_step f t (c_opt (k_ctrl s)) v w)) w
       (a_dydxout (inner_step f t (c_opt (k_ctrl s)) v w)) (inner_step f t (c_opt (k_ctrl s)) v w)) as (r & Er & _).
  - apply andb_prop in Eon. destruct Eon as (_ & Eon). apply Z.ltb_lt in Eon. destruct SI; lia.
  - destruct SI. eapply Z.le_lt_trans; [|exact HB]. apply Z.mul_le_mono_nonneg_l; lia.
  - destruct (xi_dense _ _ _ _ _ I) as [A1 A2 A3 A4 A5 A6]. constructor; try assumption. lia.
  - rewrite Er. eexists. reflexivity.
Qed.
Example C124_example : exists s s', fits_e 1 ([] ++ ESet nought :: [ECall CStep]) /\ reads_components 1 one /\
  do_ecalls 1 0 1 (begin 1 one) (ECall (CInit zero_vec) :: []) = Some (Ok s) /\ do_ecalls 1 0 1 s (ESet nought :: [ECall CStep]) = Some (Ok s') /\
  steps_taken (k_store s') = 2%Z /\ time_at (k_store s') 1 = Ok 1 /\ solution_at 1 (k_store s') 1 0 = Ok (35 / 384).
Proof.
  set (cs := [ESet nought; ECall CStep]). assert (HB : (Z.of_nat 1 * (4 + 1000) < 2 ^ 32)%Z) by reflexivity.
  destruct (started 1 one 0 1 1 zero_vec cs ltac:(lia) ltac:(reflexivity)) as (s & E & I & C & PA).
  change (Z.of_nat (length cs) + 2)%Z with 4%Z in I. exists s.
  assert (ST : exists s', rk_step 1 0 1 (set_equation s nought) = Some (Ok 1, s')).
  { apply (xfirst 1 nought 4 0 (set_equation s nought) [] 0 zero_vec (one 0 zero_vec)); [lia|exact HB|apply (x_set 1 one nought 4 s), rk_x; exact I|cbn; lia| |].
    - intros v w V W. change (k_ctrl (set_equation s nought)) with (k_ctrl s). change (k_par (set_equation s nought)) with (k_par s). rewrite C, PA. cbn [new_control c_opt].
      apply mixed_error; [apply (V 0%nat); lia|apply (W 0%nat); lia].
    - change (k_ctrl (set_equation s nought)) with (k_ctrl s). rewrite C. cbn [new_control c_opt]. ring. }
  destruct ST as (s' & ST). exists s'.
  assert (FI : fits_e 1 cs).
  { split; [lia|]. split; [reflexivity|]. intros c [<-|[<-|[]]]; [apply nought_reads|exact Logic.I]. }
  assert (E' : do_ecalls 1 0 1 s cs = Some (Ok s')) by (unfold cs; cbn [do_ecalls do_ecall do_call]; rewrite ST; reflexivity).
  destruct (C124_change 1 one 0 1 1 zero_vec [] s nought [ECall CStep] (Ok s') FI (one_reads 1) (E []) ltac:(intros c [<-|[]]; split; [exact Logic.I|intros e; discriminate]) E')
    as (s2 & l & p & l2 & e & Eo & RE & [->|[]] & DE & RE' & SF & _). injection Eo as <-.
  destruct (xstep 1 ltac:(lia) nought (nought_reads 1) 4 0 1 (set_equation s nought) [(0, zero_vec, one 0 zero_vec)] (Ok 1) s' HB (x_set 1 one nought 4 s _ (rk_x _ _ _ _ _ I)) ltac:(cbn; lia) ST)
    as [(X & _)|(l0 & p0 & t' & y' & yp' & El & Et & DP & I')]; [discriminate X|]. injection Et as <-.
  destruct l0 as [|a l0]; [|destruct l0; discriminate El]. injection El as <-.
  pose proof (sinv_represents 1 ltac:(lia) 4 _ _ HB (xi_store _ _ _ _ _ I')) as (R1 & R2). destruct (R2 1%nat 1 y' yp' eq_refl) as (T1 & S1).
  split; [exact FI|]. split; [apply one_reads|]. split; [apply (E [])|]. split; [exact E'|]. split; [exact R1|]. split; [exact T1|].
  change 1%Z with (Z.of_nat 1). rewrite (proj1 (S1 0%nat ltac:(lia))). f_equal.
  pose proof (C124_constant 1 (fun _ => 1) (fun _ => 0) (0, zero_vec, one 0 zero_vec) (1, y', yp') 0 ltac:(lia) DP ltac:(intros j Hj; reflexivity)) as V.
  unfold time_of, zero_vec in V. cbn [fst snd] in V. rewrite V. field.
Qed.
(** So the points after SetEquation(g) need not be steps of [g] from the points before them. *)
Theorem C124_change_refuted : ~ (forall N f eps fuel tol y0 g s, fits_e N [ESet g; ECall CStep] -> reads_components N f ->
  do_ecalls N eps fuel (begin tol f) [ECall (CInit y0); ESet g; ECall CStep] = Some (Ok s) ->
  exists l, represents N (k_store s) l /\ forall t y yp q l2, l = (t, y, yp) :: q :: l2 -> dp_step N g (t, y, g t y) q).
Proof.
  intro H. destruct C124_example as (s & s' & FI & RC & E0 & E1 & R1 & T1 & S1).
  assert (E : do_ecalls 1 0 1 (begin 1 one) ([ECall (CInit zero_vec)] ++ [ESet nought; ECall CStep]) = Some (Ok s')) by (rewrite do_ecalls_app, E0; exact E1).
  destruct (H 1%nat one 0 1%nat 1 zero_vec nought s' FI RC E) as (l & (L1 & L2) & K).
  rewrite R1 in L1. destruct l as [|((t, y), yp) [|((t', y'), yp') l]]; cbn [length] in L1; try lia.
  specialize (K t y yp (t', y', yp') l eq_refl). destruct (L2 1%nat t' y' yp' eq_refl) as (_ & L3). destruct (L3 0%nat ltac:(lia)) as (L4 & _).
  change (Z.of_nat 1) with 1%Z in L4. rewrite S1 in L4. injection L4 as L4.
  pose proof (C124_constant 1 (fun _ => 0) (fun _ => 0) (t, y, nought t y) (t', y', yp') 0 ltac:(lia) K ltac:(intros j Hj; reflexivity)) as V. cbn [fst snd] in V.
  (* the first solution is the initial value *)
  assert (Y0 : y 0%nat = 0).
  { destruct (started 1 one 0 1 1 zero_vec [] ltac:(lia) ltac:(reflexivity)) as (s3 & E3 & I3 & _).
    rewrite (E3 []) in E0. injection E0 as <-. 
    destruct (xcalls 1 (fun g => g = one \/ g = nought) ltac:(lia) ltac:(intros g [->| ->]; [apply one_reads|apply nought_reads]) 4 0 1 [ESet nought; ECall CStep] s3 [(0, zero_vec, one 0 zero_vec)] one (Ok s'))
      as (s4 & l' & Eo & I4 & _ & _ & G1 & _); [reflexivity| |left; reflexivity| |cbn; lia| | |exact E1|].
    - destruct (rk_x _ _ _ _ _ I3) as [A B C D F G]. constructor; try assumption. destruct C. constructor; try assumption; cbn in *; lia.
    - intros g [X|[X|[]]]; [injection X as <-; right; reflexivity|discriminate X].
    - apply FI.
    - apply (sw_start 1 _ one); [left; reflexivity|]. intros j Hj. reflexivity.
    - injection Eo as <-. destruct G1 as (l2 & G1); [intros c [<-|[<-|[]]]; exact Logic.I|].
      pose proof (sinv_represents 1 ltac:(lia) 4 _ _ ltac:(reflexivity) (xi_store _ _ _ _ _ I4)) as (_ & Q2). rewrite G1 in Q2.
      destruct (Q2 0%nat 0 zero_vec (one 0 zero_vec) eq_refl) as (_ & Q3). destruct (Q3 0%nat ltac:(lia)) as (Q4 & _).
      destruct (L2 0%nat t y yp eq_refl) as (_ & L5). destruct (L5 0%nat ltac:(lia)) as (L6 & _). rewrite Q4 in L6. injection L6 as L6. rewrite <- L6. reflexivity. }
  rewrite Y0, <- L4 in V. lra.
Qed.
Print Assumptions C124_change_refuted.
