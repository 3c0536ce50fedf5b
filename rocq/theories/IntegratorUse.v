(** Consequences for whole integrations, used by the property theorems. *)
From Coq Require Import ZArith Reals Lra Lia.
From Verif Require Import Base AlgebraModel IntegratorModel IntegratorSpec IntegratorProofs StepProofs TableauProofs DenseProofs.
Local Open Scope R_scope.

Lemma estimate_nonneg : forall N p y1 y2 e x, estimate_error N p y1 y2 e = ENum x -> 0 <= x.
Proof.
  intros N p y1 y2 e x H. unfold estimate_error in H. destruct (error_sum N p y1 y2 e); try discriminate H.
  injection H as H. subst x. apply sqrt_pos.
Qed.

Lemma error_sum_eq : forall n p y1 y2 e, (forall i, (i < n)%nat -> sk p y1 y2 i <> 0) ->
  error_sum n p y1 y2 e = ENum (rsum n (fun i => (e i / sk p y1 y2 i)²)).
Proof.
  induction n as [|n IH]; intros p y1 y2 e H; cbn [error_sum]; [reflexivity|].
  rewrite IH by (intros i Hi; apply H; lia).
  destruct (Req_EM_T (sk p y1 y2 n) 0) as [E|_]; [exfalso; apply (H n); [lia|exact E]|].
  f_equal. unfold rsum. rewrite seq_S, map_app, fold_right_app. cbn [map fold_right Nat.add].
  rewrite Rplus_0_r. unfold Rsqr at 2 3.
  generalize (e n / sk p y1 y2 n * (e n / sk p y1 y2 n)). intro z.
  induction (map _ (seq 0 n)) as [|x l IHl]; cbn [fold_right]; lra.
Qed.

(** An attempt whose error estimate is zero in every component is accepted at once. *)
Lemma zero_error_accepted : forall N p y1 y2 e, (1 <= N)%nat -> 0 < g_atol p -> 0 <= g_rtol p ->
  (forall i, (i < N)%nat -> e i = 0) -> estimate_error N p y1 y2 e = ENum 0.
Proof.
  intros N p y1 y2 e HN Ha Hr He. unfold estimate_error. rewrite error_sum_eq.
  - f_equal. assert (Z : rsum N (fun i => (e i / sk p y1 y2 i)²) = 0).
    { unfold rsum. assert (K : forall i, In i (seq 0 N) -> (i < N)%nat) by (intros i Hi; apply in_seq in Hi; lia).
      induction (seq 0 N) as [|i l IH]; cbn [map fold_right]; [reflexivity|].
      rewrite IH by (intros i' Hi'; apply K; right; exact Hi'). rewrite (He i) by (apply K; left; reflexivity).
      unfold Rsqr, Rdiv. ring. }
    rewrite Z. unfold Rdiv. rewrite Rmult_0_l. apply sqrt_0.
  - intros i Hi. unfold sk. pose proof (Rabs_pos (y1 i)). pose proof (Rmax_l (Rabs (y1 i)) (Rabs (y2 i))). nra.
Qed.

Lemma traj_poly : forall N f cs l, trajectory N f l -> time_only f cs ->
  forall y0 yp0 l', l = (0, y0, yp0) :: l' ->
  forall t y yp, In (t, y, yp) l -> forall j, (j < N)%nat -> y j = y0 j + poly4_integral (cs j) t.
Proof.
  intros N f cs l H Hf. induction H as [y yp Hy|l t y yp h y' yp' Ht IH Hh Hy' Hyp']; intros y0 yp0 l' El t1 y1 yp1 Hin j Hj.
  - injection El as E1 E2 E3. subst. destruct Hin as [E|[]]. injection E as E1 E2 E3. subst.
    unfold poly4_integral. field.
  - assert (El' : exists l2, l ++ [(t, y, yp)] = (0, y0, yp0) :: l2).
    { destruct l as [|q l]; [injection El as E1 E2 E3 E4; subst; exists []; reflexivity|].
      injection El as E1 E2. subst. eexists. reflexivity. }
    destruct El' as (l2 & El'). specialize (IH y0 yp0 l2 El').
    apply in_app_iff in Hin. destruct Hin as [Hin|[E|[E|[]]]].
    + apply (IH t1 y1 yp1); [apply in_app_iff; left; exact Hin|exact Hj].
    + apply (IH t1 y1 yp1); [apply in_app_iff; right; left; exact E|exact Hj].
    + injection E as E1 E2 E3. subst t1 y1 yp1. rewrite Hy' by exact Hj.
      assert (Eyp : a_yout (inner_step f t h y yp) j = a_yout (inner_step f t h y (f t y)) j).
      { unfold inner_step. cbn [a_yout]. rewrite !Hf.
        assert (X : yp j = f t y j).
        { apply (traj_derivative N f _ Ht t y yp); [apply in_app_iff; right; left; reflexivity|exact Hj]. }
        rewrite X, Hf. reflexivity. }
      rewrite Eyp. rewrite (proj1 (inner_step_poly f cs t h y j Hf)).
      rewrite (IH t y yp) by (try exact Hj; apply in_app_iff; right; left; reflexivity). ring.
Qed.

Lemma interpolant_ext : forall N f t y yp t' y' yp' z zp z' zp' j T, reads_components N f -> (j < N)%nat ->
  (forall i, (i < N)%nat -> y i = z i) -> (forall i, (i < N)%nat -> yp i = zp i) -> y' j = z' j -> yp' j = zp' j ->
  interpolant f (t, y, yp) (t', y', yp') j T = interpolant f (t, z, zp) (t', z', zp') j T.
Proof.
  intros N f t y yp t' y' yp' z zp z' zp' j T Hf Hj H1 H2 H3 H4. unfold interpolant.
  destruct (inner_step_ext N f t (t' - t) y z yp zp Hf H1 H2 j Hj) as (_ & _ & X3 & X4 & X5 & X6).
  rewrite X3, X4, X5, X6, (H1 j Hj), (H2 j Hj), H3, H4. reflexivity.
Qed.

(** For right-hand sides that are cubic polynomials of time the interpolant is the solution. *)
Lemma traj_interpolant_exact : forall N f cs l, trajectory N f l -> reads_components N f -> time_only f cs ->
  forall y0 yp0 l', l = (0, y0, yp0) :: l' ->
  forall k p q, nth_error l k = Some p -> nth_error l (S k) = Some q ->
  forall j T, (j < N)%nat -> cs j 4%nat = 0 -> interpolant f p q j T = y0 j + poly4_integral (cs j) T.
Proof.
  intros N f cs l H Hr Hf y0 yp0 l' El k p q Ep Eq j T Hj H4.
  destruct p as ((t, y), yp), q as ((t', y'), yp').
  destruct (traj_consecutive N f l H k _ _ _ _ _ _ Ep Eq) as (Htt & Hy').
  pose proof (nth_error_In _ _ Ep) as Ip. pose proof (nth_error_In _ _ Eq) as Iq.
  pose proof (traj_derivative N f l H _ _ _ Ip) as Hyp.
  pose proof (traj_derivative N f l H _ _ _ Iq) as Hyp'.
  transitivity (interpolant f (t, y, f t y) (t', a_yout (inner_step f t (t' - t) y (f t y)),
             f t' (a_yout (inner_step f t (t' - t) y (f t y)))) j T).
  - apply (interpolant_ext N f); try assumption; try reflexivity.
    + rewrite Hy' by exact Hj. apply (inner_step_ext N f t (t' - t) y y yp (f t y) Hr (fun _ _ => eq_refl) Hyp j Hj).
    + rewrite Hyp' by exact Hj. rewrite !Hf. reflexivity.
  - etransitivity; [exact (interpolant_poly_exact f cs t t' y j T Hf H4 Htt)|].
    rewrite (traj_poly N f cs l H Hf y0 yp0 l' El t y yp Ip j Hj). ring.
Qed.

(** ** Intervals *)
Section Intervals.
Variables (N : nat) (f : R -> vec -> vec) (P : Z) (s : rk) (l : list point).
Hypothesis HN : (1 <= N)%nat.
Hypothesis HB : (Z.of_nat N * (P + 1000) < 2 ^ 32)%Z.
Hypothesis I : rkinv N f P s l.
Hypothesis D : drep N f (k_dense s) l.
Variable e : R.
Hypothesis He : end_time l e.

Lemma two_points_of_interval : forall k T, in_interval l k T -> (1 < length l)%nat.
Proof. intros k T (p & q & _ & Eq & _). apply nth_error_lt in Eq. lia. Qed.

Lemma row_spec : forall k p q T, nth_error l k = Some p -> nth_error l (S k) = Some q -> row N f l k T = interpolant_row N f p q T.
Proof. intros k p q T Ep Eq. unfold row. rewrite Ep, Eq. reflexivity. Qed.

Lemma interval_order : forall k k' T T', in_interval l k T -> in_interval l k' T' -> T <= T' -> (k <= k')%nat.
Proof.
  intros k k' T T' (p & q & Ep & Eq & Hq & Hp) (p' & q' & Ep' & Eq' & Hq' & Hp') HT.
  destruct (Nat.le_gt_cases k k') as [H|H]; [exact H|]. exfalso. destruct Hp as [Hp|Hp]; [lia|].
  pose proof (times_mono N HN f P s l I (S k') k q' p H Eq' Ep). lra.
Qed.

Lemma output_intervals : forall ts, (1 < length l)%nat -> (forall T, In T ts -> T <= e) ->
  exists ls, output_dense N s 0 ts = Ok ls /\ length ls = length ts /\
  forall i T, nth_error ts i = Some T ->
  exists k, nth_error ls i = Some (row N f l k T) /\
    (exists m Tm, (m <= i)%nat /\ nth_error ts m = Some Tm /\ in_interval l k Tm) /\
    (forall m Tm k', (m <= i)%nat -> nth_error ts m = Some Tm -> in_interval l k' Tm -> (k' <= k)%nat).
Proof.
  intros ts Hl Hle.
  destruct (output_ok N HN f P s l HB I D e He ts 0 Hl Hle) as (ks & U & Eo).
  exists (rows N f l ts ks). split; [exact Eo|]. split; [eapply rows_length; exact U|].
  intros i T ET. destruct (rows_nth N f l ts 0 ks i T U ET) as (k & Ek & Er).
  exists k. split; [exact Er|].
  destruct (used_spec N HN f P s l I ts 0 ks i k U Ek) as (A & B & C). split; [|exact C].
  destruct B as [B|B]; [|exact B]. subst k. exact (used_first N HN f P s l I ts ks i U Ek).
Qed.
End Intervals.

(** ** Histories *)
Lemma after_inv : forall N f eps fuel tol y0 cs o, fits N cs -> reads_components N f ->
  do_calls N eps fuel (set_equation (new_rk tol) f) (CInit y0 :: cs) = Some o ->
  exists s l, o = Ok s /\ (Z.of_nat N * (Z.of_nat (length cs) + 2 + 1000) < 2 ^ 32)%Z /\
    (Z.of_nat (length l) < Z.of_nat (length cs) + 2)%Z /\ rkinv N f (Z.of_nat (length cs) + 2) s l /\
    ((forall c, In c cs -> keeps_dense c) -> k_on s = true /\ drep N f (k_dense s) l).
Proof.
  intros N f eps fuel tol y0 cs o (HN & HB & Hg) Hf H.
  assert (HB' : (Z.of_nat N * (Z.of_nat (length cs) + 2 + 1000) < 2 ^ 32)%Z)
    by (replace (Z.of_nat (length cs) + 2 + 1000)%Z with (Z.of_nat (length cs) + 1002)%Z by lia; exact HB).
  destruct (init_inv N HN f (Z.of_nat (length cs) + 2) (set_equation (new_rk tol) f) y0 HB' ltac:(lia)
              (new_pre N HN f (Z.of_nat (length cs) + 2) tol ltac:(lia))) as (s1 & E1 & I1 & D1 & O1 & _).
  cbn [do_calls] in H. unfold do_call in H at 1. rewrite E1 in H.
  destruct (calls_inv N HN f Hf (Z.of_nat (length cs) + 2) eps fuel cs s1 _ o HB' I1 ltac:(cbn [length]; lia) Hg H)
    as (s & l & -> & I & Hlen & K).
  exists s, l. split; [reflexivity|]. split; [exact HB'|]. split; [cbn [length] in Hlen; lia|]. split; [exact I|].
  intros Hk. apply (K Hk); [rewrite O1; reflexivity|exact D1].
Qed.

(** A step whose first attempt is accepted. *)
Lemma first_try : forall N f P eps s l t y yp x, (1 <= N)%nat -> (Z.of_nat N * (P + 1000) < 2 ^ 32)%Z ->
  rkinv N f P s (l ++ [(t, y, yp)]) -> (Z.of_nat (length l) + 1 < P)%Z -> x <= 1 ->
  (forall v w, (forall j, (j < N)%nat -> v j = y j) -> (forall j, (j < N)%nat -> w j = yp j) ->
     let a := inner_step f t (c_opt (k_ctrl s)) v w in estimate_error N (k_par s) v (a_yout a) (a_yerr a) = ENum x) ->
  exists s' q, rk_step N eps 1 s = Some (Ok (t + c_opt (k_ctrl s)), s') /\ c_opt (k_ctrl s') = c_opt (k_ctrl s) * q /\
    g_minscale (k_par s) <= q <= g_maxscale (k_par s) /\ (x = 0 -> c_rejected (k_ctrl s) = false -> q = g_maxscale (k_par s)) /\
    k_par s' = k_par s /\ c_rejected (k_ctrl s') = false.
Proof.
  intros N f P eps s l t y yp x HN HB I HP Hx Hest.
  destruct (last_reads N HN P (k_store s) l t y yp (k_y s) HB (ri_store _ _ _ _ _ I)) as (E1 & (v & E2 & Ev) & _).
  destruct (last_reads N HN P (k_store s) l t y yp (k_dydx s) HB (ri_store _ _ _ _ _ I)) as (_ & _ & (w & E3 & Ew)).
  specialize (Hest v w Ev Ew). cbv zeta in Hest.
  set (c := Control (c_opt (k_ctrl s)) (c_opt (k_ctrl s)) (c_errold (k_ctrl s)) (c_rejected (k_ctrl s))).
  destruct (store_solution_inv N HN P (k_store s) _ (t + c_opt (k_ctrl s)) (a_yout (inner_step f t (c_opt (k_ctrl s)) v w))
     (a_dydxout (inner_step f t (c_opt (k_ctrl s)) v w)) HB (ri_store _ _ _ _ _ I)) as (st & Est & SI & HA).
  { rewrite app_length. cbn [length]. lia. }
  pose proof (ri_par _ _ _ _ _ I) as Hp.
  destruct (accept_bounds (k_par s) c x Hp Hx) as (q & Eq & Hq1 & Hq2).
  assert (Hq0 : x = 0 -> c_rejected (k_ctrl s) = false -> q = g_maxscale (k_par s)).
  { intros X0 Xr. destruct Hp as (_ & _ & Hm1 & Hm2). rewrite (accept_factor (k_par s) c x Hm2 Hx) in Eq. injection Eq as Eq.
    change (c_rejected c) with (c_rejected (k_ctrl s)) in Eq. rewrite Xr in Eq. subst x. destruct (Req_EM_T 0 0) as [_|X]; [|congruence].
    apply Rmult_eq_reg_l in Eq; [symmetry; exact Eq|]. pose proof (ri_opt _ _ _ _ _ I). unfold c. cbn [c_h]. lra. }
  unfold rk_step. rewrite (ri_eqn _ _ _ _ _ I), E2, E3, E1. fold c. cbn [try_steps].
  change (c_h c) with (c_opt (k_ctrl s)). rewrite Hest, Eq.
  cbn [c_h]. change (c_h c) with (c_opt (k_ctrl s)). rewrite Est.
  destruct (k_on s && (1 <? s_n st)%Z)%bool eqn:Eon.
  - destruct (prepare_dense_inv N HN (s_n st) (s_alloc st) (k_dense s) (c_opt (k_ctrl s)) v (a_yout (inner_step f t (c_opt (k_ctrl s)) v w)) w
       (a_dydxout (inner_step f t (c_opt (k_ctrl s)) v w)) (inner_step f t (c_opt (k_ctrl s)) v w)) as (r & Er & _).
    + apply andb_prop in Eon. destruct Eon as (_ & Eon). apply Z.ltb_lt in Eon. destruct SI; lia.
    + destruct SI. eapply Z.le_lt_trans; [|exact HB]. apply Z.mul_le_mono_nonneg_l; lia.
    + destruct (ri_dense _ _ _ _ _ I) as [A1 A2 A3 A4 A5 A6]. constructor; try assumption. lia.
    + rewrite Er. eexists. exists q. split; [reflexivity|]. cbn [k_ctrl c_opt k_par c_rejected].
      split; [reflexivity|]. split; [exact Hq1|]. split; [exact Hq0|]. split; reflexivity.
  - eexists. exists q. split; [reflexivity|]. cbn [k_ctrl c_opt k_par c_rejected].
      split; [reflexivity|]. split; [exact Hq1|]. split; [exact Hq0|]. split; reflexivity.
Qed.

(** Right-hand sides that are cubic in time: the error estimate is zero. *)
Lemma poly_estimate : forall N f cs p t h y yp, (1 <= N)%nat -> time_only f cs -> (forall j, (j < N)%nat -> cs j 4%nat = 0) ->
  0 < g_atol p -> 0 <= g_rtol p -> (forall j, (j < N)%nat -> yp j = f t y j) ->
  let a := inner_step f t h y yp in estimate_error N p y (a_yout a) (a_yerr a) = ENum 0.
Proof.
  intros N f cs p t h y yp HN Hf H4 Ha Hr Hy a. apply zero_error_accepted; try assumption. intros j Hj.
  assert (X : a_yerr a j = a_yerr (inner_step f t h y (f t y)) j).
  { unfold a, inner_step. cbn [a_yerr]. rewrite !Hf. rewrite (Hy j Hj), Hf. reflexivity. }
  rewrite X, (proj2 (inner_step_poly f cs t h y j Hf)), (H4 j Hj). ring.
Qed.
Lemma poly_step : forall N f cs P eps s l t y yp, (1 <= N)%nat -> (Z.of_nat N * (P + 1000) < 2 ^ 32)%Z ->
  time_only f cs -> (forall j, (j < N)%nat -> cs j 4%nat = 0) -> rkinv N f P s (l ++ [(t, y, yp)]) -> (Z.of_nat (length l) + 1 < P)%Z ->
  0 < g_atol (k_par s) -> 0 <= g_rtol (k_par s) -> c_rejected (k_ctrl s) = false ->
  exists s', rk_step N eps 1 s = Some (Ok (t + c_opt (k_ctrl s)), s') /\ c_opt (k_ctrl s') = c_opt (k_ctrl s) * g_maxscale (k_par s) /\
    k_par s' = k_par s /\ c_rejected (k_ctrl s') = false.
Proof.
  intros N f cs P eps s l t y yp HN HB Hf H4 I HP Ha Hr Hc.
  destruct (first_try N f P eps s l t y yp 0 HN HB I HP ltac:(lra)) as (s' & q & E1 & E2 & _ & E3 & E4 & E5).
  - intros v w Ev Ew a. apply (poly_estimate N f cs); try assumption.
    intros j Hj. rewrite (Ew j Hj), Hf, (traj_derivative N f _ (ri_traj _ _ _ _ _ I) t y yp), Hf; auto.
    apply in_app_iff; right; left; reflexivity.
  - exists s'. rewrite (E3 eq_refl Hc) in E2. auto.
Qed.

(** The linear test equation. *)
Lemma inner_step_linear : forall lam T h y j, let f := fun (_ : R) (v : vec) (i : nat) => lam * v i in let z := lam * h in
  a_yout (inner_step f T h y (f T y)) j = (1 + z + z^2/2 + z^3/6 + z^4/24 + z^5/120 + z^6/600) * y j.
Proof.
  intros lam T h y j f z. unfold z, f, inner_step. cbn [a_yout].
  unfold c2, c3, c4, c5, a21, a31, a32, a41, a42, a43, a51, a52, a53, a54, a61, a62, a63, a64, a65, a71, a73, a74, a75, a76. field.
Qed.

(** With dense output switched off no coefficients are ever allocated. *)
Lemma off_no_dense : forall N eps fuel cs s s', k_on s = false -> k_dense s = no_dense ->
  (forall c, In c cs -> c <> CToggle true) -> do_calls N eps fuel s cs = Some (Ok s') -> k_dense s' = no_dense.
Proof.
  intros N eps fuel cs. induction cs as [|c cs IH]; intros s s' Ho Hd Hc H; cbn [do_calls] in H.
  - injection H as H. subst s'. exact Hd.
  - assert (Hc' : forall c, In c cs -> c <> CToggle true) by (intros; apply Hc; right; assumption).
    destruct c as [y0| |b|p]; cbn [do_call] in H.
    + unfold rk_initial_value in H. destruct (initial_value N (k_eqn s) (k_store s) y0) as [st| |]; cbn [obind] in H; try discriminate H.
      refine (IH _ s' _ _ Hc' H); [exact Ho|exact Hd].
    + destruct (rk_step N eps fuel s) as [(o, s1)|] eqn:E; [|discriminate H].
      assert (X : o <> UB -> k_on s1 = false /\ k_dense s1 = no_dense).
      { intro Hu. unfold rk_step in E. destruct (k_eqn s); [|injection E as E1 E2; subst; congruence].
        destruct (last_solution N _ _); try (injection E as E1 E2; subst; congruence).
        destruct (last_derivative N _ _); try (injection E as E1 E2; subst; congruence).
        destruct (last_time _); try (injection E as E1 E2; subst; congruence).
        destruct (try_steps _ _ _ _ _ _ _ _ _) as [([att| |], c')|]; try discriminate E.
        - rewrite Ho in E. cbn [andb] in E. destruct (store_solution N _ _ _ _); injection E as E1 E2; subst; try congruence; auto.
        - injection E as E1 E2. subst. auto.
        - injection E as E1 E2. subst. auto. }
      destruct o; try discriminate H; (destruct X as (X1 & X2); [congruence|]; exact (IH s1 s' X1 X2 Hc' H)).
    + destruct b; [exfalso; apply (Hc (CToggle true) (or_introl eq_refl)); reflexivity|].
      refine (IH _ s' _ _ Hc' H); [reflexivity|exact Hd].
    + refine (IH _ s' _ _ Hc' H); [exact Ho|exact Hd].
Qed.

(** ** Uniform output times *)
Lemma set_last_length : forall l x, length (set_last l x) = length l.
Proof.
  induction l as [|a l IH]; intro x; [reflexivity|]. destruct l as [|b l]; [reflexivity|].
  change (set_last (a :: b :: l) x) with (a :: set_last (b :: l) x). cbn [length]. rewrite IH. reflexivity.
Qed.
Lemma set_last_nth : forall l x i, nth_error (set_last l x) i =
  if Nat.eqb (S i) (length l) then Some x else nth_error l i.
Proof.
  induction l as [|a l IH]; intros x i; [destruct i; reflexivity|]. destruct l as [|b l].
  - destruct i as [|i]; [reflexivity|]. cbn [set_last nth_error length Nat.eqb]. destruct i; reflexivity.
  - change (set_last (a :: b :: l) x) with (a :: set_last (b :: l) x). destruct i as [|i]; [reflexivity|].
    cbn [nth_error]. rewrite IH. reflexivity.
Qed.

(** ** Concrete integrations *)
Lemma step_point : forall N f P eps s l t y yp x, (1 <= N)%nat -> reads_components N f -> (Z.of_nat N * (P + 1000) < 2 ^ 32)%Z ->
  rkinv N f P s (l ++ [(t, y, yp)]) -> (Z.of_nat (length l) + 1 < P)%Z -> x <= 1 ->
  (forall v w, (forall j, (j < N)%nat -> v j = y j) -> (forall j, (j < N)%nat -> w j = yp j) ->
     let a := inner_step f t (c_opt (k_ctrl s)) v w in estimate_error N (k_par s) v (a_yout a) (a_yerr a) = ENum x) ->
  exists s' q y' yp', do_call N eps 1 s CStep = Some (Ok s') /\
    rkinv N f P s' ((l ++ [(t, y, yp)]) ++ [(t + c_opt (k_ctrl s), y', yp')]) /\
    c_opt (k_ctrl s') = c_opt (k_ctrl s) * q /\
    g_minscale (k_par s) <= q <= g_maxscale (k_par s) /\ (x = 0 -> c_rejected (k_ctrl s) = false -> q = g_maxscale (k_par s)) /\
    k_par s' = k_par s /\ c_rejected (k_ctrl s') = false /\ k_on s' = k_on s /\
    (k_on s = true -> drep N f (k_dense s) (l ++ [(t, y, yp)]) ->
     drep N f (k_dense s') ((l ++ [(t, y, yp)]) ++ [(t + c_opt (k_ctrl s), y', yp')])).
Proof.
  intros N f P eps s l t y yp x HN Hf HB I HP Hx Hest.
  destruct (first_try N f P eps s l t y yp x HN HB I HP Hx Hest) as (s' & q & E1 & E2 & E3 & E4 & E5 & E6).
  destruct (step_inv N HN f Hf P eps 1 s _ _ s' HB I ltac:(rewrite app_length; cbn [length]; lia) E1)
    as (Eon & [(E & _)|(l0 & t0 & y0 & yp0 & h & y' & yp' & El & Eo & Hh & _ & _ & I' & D')]); [discriminate E|].
  apply app_inj_tail in El. destruct El as (El1 & El2). injection El2 as F1 F2 F3. subst t0 y0 yp0 l0.
  injection Eo as Eo. assert (Eh : h = c_opt (k_ctrl s)) by lra. subst h.
  exists s', q, y', yp'. unfold do_call. rewrite E1.
  split; [reflexivity|]. split; [exact I'|]. split; [exact E2|]. split; [exact E3|]. split; [exact E4|]. split; [exact E5|].
  split; [exact E6|]. split; [exact Eon|exact D'].
Qed.

(** y' = 4 t^3, y(0) = 0, with tolerance 1. *)
Definition f_cubic : R -> vec -> vec := fun t _ _ => 4 * t^3.
Definition cs_cubic : nat -> nat -> R := fun _ i => match i with 3%nat => 4 | _ => 0 end.
Lemma f_cubic_poly : time_only f_cubic cs_cubic.
Proof. intros t v j. unfold f_cubic, cs_cubic, poly4. ring. Qed.
Lemma time_only_reads : forall N f cs, time_only f cs -> reads_components N f.
Proof. intros N f cs H t v w _ j _. rewrite !H. reflexivity. Qed.

Lemma cubic_after : forall eps, exists s y1 p1 y2 p2, after 1 f_cubic eps 1 1 zero_vec [CStep; CStep] s /\
  rkinv 1 f_cubic 4 s [(0, zero_vec, f_cubic 0 zero_vec); (1, y1, p1); (11, y2, p2)] /\ k_on s = true /\
  drep 1 f_cubic (k_dense s) [(0, zero_vec, f_cubic 0 zero_vec); (1, y1, p1); (11, y2, p2)].
Proof.
  intro eps. pose proof (time_only_reads 1 _ _ f_cubic_poly) as Hf.
  assert (HB : (Z.of_nat 1 * (4 + 1000) < 2 ^ 32)%Z) by reflexivity.
  destruct (init_inv 1 (le_n 1) f_cubic 4 (set_equation (new_rk 1) f_cubic) zero_vec HB ltac:(lia) (new_pre 1 (le_n 1) f_cubic 4 1 ltac:(lia)))
    as (s0 & E0 & I0 & D0 & O0 & C0).
  assert (Pr0 : k_par s0 = default_params 1).
  { unfold rk_initial_value in E0. destruct (initial_value _ _ _ _); try discriminate E0. injection E0 as E0. subst s0. reflexivity. }
  assert (Est : forall s t y yp l, rkinv 1 f_cubic 4 s (l ++ [(t, y, yp)]) -> k_par s = default_params 1 ->
    forall v w, (forall j, (j < 1)%nat -> v j = y j) -> (forall j, (j < 1)%nat -> w j = yp j) ->
     let a := inner_step f_cubic t (c_opt (k_ctrl s)) v w in estimate_error 1 (k_par s) v (a_yout a) (a_yerr a) = ENum 0).
  { intros s t y yp l I Pr v w Ev Ew. apply (poly_estimate 1 f_cubic cs_cubic); try (rewrite Pr; cbn; lra); auto.
    - apply f_cubic_poly.
    - intros j Hj. rewrite (Ew j Hj), !f_cubic_poly, (traj_derivative 1 f_cubic _ (ri_traj _ _ _ _ _ I) t y yp), !f_cubic_poly; auto.
      apply in_app_iff; right; left; reflexivity. }
  destruct (step_point 1 f_cubic 4 eps s0 [] 0 zero_vec _ 0 (le_n 1) Hf HB I0 ltac:(cbn [length]; lia) ltac:(lra) (Est s0 0 _ _ [] I0 Pr0))
    as (s1 & q & y1 & p1 & E1 & I1 & C1 & _ & Q1 & Pr1 & R1 & O1 & D1).
  rewrite C0 in *. rewrite (Q1 eq_refl eq_refl), Pr0 in C1. rewrite Pr0 in Pr1. clear Q1.
  destruct (step_point 1 f_cubic 4 eps s1 [(0, zero_vec, f_cubic 0 zero_vec)] _ y1 p1 0 (le_n 1) Hf HB I1 ltac:(cbn [length]; lia) ltac:(lra) (Est s1 _ _ _ _ I1 Pr1))
    as (s2 & q2 & y2 & p2 & E2 & I2 & C2 & _ & Q2 & Pr2 & R2 & O2 & D2).
  assert (O0' : k_on s0 = true) by (rewrite O0; reflexivity).
  assert (X1 : c_opt (k_ctrl (set_equation (new_rk 1) f_cubic)) = 1) by reflexivity.
  exists s2, y1, p1, y2, p2. split; [|split].
  - unfold after. cbn [do_calls do_call]. rewrite E0.
    change (match rk_step 1 eps 1 s0 with Some (UB, _) => Some UB | Some (_, s') => Some (Ok s') | None => None end) with (do_call 1 eps 1 s0 CStep).
    rewrite E1.
    change (match rk_step 1 eps 1 s1 with Some (UB, _) => Some UB | Some (_, s') => Some (Ok s') | None => None end) with (do_call 1 eps 1 s1 CStep).
    rewrite E2. reflexivity.
  - rewrite C1, X1 in I2. cbn [app default_params g_maxscale] in I2.
    replace (0 + 1) with 1 in I2 by lra. replace (1 + 1 * 10) with 11 in I2 by lra. exact I2.
  - split; [rewrite O2, O1; exact O0'|].
    assert (D3 := D2 ltac:(rewrite O1; exact O0') (D1 O0' D0)).
    rewrite C1, X1 in D3. cbn [app default_params g_maxscale] in D3.
    replace (0 + 1) with 1 in D3 by lra. replace (1 + 1 * 10) with 11 in D3 by lra. exact D3.
Qed.

(** y' = 5 t^4, y(0) = 0, with step sizes 1 and 1/2. *)
Definition f_quartic : R -> vec -> vec := fun t _ _ => 5 * t^4.
Definition cs_quartic : nat -> nat -> R := fun _ i => match i with 4%nat => 5 | _ => 0 end.
Lemma f_quartic_poly : time_only f_quartic cs_quartic.
Proof. intros t v j. unfold f_quartic, cs_quartic, poly4. ring. Qed.
Definition p_half : params := Params (9/10) 0 (2/10) (1/2) (1/2) 1 1.
Lemma p_half_good : good_params p_half.
Proof. unfold good_params, p_half. cbn [g_safe g_alpha g_minscale g_maxscale]. lra. Qed.

Lemma quartic_estimate : forall t h v w, 0 < h <= 1 -> w 0%nat = f_quartic t v 0%nat ->
  let a := inner_step f_quartic t h v w in exists x, estimate_error 1 p_half v (a_yout a) (a_yerr a) = ENum x /\ x <= 1.
Proof.
  intros t h v w Hh Hw a.
  assert (Y : a_yerr a 0%nat = 71/54000 * h^5).
  { assert (X : a_yerr a 0%nat = a_yerr (inner_step f_quartic t h v (f_quartic t v)) 0%nat).
    { unfold a, inner_step. cbn [a_yerr]. rewrite Hw. reflexivity. }
    rewrite X, (proj2 (inner_step_poly f_quartic cs_quartic t h v 0 f_quartic_poly)). unfold cs_quartic. field. }
  assert (S1 : 1 <= sk p_half v (a_yout a) 0).
  { unfold sk, p_half. cbn [g_atol g_rtol]. pose proof (Rabs_pos (v 0%nat)). pose proof (Rmax_l (Rabs (v 0%nat)) (Rabs (a_yout a 0%nat))). lra. }
  assert (H5 : 0 < h^5 <= 1).
  { split; [apply pow_lt; lra|]. replace 1 with (1^5) by ring. apply pow_incr. lra. }
  unfold estimate_error. rewrite error_sum_eq.
  - eexists. split; [reflexivity|]. unfold rsum. cbn [seq map fold_right INR]. rewrite Y.
    assert (Q : 0 <= 71/54000 * h^5 / sk p_half v (a_yout a) 0 <= 1).
    { split; [apply Rmult_le_pos; [lra|left; apply Rinv_0_lt_compat; lra]|].
      apply Rmult_le_reg_r with (sk p_half v (a_yout a) 0); [lra|].
      unfold Rdiv at 1. rewrite Rmult_assoc, Rinv_l by lra. lra. }
    apply Rle_trans with (sqrt 1); [|rewrite sqrt_1; lra]. apply sqrt_le_1_alt. set (z := 71/54000 * h^5 / sk p_half v (a_yout a) 0) in *. unfold Rsqr. replace ((z * z + 0) / 1) with (z * z) by field. clear - Q. nra.
  - intros i Hi. assert (i = 0%nat) by lia. subst i. lra.
Qed.

Lemma quartic_after : forall eps, exists s y1 p1 y2 p2,
  after 1 f_quartic eps 1 1 zero_vec [CParams p_half; CStep; CStep] s /\
  rkinv 1 f_quartic 5 s [(0, zero_vec, f_quartic 0 zero_vec); (1, y1, p1); (3/2, y2, p2)] /\ k_on s = true /\
  drep 1 f_quartic (k_dense s) [(0, zero_vec, f_quartic 0 zero_vec); (1, y1, p1); (3/2, y2, p2)].
Proof.
  intro eps. pose proof (time_only_reads 1 _ _ f_quartic_poly) as Hf.
  assert (HB : (Z.of_nat 1 * (5 + 1000) < 2 ^ 32)%Z) by reflexivity.
  destruct (init_inv 1 (le_n 1) f_quartic 5 (set_equation (new_rk 1) f_quartic) zero_vec HB ltac:(lia) (new_pre 1 (le_n 1) f_quartic 5 1 ltac:(lia)))
    as (s00 & E0 & I00 & D0 & O0 & C0).
  set (s0 := set_params s00 p_half).
  assert (I0 : rkinv 1 f_quartic 5 s0 [(0, zero_vec, f_quartic 0 zero_vec)]).
  { destruct I00. constructor; try assumption. exact p_half_good. }
  assert (Est : forall s t y yp l, rkinv 1 f_quartic 5 s (l ++ [(t, y, yp)]) -> k_par s = p_half -> 0 < c_opt (k_ctrl s) <= 1 ->
    exists x, x <= 1 /\ forall v w, (forall j, (j < 1)%nat -> v j = y j) -> (forall j, (j < 1)%nat -> w j = yp j) ->
     let a := inner_step f_quartic t (c_opt (k_ctrl s)) v w in estimate_error 1 (k_par s) v (a_yout a) (a_yerr a) = ENum x).
  { intros s t y yp l I Pr Hc.
    assert (Yp : yp 0%nat = f_quartic t y 0%nat).
    { apply (traj_derivative 1 f_quartic _ (ri_traj _ _ _ _ _ I) t y yp); [|lia]. apply in_app_iff; right; left; reflexivity. }
    destruct (quartic_estimate t (c_opt (k_ctrl s)) y yp Hc Yp) as (x & Ex & Hx). exists x. split; [exact Hx|].
    intros v w Ev Ew. cbv zeta. rewrite Pr, <- Ex. unfold estimate_error. cbn [error_sum]. unfold inner_step, sk. cbn [a_yout a_yerr].
    rewrite (Ev 0%nat), (Ew 0%nat) by lia. reflexivity. }
  assert (X1 : c_opt (k_ctrl s0) = 1) by (unfold s0; cbn [set_params k_ctrl]; rewrite C0; reflexivity).
  destruct (Est s0 0 _ _ [] I0 eq_refl ltac:(rewrite X1; lra)) as (x1 & Hx1 & F1).
  destruct (step_point 1 f_quartic 5 eps s0 [] 0 zero_vec _ x1 (le_n 1) Hf HB I0 ltac:(cbn [length]; lia) Hx1 F1)
    as (s1 & q & y1 & p1 & E1 & I1 & C1 & B1 & Q1 & Pr1 & R1 & O1 & D1).
  assert (q = 1/2) by (cbn in B1; lra). subst q. rewrite X1 in *.
  destruct (Est s1 _ _ _ _ I1 Pr1 ltac:(rewrite C1; lra)) as (x2 & Hx2 & F2).
  destruct (step_point 1 f_quartic 5 eps s1 [(0, zero_vec, f_quartic 0 zero_vec)] _ y1 p1 x2 (le_n 1) Hf HB I1 ltac:(cbn [length]; lia) Hx2 F2)
    as (s2 & q2 & y2 & p2 & E2 & I2 & C2 & _ & Q2 & Pr2 & R2 & O2 & D2).
  assert (O0' : k_on s0 = true) by (unfold s0; cbn [set_params k_on]; rewrite O0; reflexivity).
  exists s2, y1, p1, y2, p2. split; [|split].
  - unfold after. cbn [do_calls]. change (do_call 1 eps 1 (set_equation (new_rk 1) f_quartic) (CInit zero_vec)) with (Some (rk_initial_value 1 (set_equation (new_rk 1) f_quartic) zero_vec)).
    rewrite E0. change (do_call 1 eps 1 s00 (CParams p_half)) with (Some (Ok s0)).
    cbv iota. rewrite E1, E2. reflexivity.
  - rewrite C1 in I2. cbn [app] in I2.
    replace (0 + 1) with 1 in I2 by lra. replace (1 + 1 * (1/2)) with (3/2) in I2 by lra. exact I2.
  - split; [rewrite O2, O1; exact O0'|].
    assert (D3 := D2 ltac:(rewrite O1; exact O0') (D1 O0' D0)).
    rewrite C1 in D3. cbn [app] in D3.
    replace (0 + 1) with 1 in D3 by lra. replace (1 + 1 * (1/2)) with (3/2) in D3 by lra. exact D3.
Qed.

(** The two interpolants of this integration at time 1/2. *)
Lemma quartic_interpolants : forall y1 p1 y2 p2,
  trajectory 1 f_quartic [(0, zero_vec, f_quartic 0 zero_vec); (1, y1, p1); (3/2, y2, p2)] ->
  interpolant f_quartic (0, zero_vec, f_quartic 0 zero_vec) (1, y1, p1) 0 (1/2) = 31375885/940173536 /\
  interpolant f_quartic (1, y1, p1) (3/2, y2, p2) 0 (1/2) = 209653885/940173536.
Proof.
  intros y1 p1 y2 p2 H.
  assert (T : forall t y yp, In (t, y, yp) [(0, zero_vec, f_quartic 0 zero_vec); (1, y1, p1); (3/2, y2, p2)] -> y 0%nat = t^5 /\ yp 0%nat = 5 * t^4).
  { intros t y yp Hin. split.
    - rewrite (traj_poly 1 f_quartic cs_quartic _ H f_quartic_poly zero_vec _ _ eq_refl t y yp Hin 0 ltac:(lia)).
      unfold poly4_integral, cs_quartic, zero_vec. field.
    - rewrite (traj_derivative 1 f_quartic _ H t y yp Hin 0 ltac:(lia)). reflexivity. }
  destruct (T 1 y1 p1) as (A1 & A2); [right; left; reflexivity|].
  destruct (T (3/2) y2 p2) as (B1 & B2); [right; right; left; reflexivity|].
  unfold interpolant, inner_step. cbn [a_k3 a_k4 a_k5 a_k6]. unfold f_quartic, zero_vec.
  rewrite A1, A2, B1, B2. unfold c3, c4, c5, d1, d3, d4, d5, d6, d7. split; field.
Qed.
