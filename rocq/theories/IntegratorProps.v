(** Properties C34-C40 and C73-C75: the Runge-Kutta integrator. *)
From Coq Require Import ZArith Reals Lia Lra Psatz.
From Verif Require Import Base AlgebraModel IntegratorModel IntegratorSpec IntegratorProofs StepProofs DenseProofs TableauProofs IntegratorUse.
Local Open Scope R_scope.

(** C34.  Whatever the calls, the storage holds the points stored since the last reset. *)
Theorem C34_storage : forall N f cs, (1 <= N)%nat -> (Z.of_nat N * (Z.of_nat (length cs) + 1000) < 2 ^ 32)%Z ->
  exists st, do_scalls N f new_storage cs = Ok st /\ represents N st (points_of f cs).
Proof.
  intros N f cs HN HB.
  destruct (do_scalls_inv N HN f (Z.of_nat (length cs)) cs new_storage [] HB (sinv_new N HN (Z.of_nat (length cs)) ltac:(lia)) ltac:(cbn [length]; lia)) as (st & E & I).
  exists st. split; [exact E|]. exact (sinv_represents N HN _ st _ HB I).
Qed.
Print Assumptions C34_storage.
(** LastTime, LastSolution and LastDerivative are those of the last point. *)
Theorem C34_last : forall N f cs st l t y yp v, (1 <= N)%nat -> (Z.of_nat N * (Z.of_nat (length cs) + 1000) < 2 ^ 32)%Z ->
  do_scalls N f new_storage cs = Ok st -> points_of f cs = l ++ [(t, y, yp)] ->
  last_time st = Ok t /\
  (exists w, last_solution N st v = Ok w /\ forall j, (j < N)%nat -> w j = y j) /\
  (exists w, last_derivative N st v = Ok w /\ forall j, (j < N)%nat -> w j = yp j).
Proof.
  intros N f cs st l t y yp v HN HB E El.
  destruct (do_scalls_inv N HN f (Z.of_nat (length cs)) cs new_storage [] HB (sinv_new N HN (Z.of_nat (length cs)) ltac:(lia)) ltac:(cbn [length]; lia)) as (st' & E' & I).
  rewrite E in E'. injection E' as E'. subst st'. unfold points_of in El. rewrite El in I.
  exact (last_reads N HN _ st l t y yp v HB I).
Qed.
Print Assumptions C34_last.
(** Before the first point the time is zero, and the other two return no pointer. *)
Theorem C34_no_points : forall N tol v, let st := k_store (new_rk tol) in
  last_time st = Ok 0 /\ last_solution N st v = UB /\ last_derivative N st v = UB.
Proof. intros. repeat split; reflexivity. Qed.
Print Assumptions C34_no_points.
(** A reset forgets the stored points, but neither the proposed step size nor the state of
    the step size control. *)
Theorem C34_reset : forall N f eps fuel tol y0 cs s y0', fits N cs -> reads_components N f -> after N f eps fuel tol y0 cs s ->
  exists s', rk_initial_value N s y0' = Ok s' /\ represents N (k_store s') [(0, y0', f 0 y0')] /\
    k_ctrl s' = k_ctrl s /\ k_par s' = k_par s /\ k_on s' = k_on s.
Proof.
  intros N f eps fuel tol y0 cs s y0' Hfit Hf H.
  destruct (after_inv N f eps fuel tol y0 cs _ Hfit Hf H) as (s1 & l & E & HB & _ & I & _). injection E as E. subst s1.
  destruct Hfit as (HN & _ & _).
  destruct (init_inv N HN f _ s y0' HB ltac:(lia) (rkinv_pre N f _ s l I)) as (s' & E1 & I1 & _ & O1 & C1).
  exists s'. split; [exact E1|]. split; [exact (sinv_represents N HN _ _ _ HB (ri_store _ _ _ _ _ I1))|].
  split; [exact C1|]. split; [|exact O1].
  unfold rk_initial_value in E1. destruct (initial_value _ _ _ _); try discriminate E1. injection E1 as E1. subst s'. reflexivity.
Qed.
Print Assumptions C34_reset.
(** Using the integrator before the equation or the initial value is set is undefined. *)
Theorem C34_uninitialised_refuted :
  (forall N tol y0, rk_initial_value N (new_rk tol) y0 = UB) /\
  (forall N f tol eps fuel, rk_step N eps fuel (set_equation (new_rk tol) f) = Some (UB, set_equation (new_rk tol) f)).
Proof. split; intros; reflexivity. Qed.
Print Assumptions C34_uninitialised_refuted.
(** 1001 points with a reset in between: the storage is enlarged once. *)
Example C34_example : forall f y, let cs := SReset y :: SStore 1 y y :: SReset y :: repeat (SStore 2 y y) 1000 in
  (Z.of_nat 3 * (Z.of_nat (length cs) + 1000) < 2 ^ 32)%Z /\ length (points_of f cs) = 1001%nat.
Proof.
  intros f y cs. split; [reflexivity|]. unfold cs, points_of. cbn [fold_left app].
  assert (X : forall n l, length (fold_left (fun l c => match c with SReset y0 => [(0, y0, f 0 y0)] | SStore t y yp => l ++ [(t, y, yp)] end)
      (repeat (SStore 2 y y) n) l) = (length l + n)%nat).
  { induction n as [|n IH]; intro l; cbn [repeat fold_left]; [lia|]. rewrite IH, app_length. cbn [length]. lia. }
  rewrite X. reflexivity.
Qed.

(** C35.  The decision. *)
Theorem C35_accept_iff : forall p c e, fst (update_timestep p c e) = true <-> exists x, e = ENum x /\ x <= 1.
Proof. exact accept_iff. Qed.
Print Assumptions C35_accept_iff.
(** The size proposed after a rejection: smaller, but not by more than the minimal factor. *)
Theorem C35_rejected : forall p c e, good_params p -> fst (update_timestep p c e) = false ->
  exists q, snd (update_timestep p c e) = Some (Control (c_h c) (c_h c * q) (c_errold c) true) /\
    (e = ENaN -> q = 1/10) /\ (e <> ENaN -> g_minscale p <= q) /\ 0 < q < 1.
Proof.
  intros p c e Hp H. destruct (reject_factor p c e Hp H) as (q & E1 & E2 & E3 & E4 & _ & E6). exists q. auto.
Qed.
Print Assumptions C35_rejected.
(** The factor for the step after an accepted one. *)
Theorem C35_accepted : forall p c x, good_params p -> x <= 1 ->
  exists q, update_timestep p c (ENum x) = (true, Some (Control (c_h c) (c_h c * q) (Rmax x (1/10000)) false)) /\
    g_minscale p <= q <= g_maxscale p /\ (c_rejected c = true -> q <= 1).
Proof. exact accept_bounds. Qed.
Print Assumptions C35_accepted.
(** What the control remembers of an accepted step: its error, or 1e-4 if that was smaller,
    which is also what a fresh integrator starts from. *)
Theorem C35_memory : forall p c x c' tol, update_timestep p c (ENum x) = (true, Some c') ->
  c_rejected c' = false /\ x <= c_errold c' /\ (1/10000 <= x -> c_errold c' = x) /\
  (x <= 1/10000 -> c_errold c' = c_errold (k_ctrl (new_rk tol))).
Proof.
  intros p c x c' tol E. unfold update_timestep in E. destruct (Rle_dec x 1) as [_|_]; [|discriminate E].
  remember (Rmax x (1/10000)) as m eqn:Em. injection E as E. subst c'. cbn [c_rejected c_errold].
  change (c_errold (k_ctrl (new_rk tol))) with (1/10000). subst m.
  split; [reflexivity|]. split; [apply Rmax_l|]. split; [intro Q; apply Rmax_left; exact Q|intro Q; apply Rmax_right; exact Q].
Qed.
Print Assumptions C35_memory.
(** The default parameters: factors within [0.2, 10], given by 0.9 err^(-1/5). *)
Theorem C35_default : forall tol, good_params (default_params tol) /\
  g_minscale (default_params tol) = 2/10 /\ g_maxscale (default_params tol) = 10 /\
  forall c x, x <= 1 ->
  snd (update_timestep (default_params tol) c (ENum x)) =
  Some (Control (c_h c) (c_h c * (let s := if Req_EM_T x 0 then 10 else clamp (2/10) 10 (9/10 * Rpower x (- (1/5))) in
                                  if c_rejected c then Rmin s 1 else s)) (Rmax x (1/10000)) false) /\
  forall x, 1 < x -> snd (update_timestep (default_params tol) c (ENum x)) =
  Some (Control (c_h c) (c_h c * Rmax (9/10 * Rpower x (- (1/5))) (2/10)) (c_errold c) true).
Proof.
  intro tol. split; [apply default_good|]. split; [reflexivity|]. split; [reflexivity|].
  intros c x Hx. split.
  - rewrite accept_factor; [|cbn; lra|exact Hx]. cbn [snd default_params g_minscale g_maxscale g_safe g_alpha g_beta].
    replace (- (2/10 - 0 * (75/100))) with (- (1/5)) by lra.
    assert (E : Rpower (c_errold c) 0 = 1) by (unfold Rpower; rewrite Rmult_0_l; apply exp_0).
    rewrite E, Rmult_1_r. reflexivity.
  - intros z Hz. unfold update_timestep. destruct (Rle_dec z 1) as [X|X]; [lra|].
    cbn [snd default_params g_minscale g_maxscale g_safe g_alpha g_beta].
    replace (- (2/10 - 0 * (75/100))) with (- (1/5)) by lra. reflexivity.
Qed.
Print Assumptions C35_default.
(** The error estimate is the root mean square of the componentwise errors in units of the
    tolerance; it is never negative. *)
Theorem C35_estimate : forall N p y1 y2 e, (forall i, (i < N)%nat -> 0 < g_atol p + g_rtol p * Rmax (Rabs (y1 i)) (Rabs (y2 i))) ->
  estimate_error N p y1 y2 e =
  ENum (sqrt (rsum N (fun i => (e i / (g_atol p + g_rtol p * Rmax (Rabs (y1 i)) (Rabs (y2 i))))²) / INR N)).
Proof.
  intros N p y1 y2 e H. unfold estimate_error. rewrite error_sum_eq; [reflexivity|].
  intros i Hi. specialize (H i Hi). unfold sk. lra.
Qed.
Print Assumptions C35_estimate.
Theorem C35_estimate_nonneg : forall N p y1 y2 e x, estimate_error N p y1 y2 e = ENum x -> 0 <= x.
Proof. exact estimate_nonneg. Qed.
Print Assumptions C35_estimate_nonneg.
(** The loop of a step, for any method and error estimate: what is accepted is the attempt
    made with the final step size, which is at most the proposed one and positive. *)
Theorem C35_loop : forall inner est eps p fuel c T y dydx o c', good_params p -> 0 < c_h c ->
  try_steps inner est eps p fuel c T y dydx = Some (o, c') ->
  0 < c_h c' <= c_h c /\ 0 < c_opt c' /\
  match o with
  | Ok a => a = inner T (c_h c') y dydx /\ (exists x, est y a = ENum x /\ x <= 1) /\ c_rejected c' = false
  | Throw => Rabs (c_h c') <= Rabs T * eps
  | UB => False
  end.
Proof. intros inner est eps p fuel c T y dydx o c' Hp. exact (try_steps_spec inner est eps p Hp fuel c T y dydx o c'). Qed.
Print Assumptions C35_loop.
(** First attempt rejected with error 32, second, with 0.45 times the step size, accepted
    with error 1. *)
Example C35_example : forall y dydx, 
  let inner := fun (T h : R) (y dydx : vec) => Attempt (fun _ => h) y y y y y y in
  let est := fun (_ : vec) (a : attempt) => if Req_EM_T (a_yout a 0%nat) 1 then ENum 32 else ENum 1 in
  try_steps inner est (1/1000) (default_params 1) 2 (Control 1 1 1 false) 5 y dydx =
  Some (Ok (inner 5 (45/100) y dydx), Control (45/100) (45/100 * (9/10)) 1 false).
Proof.
  intros y dydx inner est.
  assert (P32 : Rpower 32 (- (2/10 - 0 * (75/100))) = 1/2).
  { replace 32 with (2 ^ 5) by lra. rewrite <- Rpower_pow by lra. rewrite Rpower_mult.
    replace (INR 5 * - (2/10 - 0 * (75/100))) with (- (1)) by (cbn [INR]; lra).
    rewrite Rpower_Ropp, Rpower_1; lra. }
  assert (P1 : Rpower 1 (- (2/10 - 0 * (75/100))) = 1) by (unfold Rpower; rewrite ln_1, Rmult_0_r; apply exp_0).
  assert (P0 : Rpower 1 0 = 1) by (unfold Rpower; rewrite Rmult_0_l; apply exp_0).
  assert (A1 : est y (inner 5 1 y dydx) = ENum 32).
  { unfold est, inner. cbn [a_yout]. destruct (Req_EM_T 1 1); congruence. }
  assert (A2 : est y (inner 5 (45/100) y dydx) = ENum 1).
  { unfold est, inner. cbn [a_yout]. destruct (Req_EM_T (45/100) 1); [lra|reflexivity]. }
  assert (U1 : update_timestep (default_params 1) (Control 1 1 1 false) (ENum 32) = (false, Some (Control 1 (45/100) 1 true))).
  { unfold update_timestep. destruct (Rle_dec 32 1); [lra|]. cbn [default_params g_safe g_alpha g_minscale c_h c_errold].
    rewrite P32, Rmax_left by lra. replace (1 * (9/10 * (1/2))) with (45/100) by lra. reflexivity. }
  assert (U2 : update_timestep (default_params 1) (Control (45/100) (45/100) 1 true) (ENum 1) = (true, Some (Control (45/100) (45/100 * (9/10)) 1 false))).
  { rewrite accept_factor by (cbn; lra). cbn [c_h c_opt c_errold c_rejected default_params g_safe g_alpha g_minscale g_maxscale g_beta].
    destruct (Req_EM_T 1 0) as [X|_]; [lra|]. rewrite P1, P0. unfold clamp.
    replace (9/10 * 1 * 1) with (9/10) by lra. rewrite (Rmax_right (2/10)) by lra. rewrite (Rmin_right 10) by lra.
    rewrite (Rmin_left (9/10)) by lra. rewrite (Rmax_left 1) by lra. reflexivity. }
  cbn [try_steps c_h]. rewrite A1, U1. cbn [c_opt c_h c_errold c_rejected].
  destruct (Rle_dec (Rabs (45/100)) (Rabs 5 * (1/1000))) as [X|_]; [rewrite !Rabs_right in X by lra; lra|].
  rewrite A2, U2. reflexivity.
Qed.

(** C36.  Any sequence of calls after the initial value: never undefined; the stored times
    start at 0 and increase strictly, by steps of the method (see [trajectory], C74). *)
Theorem C36_history : forall N f eps fuel tol y0 cs o, fits N cs -> reads_components N f ->
  do_calls N eps fuel (set_equation (new_rk tol) f) (CInit y0 :: cs) = Some o ->
  exists s l, o = Ok s /\ represents N (k_store s) l /\ trajectory N f l /\
    (exists y yp l', l = (0, y, yp) :: l') /\
    forall i k p q, (i < k)%nat -> nth_error l i = Some p -> nth_error l k = Some q -> time_of p < time_of q.
Proof.
  intros N f eps fuel tol y0 cs o Hfit Hf H.
  destruct (after_inv N f eps fuel tol y0 cs o Hfit Hf H) as (s & l & E & HB & _ & I & _). destruct Hfit as (HN & _ & _).
  exists s, l. split; [exact E|]. split; [exact (sinv_represents N HN _ _ _ HB (ri_store _ _ _ _ _ I))|].
  pose proof (ri_traj _ _ _ _ _ I) as Ht. split; [exact Ht|]. split; [exact (traj_start_zero N f l Ht)|exact (traj_increasing N f l Ht)].
Qed.
Print Assumptions C36_history.
(** One more step: it throws and leaves the stored points alone, or it appends one point, at
    the old time plus the step used, and returns that time. *)
Theorem C36_step : forall N f eps fuel tol y0 cs s, fits N cs -> reads_components N f -> after N f eps fuel tol y0 cs s ->
  exists l t y yp, represents N (k_store s) (l ++ [(t, y, yp)]) /\
    forall fuel' o s', rk_step N eps fuel' s = Some (o, s') ->
      (o = Throw /\ k_store s' = k_store s /\ k_dense s' = k_dense s) \/
      (exists h y' yp', o = Ok (t + h) /\ 0 < h <= c_opt (k_ctrl s) /\ c_h (k_ctrl s') = h /\
         represents N (k_store s') (l ++ [(t, y, yp); (t + h, y', yp')])).
Proof.
  intros N f eps fuel tol y0 cs s Hfit Hf H.
  destruct (after_inv N f eps fuel tol y0 cs _ Hfit Hf H) as (s1 & l & E & HB & HP & I & _). injection E as E. subst s1.
  destruct Hfit as (HN & _ & _).
  destruct (snoc_inv l (traj_nonempty N f l (ri_traj _ _ _ _ _ I))) as (l0 & ((t, y), yp) & El).
  exists l0, t, y, yp. rewrite <- El. split; [exact (sinv_represents N HN _ _ _ HB (ri_store _ _ _ _ _ I))|].
  intros fuel' o s' Es. destruct (step_inv N HN f Hf _ eps fuel' s l o s' HB I HP Es)
    as (_ & [(E1 & E2 & E3 & _)|(l1 & t1 & y1 & yp1 & h & y' & yp' & El1 & Eo & Hh & Hc & Hle & I' & _)]); [left; auto|right].
  rewrite El in El1. apply app_inj_tail in El1. destruct El1 as (_ & F). injection F as F1 F2 F3. subst t1 y1 yp1.
  exists h, y', yp'. split; [exact Eo|]. split; [lra|]. split; [exact Hc|].
  rewrite El in I'. rewrite <- app_assoc in I'. exact (sinv_represents N HN _ _ _ HB (ri_store _ _ _ _ _ I')).
Qed.
Print Assumptions C36_step.
(** Two steps for y' = 4 t^3: times 0, 1, 11. *)
Example C36_example : forall eps, exists s y1 p1 y2 p2, fits 1 [CStep; CStep] /\ reads_components 1 f_cubic /\
  after 1 f_cubic eps 1 1 zero_vec [CStep; CStep] s /\
  represents 1 (k_store s) [(0, zero_vec, f_cubic 0 zero_vec); (1, y1, p1); (11, y2, p2)].
Proof.
  intro eps. destruct (cubic_after eps) as (s & y1 & p1 & y2 & p2 & E & I & _). exists s, y1, p1, y2, p2.
  split. { split; [lia|]. split; [reflexivity|]. intros c [<-|[<-|[]]]; exact Logic.I. }
  split; [exact (time_only_reads 1 _ _ f_cubic_poly)|]. split; [exact E|].
  exact (sinv_represents 1 (le_n 1) 4 _ _ ltac:(reflexivity) (ri_store _ _ _ _ _ I)).
Qed.

(** C37.  All order conditions, for all rooted trees with at most 5 (4) nodes. *)
Theorem C37_order : has_order 5 7 dp_a dp_b /\
  has_order 4 7 dp_a (fun i => dp_b i - dp_e i) /\ ~ has_order 5 7 dp_a (fun i => dp_b i - dp_e i).
Proof. split; [exact dp_order_5|]. split; [exact dp_embedded_order_4|exact dp_embedded_not_5]. Qed.
Print Assumptions C37_order.
Theorem C37_consistency : (forall i, (i < 7)%nat -> rsum 7 (dp_a i) = dp_c i) /\ rsum 7 dp_e = 0 /\
  (forall i j, (i <= j)%nat -> dp_a i j = 0).
Proof.
  split; [exact dp_rows|]. split.
  - unfold rsum. cbn [seq map fold_right dp_e]. unfold e1, e3, e4, e5, e6, e7. field.
  - intros i j H. destruct i as [|[|[|[|[|[|[|i]]]]]]]; cbn [dp_a]; try reflexivity;
      destruct j as [|[|[|[|[|[|j]]]]]]; try reflexivity; lia.
Qed.
Print Assumptions C37_consistency.
(** [InnerStep] is the explicit Runge-Kutta method with these coefficients. *)
Theorem C37_is_runge_kutta : forall f T h y, let a := inner_step f T h y (f T y) in
  exists k : nat -> vec,
    (forall i, (i < 7)%nat -> k i = f (T + dp_c i * h) (fun n => y n + h * rsum 7 (fun j => dp_a i j * k j n))) /\
    (forall n, a_yout a n = y n + h * rsum 7 (fun i => dp_b i * k i n)) /\
    (forall n, a_yerr a n = h * rsum 7 (fun i => dp_e i * k i n)) /\
    a_dydxout a = k 6%nat.
Proof. exact inner_step_runge_kutta. Qed.
Print Assumptions C37_is_runge_kutta.
(** Polynomials of degree 4 are integrated exactly by one step ... *)
Theorem C37_exact_step : forall f cs T h y j, time_only f cs -> let a := inner_step f T h y (f T y) in
  a_yout a j = y j + (poly4_integral (cs j) (T + h) - poly4_integral (cs j) T) /\
  a_yerr a j = 71/270000 * cs j 4%nat * h^5.
Proof. exact inner_step_poly. Qed.
Print Assumptions C37_exact_step.
(** ... and by any number of steps, whatever their sizes. *)
Theorem C37_exact_history : forall N f eps fuel tol y0 cs o c, fits N cs -> time_only f c ->
  do_calls N eps fuel (set_equation (new_rk tol) f) (CInit y0 :: cs) = Some o ->
  exists s l z, o = Ok s /\ represents N (k_store s) l /\
    forall t y yp, In (t, y, yp) l -> forall j, (j < N)%nat -> y j = z j + poly4_integral (c j) t.
Proof.
  intros N f eps fuel tol y0 cs o c Hfit Hc H.
  destruct (C36_history N f eps fuel tol y0 cs o Hfit (time_only_reads N f c Hc) H) as (s & l & E & R & Ht & (z & zp & l' & El) & _).
  exists s, l, z. split; [exact E|]. split; [exact R|]. intros t y yp Hin j Hj.
  exact (traj_poly N f c l Ht Hc z zp l' El t y yp Hin j Hj).
Qed.
Print Assumptions C37_exact_history.
(** [poly4_integral] is the integral. *)
Theorem C37_integral : forall c t, derivable_pt_lim (poly4_integral c) t (poly4 c t) /\ poly4_integral c 0 = 0.
Proof.
  intros c t. split; [|unfold poly4_integral; field].
  apply poly4_integral_derive.
Qed.
Print Assumptions C37_integral.
(** The linear equation y' = lam y: one step multiplies by the stability polynomial, which
    agrees with exp(lam h) through order 5. *)
Theorem C37_linear : forall lam T h y j, let f := fun (_ : R) (v : vec) (i : nat) => lam * v i in let z := lam * h in
  a_yout (inner_step f T h y (f T y)) j = (1 + z + z^2/2 + z^3/6 + z^4/24 + z^5/120 + z^6/600) * y j.
Proof. exact inner_step_linear. Qed.
Print Assumptions C37_linear.
(** There are 9 trees with five nodes; for the tall one gamma is 120. *)
Example C37_example : order (Node [Node [Node [Node [Node []]]]]) = 5%nat /\ gamma (Node [Node [Node [Node [Node []]]]]) = 120%Z /\
  order (Node [Node []; Node [Node []; Node []]]) = 5%nat /\ gamma (Node [Node []; Node [Node []; Node []]]) = 15%Z /\ time_only f_cubic cs_cubic.
Proof. repeat split. exact f_cubic_poly. Qed.

(** C38.  The requested values are those of the interpolant between the two stored points ... *)
Theorem C38_value : forall N f eps fuel tol y0 cs s, fits N cs -> reads_components N f -> (forall c, In c cs -> keeps_dense c) ->
  after N f eps fuel tol y0 cs s ->
  exists l, represents N (k_store s) l /\ trajectory N f l /\
    forall k p q T, nth_error l k = Some p -> nth_error l (S k) = Some q -> time_of p < T <= time_of q ->
      output_dense N s 0 [T] = Ok [interpolant_row N f p q T].
Proof.
  intros N f eps fuel tol y0 cs s Hfit Hf Hk H.
  destruct (after_inv N f eps fuel tol y0 cs _ Hfit Hf H) as (s1 & l & E & HB & HP & I & K). injection E as E. subst s1.
  destruct (K Hk) as (_ & D). destruct Hfit as (HN & _ & _).
  exists l. split; [exact (sinv_represents N HN _ _ _ HB (ri_store _ _ _ _ _ I))|]. split; [exact (ri_traj _ _ _ _ _ I)|].
  intros k p q T Ep Eq HT.
  destruct (snoc_inv l (traj_nonempty N f l (ri_traj _ _ _ _ _ I))) as (l0 & z & El).
  assert (He : end_time l (time_of z)) by (exists l0, z; split; [exact El|reflexivity]).
  assert (Hend : time_of q <= time_of z).
  { apply (times_mono N HN f _ s l I (S k) (length l0)); [|exact Eq|].
    - apply nth_error_lt in Eq. rewrite El, app_length in Eq. cbn [length] in Eq. lia.
    - rewrite El, nth_error_app2, Nat.sub_diag by lia. reflexivity. }
  destruct (output_intervals N f _ s l HN HB I D (time_of z) He [T]) as (ls & Eo & Hlen & X).
  { apply nth_error_lt in Eq. lia. }
  { intros T' [<-|[]]. lra. }
  destruct (X 0%nat T eq_refl) as (k' & Er & (m & Tm & Hm & Em & Hin) & _).
  assert (m = 0%nat) by lia. subst m. injection Em as Em. subst Tm.
  assert (Hk' : in_interval l k T) by (exists p, q; repeat split; [exact Ep|exact Eq|lra|right; lra]).
  pose proof (interval_order N f _ s l HN I k k' T T Hk' Hin ltac:(lra)).
  pose proof (interval_order N f _ s l HN I k' k T T Hin Hk' ltac:(lra)).
  assert (k' = k) by lia. subst k'.
  destruct ls as [|r [|r' ls]]; cbn [length] in Hlen; try lia. cbn [nth_error] in Er. injection Er as Er. subst r.
  rewrite Eo, (row_spec N f l k p q T Ep Eq). reflexivity.
Qed.
Print Assumptions C38_value.
(** ... which takes the stored values and slopes at both ends, so that the pieces join with
    a continuous derivative. *)
Theorem C38_smooth : forall N f l, trajectory N f l -> forall k p q r j, nth_error l k = Some p -> nth_error l (S k) = Some q ->
  (interpolant f p q j (time_of p) = snd (fst p) j /\ interpolant f p q j (time_of q) = snd (fst q) j /\
   derivable_pt_lim (interpolant f p q j) (time_of p) (snd p j) /\ derivable_pt_lim (interpolant f p q j) (time_of q) (snd q j)) /\
  (nth_error l (S (S k)) = Some r ->
   interpolant f p q j (time_of q) = interpolant f q r j (time_of q) /\
   exists d, derivable_pt_lim (interpolant f p q j) (time_of q) d /\ derivable_pt_lim (interpolant f q r j) (time_of q) d).
Proof.
  assert (A : forall N f l, trajectory N f l -> forall k p q j, nth_error l k = Some p -> nth_error l (S k) = Some q ->
    interpolant f p q j (time_of p) = snd (fst p) j /\ interpolant f p q j (time_of q) = snd (fst q) j /\
    derivable_pt_lim (interpolant f p q j) (time_of p) (snd p j) /\ derivable_pt_lim (interpolant f p q j) (time_of q) (snd q j)).
  { intros N f l Ht k ((t, y), yp) ((t', y'), yp') j Ep Eq.
    destruct (traj_consecutive N f l Ht k t y yp t' y' yp' Ep Eq) as (Htt & _).
    destruct (interpolant_ends f t t' y yp y' yp' Htt j). destruct (interpolant_slopes f t t' y yp y' yp' Htt j). cbn [time_of fst snd]. auto. }
  intros N f l Ht k p q r j Ep Eq. pose proof (A N f l Ht k p q j Ep Eq) as X. split; [exact X|].
  intro Er. pose proof (A N f l Ht (S k) q r j Eq Er) as Y. destruct X as (_ & X2 & _ & X4), Y as (Y1 & _ & Y3 & _).
  split; [congruence|]. exists (snd q j). auto.
Qed.
Print Assumptions C38_smooth.
(** For cubic polynomials of time dense output is the exact solution, at every time. *)
Theorem C38_exact : forall N f eps fuel tol y0 cs s c, fits N cs -> time_only f c -> (forall j, c j 4%nat = 0) ->
  (forall c, In c cs -> keeps_dense c) -> after N f eps fuel tol y0 cs s ->
  exists l z, represents N (k_store s) l /\
    (forall j, (j < N)%nat -> solution_at N (k_store s) 0 j = Ok (z j)) /\
    forall k p q T, nth_error l k = Some p -> nth_error l (S k) = Some q -> time_of p < T <= time_of q ->
      output_dense N s 0 [T] = Ok [map (fun j => z j + poly4_integral (c j) T) (seq 0 N)].
Proof.
  intros N f eps fuel tol y0 cs s c Hfit Hc H4 Hk H.
  destruct (C38_value N f eps fuel tol y0 cs s Hfit (time_only_reads N f c Hc) Hk H) as (l & R & Ht & X).
  destruct (traj_start_zero N f l Ht) as (z & zp & l' & El). exists l, z. split; [exact R|].
  split. { intros j Hj. destruct R as (_ & R). specialize (R 0%nat 0 z zp ltac:(rewrite El; reflexivity)). apply R. exact Hj. }
  intros k p q T Ep Eq HT. rewrite (X k p q T Ep Eq HT). do 2 f_equal. apply map_ext_in. intros j Hj. apply in_seq in Hj.
  exact (traj_interpolant_exact N f c l Ht (time_only_reads N f c Hc) Hc z zp l' El k p q Ep Eq j T ltac:(lia) (H4 j)).
Qed.
Print Assumptions C38_exact.
Example C38_example : forall eps, exists s, fits 1 [CStep; CStep] /\ after 1 f_cubic eps 1 1 zero_vec [CStep; CStep] s /\
  output_dense 1 s 0 [1/2] = Ok [[1/16]].
Proof.
  intro eps. destruct (cubic_after eps) as (s & y1 & p1 & y2 & p2 & E & I & _ & D). exists s.
  assert (Hfit : fits 1 [CStep; CStep]) by (split; [lia|]; split; [reflexivity|]; intros c [<-|[<-|[]]]; exact Logic.I).
  split; [exact Hfit|]. split; [exact E|].
  assert (HB : (Z.of_nat 1 * (4 + 1000) < 2 ^ 32)%Z) by reflexivity.
  set (l := [(0, zero_vec, f_cubic 0 zero_vec); (1, y1, p1); (11, y2, p2)]) in *.
  assert (He : end_time l 11) by (exists [(0, zero_vec, f_cubic 0 zero_vec); (1, y1, p1)], (11, y2, p2); split; reflexivity).
  destruct (output_intervals 1 f_cubic 4 s l (le_n 1) HB I D 11 He [1/2]) as (ls & Eo & Hlen & X);
    [cbn [length l]; lia|intros T [<-|[]]; lra|].
  destruct (X 0%nat (1/2) eq_refl) as (k' & Er & (m & Tm & Hm & Em & Hin) & _).
  assert (m = 0%nat) by lia. subst m. injection Em as Em. subst Tm.
  assert (Hk' : in_interval l 0 (1/2)).
  { exists (0, zero_vec, f_cubic 0 zero_vec), (1, y1, p1). repeat split; [cbn; lra|left; reflexivity]. }
  pose proof (interval_order 1 f_cubic 4 s l (le_n 1) I k' 0 _ _ Hin Hk' (Rle_refl _)).
  assert (k' = 0%nat) by lia. subst k'.
  destruct ls as [|r [|r' ls]]; cbn [length] in Hlen; try lia. cbn [nth_error] in Er. injection Er as Er. subst r.
  rewrite Eo, (row_spec 1 f_cubic l 0 _ _ (1/2) eq_refl eq_refl). unfold interpolant_row. cbn [seq map]. do 3 f_equal.
  etransitivity; [exact (traj_interpolant_exact 1 f_cubic cs_cubic l (ri_traj _ _ _ _ _ I) (time_only_reads 1 _ _ f_cubic_poly)
     f_cubic_poly zero_vec _ _ eq_refl 0 _ _ eq_refl eq_refl 0%nat (1/2) ltac:(lia) eq_refl)|].
  unfold poly4_integral, cs_cubic, zero_vec. field.
Qed.

(** C39.  Requests in increasing order: each is evaluated on its own interval. *)
Lemma interval_exists : forall N f P s l e T, (1 <= N)%nat -> (Z.of_nat N * (P + 1000) < 2 ^ 32)%Z -> rkinv N f P s l ->
  drep N f (k_dense s) l -> end_time l e -> (1 < length l)%nat -> T <= e -> exists k, in_interval l k T.
Proof.
  intros N f P s l e T HN HB I D He Hl HT.
  destruct (output_intervals N f P s l HN HB I D e He [T] Hl) as (ls & _ & _ & X); [intros T' [<-|[]]; exact HT|].
  destruct (X 0%nat T eq_refl) as (k & _ & (m & Tm & Hm & Em & Hin) & _).
  assert (m = 0%nat) by lia. subst m. injection Em as Em. subst Tm. exists k. exact Hin.
Qed.
Theorem C39_sorted : forall N f eps fuel tol y0 cs s, fits N cs -> reads_components N f -> (forall c, In c cs -> keeps_dense c) ->
  after N f eps fuel tol y0 cs s ->
  exists l, represents N (k_store s) l /\ trajectory N f l /\
    forall e ts, (2 <= length l)%nat -> end_time l e -> nondecreasing ts -> (forall T, In T ts -> T <= e) ->
    exists out, output_dense N s 0 ts = Ok out /\ length out = length ts /\
      forall i T, nth_error ts i = Some T ->
      exists k p q, in_interval l k T /\ nth_error l k = Some p /\ nth_error l (S k) = Some q /\
        nth_error out i = Some (interpolant_row N f p q T).
Proof.
  intros N f eps fuel tol y0 cs s Hfit Hf Hk H.
  destruct (after_inv N f eps fuel tol y0 cs _ Hfit Hf H) as (s1 & l & E & HB & HP & I & K). injection E as E. subst s1.
  destruct (K Hk) as (_ & D). destruct Hfit as (HN & _ & _).
  exists l. split; [exact (sinv_represents N HN _ _ _ HB (ri_store _ _ _ _ _ I))|]. split; [exact (ri_traj _ _ _ _ _ I)|].
  intros e ts Hl He Hs Hle. destruct (output_intervals N f _ s l HN HB I D e He ts Hl Hle) as (out & Eo & Hlen & X).
  exists out. split; [exact Eo|]. split; [exact Hlen|]. intros i T ET.
  destruct (X i T ET) as (k & Er & (m & Tm & Hm & Em & Hin) & Hmax).
  destruct (interval_exists N f _ s l e T HN HB I D He Hl (Hle T (nth_error_In _ _ ET))) as (k' & Hin').
  pose proof (Hmax i T k' (Nat.le_refl i) ET Hin').
  pose proof (interval_order N f _ s l HN I k k' Tm T Hin Hin' (Hs m i Tm T Hm Em ET)).
  assert (k' = k) by lia. subst k'. pose proof Hin' as (p & q & Ep & Eq & _).
  exists k, p, q. split; [exact Hin'|]. split; [exact Ep|]. split; [exact Eq|]. rewrite Er. f_equal. exact (row_spec N f l k p q T Ep Eq).
Qed.
Print Assumptions C39_sorted.
(** Requests in any order: each is evaluated on the last of the intervals of the requests so
    far. *)
Theorem C39_any_order : forall N f eps fuel tol y0 cs s, fits N cs -> reads_components N f -> (forall c, In c cs -> keeps_dense c) ->
  after N f eps fuel tol y0 cs s ->
  exists l, represents N (k_store s) l /\ trajectory N f l /\
    forall e ts, (2 <= length l)%nat -> end_time l e -> (forall T, In T ts -> T <= e) ->
    exists out, output_dense N s 0 ts = Ok out /\ length out = length ts /\
      forall i T, nth_error ts i = Some T ->
      exists k p q, nth_error l k = Some p /\ nth_error l (S k) = Some q /\
        nth_error out i = Some (interpolant_row N f p q T) /\
        (exists m Tm, (m <= i)%nat /\ nth_error ts m = Some Tm /\ in_interval l k Tm) /\
        (forall m Tm k', (m <= i)%nat -> nth_error ts m = Some Tm -> in_interval l k' Tm -> (k' <= k)%nat).
Proof.
  intros N f eps fuel tol y0 cs s Hfit Hf Hk H.
  destruct (after_inv N f eps fuel tol y0 cs _ Hfit Hf H) as (s1 & l & E & HB & HP & I & K). injection E as E. subst s1.
  destruct (K Hk) as (_ & D). destruct Hfit as (HN & _ & _).
  exists l. split; [exact (sinv_represents N HN _ _ _ HB (ri_store _ _ _ _ _ I))|]. split; [exact (ri_traj _ _ _ _ _ I)|].
  intros e ts Hl He Hle. destruct (output_intervals N f _ s l HN HB I D e He ts Hl Hle) as (out & Eo & Hlen & X).
  exists out. split; [exact Eo|]. split; [exact Hlen|]. intros i T ET.
  destruct (X i T ET) as (k & Er & Hex & Hmax). pose proof Hex as (m & Tm & _ & _ & (p & q & Ep & Eq & _)).
  exists k, p, q. split; [exact Ep|]. split; [exact Eq|]. split; [|split; [exact Hex|exact Hmax]].
  rewrite Er. f_equal. exact (row_spec N f l k p q T Ep Eq).
Qed.
Print Assumptions C39_any_order.
(** A request beyond the last stored time makes the whole call throw. *)
Theorem C39_beyond : forall N f eps fuel tol y0 cs s, fits N cs -> reads_components N f -> (forall c, In c cs -> keeps_dense c) ->
  after N f eps fuel tol y0 cs s ->
  exists l, represents N (k_store s) l /\ trajectory N f l /\
    forall e ts, (2 <= length l)%nat -> end_time l e -> (exists T, In T ts /\ e < T) -> output_dense N s 0 ts = Throw.
Proof.
  intros N f eps fuel tol y0 cs s Hfit Hf Hk H.
  destruct (after_inv N f eps fuel tol y0 cs _ Hfit Hf H) as (s1 & l & E & HB & HP & I & K). injection E as E. subst s1.
  destruct (K Hk) as (_ & D). destruct Hfit as (HN & _ & _).
  exists l. split; [exact (sinv_represents N HN _ _ _ HB (ri_store _ _ _ _ _ I))|]. split; [exact (ri_traj _ _ _ _ _ I)|].
  intros e ts Hl He Hex. exact (output_throw N HN f _ s l HB I D e He ts 0%nat Hl Hex).
Qed.
Print Assumptions C39_beyond.
(** Before the first step any request reads a time that was never stored. *)
Theorem C39_no_step_refuted : forall N f tol y0 s T ts, (1 <= N)%nat -> (Z.of_nat N * 1000 < 2 ^ 32)%Z ->
  rk_initial_value N (set_equation (new_rk tol) f) y0 = Ok s -> output_dense N s 0 (T :: ts) = UB.
Proof.
  intros N f tol y0 s T ts HN HB E. unfold rk_initial_value, initial_value, store_solution, new_rk, set_equation, new_storage in E.
  cbn [k_eqn k_store s_time s_sol s_der s_n s_alloc Z.leb] in E.
  change (Z.of_nat 0) with 0%Z in E. change (0 ?= 0)%Z with Eq in E. cbv iota zeta in E.
  cbn [s_time s_sol s_der s_n s_alloc] in E.
  unfold bwrite in E at 1. change (w32 (0 + 1000)) with 1000%Z in E. cbn [realloc b_size] in E. cbn [obind andb Z.leb Z.ltb Z.compare] in E.
  destruct (write_vec N _ _ y0) as [so| |]; cbn [obind] in E; try discriminate E.
  destruct (write_vec N _ _ (f 0 y0)) as [de| |]; cbn [obind] in E; try discriminate E.
  injection E as E. subst s. reflexivity.
Qed.
Print Assumptions C39_no_step_refuted.
(** Requests that are not sorted can be evaluated on a wrong interval: for y' = 5 t^4 with
    steps to 1 and 3/2, requesting 3/2 and then 1/2 does not give, for 1/2, what requesting
    1/2 alone gives. *)
Theorem C39_unsorted_refuted : exists f s, fits 1 [CParams p_half; CStep; CStep] /\ after 1 f 0 1 1 zero_vec [CParams p_half; CStep; CStep] s /\
  exists a b, output_dense 1 s 0 [3/2; 1/2] = Ok [a; [b]] /\ exists b', output_dense 1 s 0 [1/2] = Ok [[b']] /\ b <> b'.
Proof.
  exists f_quartic. destruct (quartic_after 0) as (s & y1 & p1 & y2 & p2 & E & I & _ & D). exists s.
  split. { split; [lia|]. split; [reflexivity|]. intros c [<-|[<-|[<-|[]]]]; try exact Logic.I. exact p_half_good. }
  split; [exact E|].
  assert (HB : (Z.of_nat 1 * (5 + 1000) < 2 ^ 32)%Z) by reflexivity.
  destruct (quartic_interpolants y1 p1 y2 p2 (ri_traj _ _ _ _ _ I)) as (V1 & V2).
  set (l := [(0, zero_vec, f_quartic 0 zero_vec); (1, y1, p1); (3/2, y2, p2)]) in *.
  assert (He : end_time l (3/2)) by (exists [(0, zero_vec, f_quartic 0 zero_vec); (1, y1, p1)], (3/2, y2, p2); split; reflexivity).
  assert (H0 : in_interval l 0 (1/2)).
  { exists (0, zero_vec, f_quartic 0 zero_vec), (1, y1, p1). repeat split; [cbn; lra|left; reflexivity]. }
  assert (H1 : in_interval l 1 (3/2)).
  { exists (1, y1, p1), (3/2, y2, p2). repeat split; [cbn; lra|right; cbn; lra]. }
  destruct (output_intervals 1 f_quartic 5 s l (le_n 1) HB I D (3/2) He [3/2; 1/2]) as (ls & Eo & Hlen & X);
    [cbn [length l]; lia|intros T [<-|[<-|[]]]; lra|].
  destruct ls as [|a [|b [|]]]; cbn [length] in Hlen; try lia.
  destruct (X 1%nat (1/2) eq_refl) as (k & Er & (m & Tm & Hm & Em & Hin) & Hmax).
  pose proof (Hmax 0%nat (3/2) 1%nat ltac:(lia) eq_refl H1) as Hk1.
  assert (k = 1%nat).
  { assert (T : Tm <= 3/2) by (destruct m as [|[|m]]; [injection Em as <-; lra|injection Em as <-; lra|lia]).
    pose proof (interval_order 1 f_quartic 5 s l (le_n 1) I k 1 Tm (3/2) Hin H1 T). lia. }
  subst k. cbn [nth_error] in Er. injection Er as Er. rewrite (row_spec 1 f_quartic l 1 _ _ (1/2) eq_refl eq_refl) in Er.
  unfold interpolant_row in Er. cbn [seq map] in Er.
  eexists a, _. split; [rewrite Eo, Er; reflexivity|].
  destruct (output_intervals 1 f_quartic 5 s l (le_n 1) HB I D (3/2) He [1/2]) as (ls & Eo' & Hlen' & X');
    [cbn [length l]; lia|intros T [<-|[]]; lra|].
  destruct ls as [|b' [|]]; cbn [length] in Hlen'; try lia.
  destruct (X' 0%nat (1/2) eq_refl) as (k & Er' & (m' & Tm' & Hm' & Em' & Hin') & _).
  assert (m' = 0%nat) by lia. subst m'. injection Em' as Em'. subst Tm'.
  pose proof (interval_order 1 f_quartic 5 s l (le_n 1) I k 0 _ _ Hin' H0 (Rle_refl _)).
  assert (k = 0%nat) by lia. subst k.
  cbn [nth_error] in Er'. injection Er' as Er'. rewrite (row_spec 1 f_quartic l 0 _ _ (1/2) eq_refl eq_refl) in Er'.
  unfold interpolant_row in Er'. cbn [seq map] in Er'.
  eexists. split; [rewrite Eo', Er'; reflexivity|].
  intro Z. rewrite V1 in Z. rewrite V2 in Z. lra.
Qed.
Print Assumptions C39_unsorted_refuted.
Example C39_example : forall y1 p1 y2 p2 : vec, let l := [(0, zero_vec, zero_vec); (1, y1, p1); (11, y2, p2)] in
  nondecreasing [0; 1/2; 1; 5] /\ in_interval l 0 0 /\ in_interval l 0 1 /\ in_interval l 1 5 /\ end_time l 11.
Proof.
  intros y1 p1 y2 p2 l. split; [|repeat split].
  - intros i k a b Hik Ea Eb.
    destruct i as [|[|[|[|[|]]]]]; cbn [nth_error] in Ea; try discriminate Ea; injection Ea as <-;
    destruct k as [|[|[|[|[|]]]]]; cbn [nth_error] in Eb; try discriminate Eb; injection Eb as <-; try lra; lia.
  - exists (0, zero_vec, zero_vec), (1, y1, p1). repeat split; [cbn; lra|left; reflexivity].
  - exists (0, zero_vec, zero_vec), (1, y1, p1). repeat split; [cbn; lra|left; reflexivity].
  - exists (1, y1, p1), (11, y2, p2). repeat split; [cbn; lra|right; cbn; lra].
  - exists [(0, zero_vec, zero_vec); (1, y1, p1)], (11, y2, p2). split; reflexivity.
Qed.

(** C40.  For every rounding of the arithmetic the last time is exactly [tmax]; the first is
    [tmin] if that is a floating-point number. *)
Theorem C40_times : forall rnd nt tmin tmax, (2 <= nt)%nat ->
  exists ts, uniform_times rnd nt tmin tmax = Ok ts /\ length ts = nt /\
    nth_error ts (nt - 1) = Some tmax /\
    (rnd 0 = 0 -> rnd tmin = tmin -> nth_error ts 0 = Some tmin) /\
    (forall i, (i < nt - 1)%nat -> nth_error ts i = Some (rnd (tmin + rnd (INR i * rnd (rnd (tmax - tmin) / (INR nt - 1)))))).
Proof.
  intros rnd nt tmin tmax Hn. destruct nt as [|[|n]]; try lia.
  eexists. split; [reflexivity|]. split; [rewrite set_last_length, map_length, seq_length; reflexivity|].
  assert (X : forall i, (i < S (S n) - 1)%nat ->
    nth_error (set_last (map (fun i => rnd (tmin + rnd (INR i * rnd (rnd (tmax - tmin) / (INR (S (S n)) - 1))))) (seq 0 (S (S n)))) tmax) i =
    Some (rnd (tmin + rnd (INR i * rnd (rnd (tmax - tmin) / (INR (S (S n)) - 1)))))).
  { intros i Hi. rewrite set_last_nth, map_length, seq_length. destruct (Nat.eqb_spec (S i) (S (S n))); [lia|].
    rewrite nth_error_map. rewrite (nth_error_nth' (seq 0 (S (S n))) 0%nat) by (rewrite seq_length; lia).
    rewrite seq_nth by lia. reflexivity. }
  split; [|split; [|exact X]].
  - rewrite set_last_nth, map_length, seq_length. destruct (Nat.eqb_spec (S (S (S n) - 1)) (S (S n))); [reflexivity|lia].
  - intros R0 Rt. rewrite X by lia. cbn [INR]. rewrite Rmult_0_l, R0, Rplus_0_r, Rt. reflexivity.
Qed.
Print Assumptions C40_times.
(** In exact arithmetic the times are equally spaced, and sorted if tmin <= tmax. *)
Theorem C40_equidistant : forall nt tmin tmax, (2 <= nt)%nat ->
  exists ts, uniform_times (fun x => x) nt tmin tmax = Ok ts /\
    (forall i, (i < nt)%nat -> nth_error ts i = Some (tmin + INR i * ((tmax - tmin) / (INR nt - 1)))) /\
    (tmin <= tmax -> nondecreasing ts).
Proof.
  intros nt tmin tmax Hn. destruct (C40_times (fun x => x) nt tmin tmax Hn) as (ts & E & L & Xl & _ & X).
  exists ts. split; [exact E|].
  assert (N1 : 0 < INR nt - 1) by (apply le_INR in Hn; cbn [INR] in Hn; lra).
  assert (Y : forall i, (i < nt)%nat -> nth_error ts i = Some (tmin + INR i * ((tmax - tmin) / (INR nt - 1)))).
  { intros i Hi. destruct (Nat.eq_dec i (nt - 1)) as [->|Hd]; [|apply X; lia].
    rewrite Xl, minus_INR by lia. cbn [INR]. f_equal. field. lra. }
  split; [exact Y|]. intros Hle i k a b Hik Ea Eb.
  assert (Hk : (k < nt)%nat) by (rewrite <- L; apply nth_error_Some; congruence).
  rewrite Y in Ea by lia. rewrite Y in Eb by lia. injection Ea as <-. injection Eb as <-.
  apply Rplus_le_compat_l. apply Rmult_le_compat_r; [|apply le_INR; exact Hik].
  apply Rmult_le_pos; [lra|]. left. apply Rinv_0_lt_compat. lra.
Qed.
Print Assumptions C40_equidistant.
Theorem C40_few : forall rnd tmin tmax, uniform_times rnd 0 tmin tmax = Throw /\
  (tmin = tmax -> uniform_times rnd 1 tmin tmax = Ok [tmax]) /\ (tmin <> tmax -> uniform_times rnd 1 tmin tmax = Throw).
Proof.
  intros rnd tmin tmax. split; [reflexivity|]. split; intro H; unfold uniform_times; destruct (Req_EM_T tmin tmax); try contradiction; reflexivity.
Qed.
Print Assumptions C40_few.
(** The values are those of the interpolants at these times; nothing is returned when tmax
    is beyond the last stored time. *)
Theorem C40_values : forall N f eps fuel tol y0 cs s, fits N cs -> reads_components N f -> (forall c, In c cs -> keeps_dense c) ->
  after N f eps fuel tol y0 cs s ->
  exists l, represents N (k_store s) l /\ trajectory N f l /\
    forall e nt tmin tmax, (2 <= length l)%nat -> (2 <= nt)%nat -> end_time l e ->
    (tmin <= tmax <= e -> exists ts out, output_dense_uniform N (fun x => x) s nt tmin tmax = Ok (ts, out) /\
       length ts = nt /\ length out = nt /\
       forall i, (i < nt)%nat -> exists T k p q, T = tmin + INR i * ((tmax - tmin) / (INR nt - 1)) /\ nth_error ts i = Some T /\
         in_interval l k T /\ nth_error l k = Some p /\ nth_error l (S k) = Some q /\
         nth_error out i = Some (interpolant_row N f p q T)) /\
    (e < tmax -> forall rnd, output_dense_uniform N rnd s nt tmin tmax = Throw).
Proof.
  intros N f eps fuel tol y0 cs s Hfit Hf Hk H.
  destruct (after_inv N f eps fuel tol y0 cs _ Hfit Hf H) as (s1 & l & E & HB & HP & I & K). injection E as E. subst s1.
  destruct (K Hk) as (_ & D). destruct Hfit as (HN & _ & _).
  exists l. split; [exact (sinv_represents N HN _ _ _ HB (ri_store _ _ _ _ _ I))|]. split; [exact (ri_traj _ _ _ _ _ I)|].
  intros e nt tmin tmax Hl Hn He. split.
  - intros (H1 & H2). destruct (C40_equidistant nt tmin tmax Hn) as (ts & Et & Xt & Hs). specialize (Hs H1).
    destruct (C40_times (fun x => x) nt tmin tmax Hn) as (ts' & Et' & Lt & Xl & _). rewrite Et in Et'. injection Et' as <-.
    assert (Hle : forall T, In T ts -> T <= e).
    { intros T Hin. apply In_nth_error in Hin. destruct Hin as (m & Em).
      assert (m < nt)%nat by (rewrite <- Lt; apply nth_error_Some; congruence).
      pose proof (Hs m (nt - 1)%nat T tmax ltac:(lia) Em Xl). lra. }
    destruct (output_intervals N f _ s l HN HB I D e He ts Hl Hle) as (out & Eo & Hlen & X).
    exists ts, out. unfold output_dense_uniform. rewrite Et. cbn [obind]. rewrite Eo. cbn [obind].
    split; [reflexivity|]. split; [exact Lt|]. split; [congruence|]. intros i Hi.
    destruct (X i _ (Xt i Hi)) as (k & Er & (m & Tm & Hm & Em & Hin) & Hmax).
    destruct (interval_exists N f _ s l e _ HN HB I D He Hl (Hle _ (nth_error_In _ _ (Xt i Hi)))) as (k' & Hin').
    pose proof (Hmax i _ k' (Nat.le_refl i) (Xt i Hi) Hin').
    pose proof (interval_order N f _ s l HN I k k' Tm _ Hin Hin' (Hs m i Tm _ Hm Em (Xt i Hi))).
    assert (k' = k) by lia. subst k'. pose proof Hin' as (p & q & Ep & Eq & _).
    eexists _, k, p, q. split; [reflexivity|]. split; [exact (Xt i Hi)|]. split; [exact Hin'|]. split; [exact Ep|]. split; [exact Eq|].
    rewrite Er. f_equal. exact (row_spec N f l k p q _ Ep Eq).
  - intros Hlt rnd. destruct (C40_times rnd nt tmin tmax Hn) as (ts & Et & Lt & Xl & _).
    unfold output_dense_uniform. rewrite Et. cbn [obind].
    assert (X : output_dense N s 0 ts = Throw).
    { apply (output_throw N HN f _ s l HB I D e He ts 0%nat Hl). exists tmax. split; [exact (nth_error_In _ _ Xl)|exact Hlt]. }
    rewrite X. reflexivity.
Qed.
Print Assumptions C40_values.
Example C40_example : uniform_times (fun x => x) 3 1 2 = Ok [1 + 0; 1 + 1 * ((2 - 1) / (2 + 1 - 1)); 2] .
Proof.
  destruct (C40_times (fun x => x) 3 1 2 ltac:(lia)) as (ts & E & L & X2 & X0 & X1). rewrite E.
  destruct ts as [|a [|b [|c [|]]]]; cbn [length] in L; try lia.
  cbn [Nat.sub nth_error] in X2. injection X2 as ->. specialize (X0 eq_refl eq_refl). injection X0 as ->.
  specialize (X1 1%nat ltac:(lia)). cbn [nth_error INR] in X1. injection X1 as ->. repeat f_equal; lra.
Qed.

(** C73.  From any stored time other than zero a step ends: it is accepted or throws. *)
Theorem C73_step_ends : forall N f eps fuel tol y0 cs s t, fits N cs -> reads_components N f -> 0 < eps ->
  after N f eps fuel tol y0 cs s -> last_time (k_store s) = Ok t -> t <> 0 ->
  exists fuel' o s', rk_step N eps fuel' s = Some (o, s') /\ o <> UB.
Proof.
  intros N f eps fuel tol y0 cs s t Hfit Hf He H Et Ht.
  destruct (after_inv N f eps fuel tol y0 cs _ Hfit Hf H) as (s1 & l & E & HB & HP & I & _). injection E as E. subst s1.
  destruct Hfit as (HN & _ & _).
  destruct (snoc_inv l (traj_nonempty N f l (ri_traj _ _ _ _ _ I))) as (l0 & ((t1, y), yp) & El).
  pose proof (ri_store _ _ _ _ _ I) as SI. rewrite El in SI.
  destruct (last_reads N HN _ (k_store s) l0 t1 y yp (k_y s) HB SI) as (E1 & (v & E2 & Ev) & _).
  destruct (last_reads N HN _ (k_store s) l0 t1 y yp (k_dydx s) HB SI) as (_ & _ & (w & E3 & Ew)).
  rewrite Et in E1. injection E1 as E1. subst t1.
  destruct (try_steps_terminates (inner_step f) (fun y a => estimate_error N (k_par s) y (a_yout a) (a_yerr a)) eps (k_par s)
     (ri_par _ _ _ _ _ I) (Control (c_opt (k_ctrl s)) (c_opt (k_ctrl s)) (c_errold (k_ctrl s)) (c_rejected (k_ctrl s))) t v w
     (ri_opt _ _ _ _ _ I) He Ht) as (fuel' & (o1, c') & Er).
  assert (X : exists o s', rk_step N eps fuel' s = Some (o, s')).
  { unfold rk_step. rewrite (ri_eqn _ _ _ _ _ I), E2, E3, Et, Er. destruct o1 as [a| |]; [|eexists; eexists; reflexivity|eexists; eexists; reflexivity].
    destruct (store_solution N (k_store s) (t + c_h c') (a_yout a) (a_dydxout a)) as [st| |]; try (eexists; eexists; reflexivity).
    destruct (k_on s && (1 <? s_n st)%Z)%bool; [|eexists; eexists; reflexivity].
    destruct (prepare_dense _ _ _ _ _ _ _ _ _ _); eexists; eexists; reflexivity. }
  destruct X as (o & s' & X). exists fuel', o, s'. split; [exact X|].
  destruct (step_inv N HN f Hf _ eps fuel' s l o s' HB I HP X) as (_ & [(-> & _)|(l1 & t2 & y2 & yp2 & h & y' & yp' & _ & -> & _)]); discriminate.
Qed.
Print Assumptions C73_step_ends.
(** How many attempts are made does not matter: more fuel gives the same result. *)
Theorem C73_fuel : forall N eps fuel fuel' s r, (fuel <= fuel')%nat -> rk_step N eps fuel s = Some r -> rk_step N eps fuel' s = Some r.
Proof.
  intros N eps fuel fuel' s r Hle H. unfold rk_step in *. destruct (k_eqn s) as [f|]; [|exact H].
  destruct (last_solution N _ _) as [v| |]; try exact H. destruct (last_derivative N _ _) as [w| |]; try exact H.
  destruct (last_time _) as [t| |]; try exact H.
  destruct (try_steps (inner_step f) _ eps (k_par s) fuel _ t v w) as [r1|] eqn:E; [|discriminate H].
  replace fuel' with (fuel + (fuel' - fuel))%nat by lia. rewrite (try_steps_mono _ _ _ _ _ _ _ _ _ _ _ E). exact H.
Qed.
Print Assumptions C73_fuel.
Example C73_example : forall eps, exists s, after 1 f_cubic eps 1 1 zero_vec [CStep; CStep] s /\ last_time (k_store s) = Ok 11 /\ 11 <> 0.
Proof.
  intro eps. destruct (cubic_after eps) as (s & y1 & p1 & y2 & p2 & E & I & _). exists s. split; [exact E|]. split; [|lra].
  destruct (last_reads 1 (le_n 1) 4 (k_store s) [(0, zero_vec, f_cubic 0 zero_vec); (1, y1, p1)] 11 y2 p2 zero_vec ltac:(reflexivity) (ri_store _ _ _ _ _ I)) as (X & _).
  exact X.
Qed.

(** C74.  At every stored point the stored derivative is the right-hand side there, and the
    next point is the Dormand-Prince step of the length taken. *)
Theorem C74_points : forall N f eps fuel tol y0 cs o, fits N cs -> reads_components N f ->
  do_calls N eps fuel (set_equation (new_rk tol) f) (CInit y0 :: cs) = Some o ->
  exists s l, o = Ok s /\ represents N (k_store s) l /\
    (forall t y yp, In (t, y, yp) l -> forall j, (j < N)%nat -> yp j = f t y j) /\
    (forall i t y yp t' y' yp', nth_error l i = Some (t, y, yp) -> nth_error l (S i) = Some (t', y', yp') ->
       t < t' /\ forall j, (j < N)%nat -> y' j = a_yout (inner_step f t (t' - t) y (f t y)) j).
Proof.
  intros N f eps fuel tol y0 cs o Hfit Hf H.
  destruct (C36_history N f eps fuel tol y0 cs o Hfit Hf H) as (s & l & E & R & Ht & _).
  exists s, l. split; [exact E|]. split; [exact R|]. split; [exact (traj_derivative N f l Ht)|].
  intros i t y yp t' y' yp' Ei Ei'. destruct (traj_consecutive N f l Ht i t y yp t' y' yp' Ei Ei') as (Htt & Hy). split; [exact Htt|].
  intros j Hj. rewrite (Hy j Hj).
  apply (inner_step_ext N f t (t' - t) y y yp (f t y) Hf (fun _ _ => eq_refl)
           (traj_derivative N f l Ht t y yp (nth_error_In _ _ Ei)) j Hj).
Qed.
Print Assumptions C74_points.
Example C74_example : forall eps, exists s, after 1 f_cubic eps 1 1 zero_vec [CStep; CStep] s /\
  solution_at 1 (k_store s) 2 0 = Ok (11 ^ 4) /\ derivative_at 1 (k_store s) 2 0 = Ok (4 * 11 ^ 3).
Proof.
  intro eps. destruct (cubic_after eps) as (s & y1 & p1 & y2 & p2 & E & I & _). exists s. split; [exact E|].
  destruct (sinv_represents 1 (le_n 1) 4 _ _ ltac:(reflexivity) (ri_store _ _ _ _ _ I)) as (_ & R).
  destruct (R 2%nat 11 y2 p2 eq_refl) as (_ & X). destruct (X 0%nat ltac:(lia)) as (X1 & X2).
  change (Z.of_nat 2) with 2%Z in X1, X2. rewrite X1, X2.
  pose proof (ri_traj _ _ _ _ _ I) as Ht.
  assert (Hin : In (11, y2, p2) [(0, zero_vec, f_cubic 0 zero_vec); (1, y1, p1); (11, y2, p2)]) by (right; right; left; reflexivity).
  rewrite (traj_poly 1 f_cubic cs_cubic _ Ht f_cubic_poly zero_vec _ _ eq_refl 11 y2 p2 Hin 0 ltac:(lia)).
  rewrite (traj_derivative 1 f_cubic _ Ht 11 y2 p2 Hin 0 ltac:(lia)).
  split; f_equal; unfold poly4_integral, cs_cubic, zero_vec, f_cubic; field.
Qed.

(** C75.  With dense output switched off from the start, a request within the stored times
    reads coefficients that were never computed. *)
Theorem C75_off : forall N f eps fuel tol y0 cs s, fits N (CToggle false :: cs) -> reads_components N f ->
  (forall c, In c cs -> c <> CToggle true) -> after N f eps fuel tol y0 (CToggle false :: cs) s ->
  exists l, represents N (k_store s) l /\ trajectory N f l /\
    forall e T ts, (2 <= length l)%nat -> end_time l e -> T <= e -> output_dense N s 0 (T :: ts) = UB.
Proof.
  intros N f eps fuel tol y0 cs s Hfit Hf Hc H.
  destruct (after_inv N f eps fuel tol y0 _ _ Hfit Hf H) as (s1 & l & E & HB & HP & I & _). injection E as E. subst s1.
  destruct Hfit as (HN & _ & _). set (P := (Z.of_nat (length (CToggle false :: cs)) + 2)%Z) in *.
  exists l. split; [exact (sinv_represents N HN _ _ _ HB (ri_store _ _ _ _ _ I))|]. split; [exact (ri_traj _ _ _ _ _ I)|].
  intros e T ts Hl He HT.
  assert (D : k_dense s = no_dense).
  { unfold after in H. cbn [do_calls] in H. unfold do_call in H at 1.
    destruct (rk_initial_value N (set_equation (new_rk tol) f) y0) as [s1| |] eqn:E1; try discriminate H.
    unfold do_call in H at 1. cbv iota in H. refine (off_no_dense N eps fuel cs (toggle_dense s1 false) s eq_refl _ Hc H).
    cbn [toggle_dense k_dense]. unfold rk_initial_value in E1. destruct (initial_value _ _ _ _); try discriminate E1.
    injection E1 as E1. subst s1. reflexivity. }
  cbn [output_dense].
  assert (Hn : s_n (k_store s) = Z.of_nat (length l)) by (destruct (ri_store _ _ _ _ _ I); assumption).
  destruct (advance_eq N HN f P s l I (Z.to_nat (s_n (k_store s) - (0 + 2))) 0 T Hl ltac:(rewrite Hn; lia)) as (k & Ek & Hk).
  change (Z.of_nat 0) with 0%Z in Ek. rewrite Ek. cbn [obind].
  destruct Hk as (_ & Hk2 & _ & Hk4).
  destruct (get_point N HN l (S k) Hk2) as (q & Eq). destruct (get_point N HN l k ltac:(lia)) as (p & Ep).
  replace (Z.of_nat k + 1)%Z with (Z.of_nat (S k)) by lia.
  rewrite (read_time N f P s l I (S k) q Eq). cbn [obind].
  assert (Hq : T <= time_of q).
  { destruct Hk4 as [(q' & Eq' & Hq')|Hlast]; [rewrite Eq in Eq'; injection Eq' as ->; exact Hq'|].
    destruct He as (l' & z & El & Ez). rewrite El, app_length in Hlast. cbn [length] in Hlast.
    rewrite El, nth_error_app2 in Eq by lia. replace (S k - length l')%nat with 0%nat in Eq by lia. injection Eq as <-. lra. }
  destruct (Rlt_dec (time_of q) T) as [X|_]; [lra|].
  rewrite (read_time N f P s l I k p Ep). cbn [obind]. rewrite D.
  assert (Y : forall n it z, (0 < n)%nat -> dense_components N n no_dense it z = UB).
  { induction n as [|n IH]; intros it z Hn0; [lia|]. cbn [dense_components]. destruct n as [|n].
    - cbn [dense_components obind]. unfold bread, no_dense, no_block. cbn [r_c1 b_size].
      destruct (0 <=? _)%Z eqn:B1; [|reflexivity]. destruct (_ <? 0)%Z eqn:B2; [|reflexivity].
      apply Z.leb_le in B1. apply Z.ltb_lt in B2. lia.
    - rewrite IH by lia. reflexivity. }
  rewrite Y by lia. reflexivity.
Qed.
Print Assumptions C75_off.
Example C75_example : fits 3 [CToggle false; CStep; CStep] /\ forall c, In c [CStep; CStep] -> c <> CToggle true.
Proof.
  split. { split; [lia|]. split; [reflexivity|]. intros c [<-|[<-|[<-|[]]]]; exact Logic.I. }
  intros c [<-|[<-|[]]]; discriminate.
Qed.
