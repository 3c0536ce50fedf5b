(** Proofs about step size control, trajectories and the dense output coefficients. *)
From Coq Require Import ZArith Reals Lra Lia.
From Verif Require Import Base AlgebraModel IntegratorModel IntegratorSpec IntegratorProofs.
Local Open Scope R_scope.

(** * Step size control *)
Lemma accept_iff : forall p c e, fst (update_timestep p c e) = true <-> exists x, e = ENum x /\ x <= 1.
Proof.
  intros p c e. destruct e as [x| |]; cbn [update_timestep fst].
  - destruct (Rle_dec x 1) as [H|H]; cbn [fst]; split; intro K; try reflexivity; try discriminate.
    + exists x. split; [reflexivity|exact H].
    + destruct K as (x' & E & H'). injection E as E. subst x'. contradiction.
  - split; [discriminate|]. intros (x & E & _). discriminate E.
  - split; [discriminate|]. intros (x & E & _). discriminate E.
Qed.

Lemma Rpower_le_1 : forall x a, 1 < x -> 0 <= a -> 0 < Rpower x (- a) <= 1.
Proof.
  intros x a Hx Ha. split; [apply exp_pos|].
  unfold Rpower. rewrite <- exp_0. assert (0 < ln x) by (rewrite <- ln_1; apply ln_increasing; lra).
  destruct (Req_dec a 0) as [E|E].
  - subst. right. f_equal. ring.
  - left. apply exp_increasing. nra.
Qed.

Lemma clamp_tests : forall lo hi s, lo <= hi ->
  (let s' := if Rlt_dec s lo then lo else s in if Rlt_dec hi s' then hi else s') = clamp lo hi s.
Proof.
  intros lo hi s H. cbv zeta. unfold clamp, Rmin, Rmax.
  destruct (Rlt_dec s lo), (Rle_dec lo s); try lra.
  - destruct (Rlt_dec hi lo), (Rle_dec hi lo); lra.
  - destruct (Rlt_dec hi s), (Rle_dec hi s); lra.
Qed.
Lemma clamp_bounds : forall lo hi s, lo <= hi -> lo <= clamp lo hi s <= hi.
Proof. intros lo hi s H. unfold clamp, Rmin, Rmax. destruct (Rle_dec lo s), (Rle_dec hi _); lra. Qed.

Lemma reject_factor : forall p c e, good_params p -> fst (update_timestep p c e) = false ->
  exists q, snd (update_timestep p c e) = Some (Control (c_h c) (c_h c * q) (c_errold c) true) /\
    (e = ENaN -> q = 1/10) /\ (e <> ENaN -> g_minscale p <= q) /\ 0 < q /\
    q <= Rmax (1/10) (Rmax (g_safe p) (g_minscale p)) /\ q < 1.
Proof.
  intros p c e ((S0 & S1) & A & (M0 & M1) & MM) H.
  destruct e as [x| |]; cbn [update_timestep] in H |- *.
  - destruct (Rle_dec x 1) as [Hx|Hx]; [discriminate H|]. cbn [snd].
    exists (Rmax (g_safe p * Rpower x (- g_alpha p)) (g_minscale p)).
    destruct (Rpower_le_1 x (g_alpha p) ltac:(lra) A) as (P0 & P1).
    assert (B : 0 < g_safe p * Rpower x (- g_alpha p) <= g_safe p).
    { split; [apply Rmult_lt_0_compat; lra|]. rewrite <- (Rmult_1_r (g_safe p)) at 2. apply Rmult_le_compat_l; lra. }
    set (z := g_safe p * Rpower x (- g_alpha p)) in *.
    split; [reflexivity|]. split; [discriminate|].
    unfold Rmax. destruct (Rle_dec z (g_minscale p)), (Rle_dec (g_safe p) (g_minscale p)), (Rle_dec (1/10) _);
      repeat split; intros; lra.
  - cbn [snd]. assert (Z0 : g_safe p * 0 = 0) by ring. assert (Z1 : g_safe p * 1 = g_safe p) by ring. rewrite Z0, Z1.
    destruct (Rlt_dec 0 (g_alpha p)) as [Ha|Ha].
    + exists (Rmax 0 (g_minscale p)). split; [reflexivity|]. split; [discriminate|].
      unfold Rmax. destruct (Rle_dec 0 (g_minscale p)), (Rle_dec (g_safe p) (g_minscale p)), (Rle_dec (1/10) _);
        repeat split; intros; lra.
    + destruct (Req_EM_T (g_alpha p) 0) as [E|E]; [|lra].
      exists (Rmax (g_safe p) (g_minscale p)). split; [reflexivity|]. split; [discriminate|].
      unfold Rmax. destruct (Rle_dec (g_safe p) (g_minscale p)), (Rle_dec (1/10) _);
        repeat split; intros; lra.
  - exists (1/10). cbn [snd]. split; [reflexivity|]. split; [reflexivity|]. split; [intro K; contradiction|].
    split; [lra|]. split; [apply Rmax_l|lra].
Qed.

Lemma accept_factor : forall p c x, g_minscale p <= g_maxscale p -> x <= 1 ->
  update_timestep p c (ENum x) =
  (true, Some (Control (c_h c)
     (c_h c * (let s := if Req_EM_T x 0 then g_maxscale p
                        else clamp (g_minscale p) (g_maxscale p) (g_safe p * Rpower x (- g_alpha p) * Rpower (c_errold c) (g_beta p)) in
               if c_rejected c then Rmin s 1 else s))
     (Rmax x (1/10000)) false)).
Proof.
  intros p c x MM Hx. cbn [update_timestep]. destruct (Rle_dec x 1) as [H|H]; [|contradiction].
  cbv zeta. rewrite (clamp_tests _ _ _ MM). destruct (c_rejected c); reflexivity.
Qed.

Lemma accept_bounds : forall p c x, good_params p -> x <= 1 ->
  exists q, update_timestep p c (ENum x) = (true, Some (Control (c_h c) (c_h c * q) (Rmax x (1/10000)) false)) /\
    g_minscale p <= q <= g_maxscale p /\ (c_rejected c = true -> q <= 1).
Proof.
  intros p c x ((S0 & S1) & A & (M0 & M1) & MM) Hx. rewrite (accept_factor p c x MM Hx).
  eexists. split; [reflexivity|]. cbv zeta.
  assert (B : forall s, g_minscale p <= s <= g_maxscale p ->
     g_minscale p <= (if c_rejected c then Rmin s 1 else s) <= g_maxscale p /\
     (c_rejected c = true -> (if c_rejected c then Rmin s 1 else s) <= 1)).
  { intros s Hs. destruct (c_rejected c).
    - pose proof (Rmin_l s 1). pose proof (Rmin_r s 1). split; [|intros _; lra].
      split; [apply Rmin_glb; lra|lra].
    - split; [exact Hs|discriminate]. }
  destruct (Req_EM_T x 0); apply B; [lra|apply clamp_bounds; exact MM].
Qed.

(** * Error estimate *)
Lemma error_sum_nonneg : forall n p y1 y2 e s, error_sum n p y1 y2 e = ENum s -> 0 <= s.
Proof.
  induction n as [|n IH]; intros p y1 y2 e s H; cbn [error_sum] in H.
  - injection H as H. lra.
  - destruct (error_sum n p y1 y2 e) as [r| |] eqn:E; [| |discriminate H].
    + destruct (Req_EM_T (sk p y1 y2 n) 0); [destruct (Req_EM_T (e n) 0); discriminate H|].
      injection H as H. specialize (IH _ _ _ _ _ E). set (z := e n / sk p y1 y2 n) in *. nra.
    + destruct (Req_EM_T (sk p y1 y2 n) 0); [destruct (Req_EM_T (e n) 0); discriminate H|discriminate H].
Qed.

(** * The loop of Step *)
Section Loop.
Variable inner : R -> R -> vec -> vec -> attempt.
Variable est : vec -> attempt -> err.
Variable eps : R.
Variable p : params.
Hypothesis Hp : good_params p.

Lemma try_steps_spec : forall fuel c T y dydx o c', 0 < c_h c ->
  try_steps inner est eps p fuel c T y dydx = Some (o, c') ->
  0 < c_h c' <= c_h c /\ 0 < c_opt c' /\
  match o with
  | Ok a => a = inner T (c_h c') y dydx /\ (exists x, est y a = ENum x /\ x <= 1) /\ c_rejected c' = false
  | Throw => Rabs (c_h c') <= Rabs T * eps
  | UB => False
  end.
Proof.
  induction fuel as [|k IH]; intros c T y dydx o c' Hh H; [discriminate H|].
  cbn [try_steps] in H. cbv zeta in H.
  set (a := inner T (c_h c) y dydx) in *.
  destruct (fst (update_timestep p c (est y a))) eqn:E.
  - pose proof (proj1 (accept_iff _ _ _) E) as (x & Ex & Hx).
    destruct (accept_bounds p c x Hp Hx) as (q & Eu & Hq & _).
    rewrite Ex, Eu in H. injection H as H1 H2. subst o c'. cbn [c_h c_opt c_rejected].
    destruct Hp as (_ & _ & (M0 & _) & _).
    split; [lra|]. split; [apply Rmult_lt_0_compat; lra|].
    split; [reflexivity|]. split; [exists x; split; assumption|reflexivity].
  - destruct (reject_factor p c _ Hp E) as (q & Eu & _ & _ & Q0 & _ & Q1).
    destruct (update_timestep p c (est y a)) as [b o1] eqn:Eq. cbn [fst snd] in E, Eu. subst b o1.
    cbn [c_h c_opt c_errold c_rejected] in H.
    assert (Hh' : 0 < c_h c * q) by (apply Rmult_lt_0_compat; lra).
    assert (Hle : c_h c * q <= c_h c) by nra.
    destruct (Rle_dec (Rabs (c_h c * q)) (Rabs T * eps)) as [Hr|Hr].
    + injection H as H1 H2. subst o c'. cbn [c_h c_opt]. lra.
    + specialize (IH (Control (c_h c * q) (c_h c * q) (c_errold c) true) T y dydx o c' Hh' H).
      cbn [c_h] in IH. destruct IH as (I1 & I2 & I3). split; [lra|]. split; [exact I2|exact I3].
Qed.

Lemma try_steps_terminates_aux : forall fuel c T y dydx q, 0 < c_h c -> 0 < q ->
  Rmax (1/10) (Rmax (g_safe p) (g_minscale p)) <= q ->
  c_h c * q ^ fuel <= Rabs T * eps -> exists r, try_steps inner est eps p (S fuel) c T y dydx = Some r.
Proof.
  induction fuel as [|k IH]; intros c T y dydx q Hh Hq0 Hq Hb;
    cbn [try_steps]; cbv zeta; set (a := inner T (c_h c) y dydx);
    (destruct (fst (update_timestep p c (est y a))) eqn:E;
     [pose proof (proj1 (accept_iff _ _ _) E) as (x & Ex & Hx);
      destruct (accept_bounds p c x Hp Hx) as (q' & Eu & _ & _); rewrite Ex, Eu; eexists; reflexivity|]);
    (destruct (reject_factor p c _ Hp E) as (q' & Eu & _ & _ & Q0 & Q2 & Q1);
     destruct (update_timestep p c (est y a)) as [b o1] eqn:Eq; cbn [fst snd] in E, Eu; subst b o1;
     cbn [c_h c_opt c_errold c_rejected];
     assert (Hh' : 0 < c_h c * q') by (apply Rmult_lt_0_compat; lra);
     rewrite (Rabs_right (c_h c * q')) by lra;
     destruct (Rle_dec (c_h c * q') (Rabs T * eps)) as [Hr|Hr]; [eexists; reflexivity|]).
  - exfalso. apply Hr. cbn [pow] in Hb. nra.
  - refine (IH (Control (c_h c * q') (c_h c * q') (c_errold c) true) T y dydx q Hh' Hq0 Hq _).
    cbn [c_h]. cbn [pow] in Hb.
    assert (0 < q ^ k) by (apply pow_lt; exact Hq0).
    assert (q' <= q) by lra.
    apply Rle_trans with (c_h c * (q * q ^ k)); [|exact Hb].
    rewrite Rmult_assoc. apply Rmult_le_compat_l; [lra|]. apply Rmult_le_compat_r; lra.
Qed.

Lemma try_steps_terminates : forall c T y dydx, 0 < c_h c -> 0 < eps -> T <> 0 ->
  exists fuel r, try_steps inner est eps p fuel c T y dydx = Some r.
Proof.
  intros c T y dydx Hh He HT.
  set (q := Rmax (1/10) (Rmax (g_safe p) (g_minscale p))).
  assert (Hq : 0 < q < 1).
  { destruct Hp as ((S0 & S1) & _ & (M0 & M1) & _). unfold q, Rmax.
    destruct (Rle_dec (g_safe p) (g_minscale p)), (Rle_dec (1/10) _); lra. }
  assert (HTe : 0 < Rabs T * eps / c_h c).
  { apply Rdiv_lt_0_compat; [apply Rmult_lt_0_compat; [apply Rabs_pos_lt; exact HT|exact He]|exact Hh]. }
  destruct (pow_lt_1_zero q ltac:(rewrite Rabs_right; lra) _ HTe) as (n & Hn).
  specialize (Hn n (le_n n)). rewrite Rabs_right in Hn.
  2: { apply Rle_ge. apply pow_le. lra. }
  exists (S n). apply try_steps_terminates_aux with (q := q); try lra; [apply Rle_refl|].
  apply Rmult_lt_compat_l with (r := c_h c) in Hn; [|exact Hh].
  unfold Rdiv in Hn. rewrite (Rmult_comm (c_h c) (Rabs T * eps * _)), Rmult_assoc, Rinv_l in Hn by lra. lra.
Qed.

Lemma try_steps_mono : forall fuel c T y dydx r k, try_steps inner est eps p fuel c T y dydx = Some r ->
  try_steps inner est eps p (fuel + k) c T y dydx = Some r.
Proof.
  induction fuel as [|n IH]; intros c T y dydx r k H; [discriminate H|].
  cbn [try_steps Nat.add] in *. cbv zeta in *.
  destruct (update_timestep p c _) as [b o1]. destruct o1 as [c1|]; [|destruct b; discriminate H].
  destruct b; [exact H|]. destruct (Rle_dec _ _); [exact H|]. apply IH. exact H.
Qed.
End Loop.

(** * Components only *)
Lemma inner_step_ext : forall N f T h y y' d d', reads_components N f ->
  (forall j, (j < N)%nat -> y j = y' j) -> (forall j, (j < N)%nat -> d j = d' j) ->
  let a := inner_step f T h y d in let a' := inner_step f T h y' d' in
  forall j, (j < N)%nat -> a_yout a j = a_yout a' j /\ a_dydxout a j = a_dydxout a' j /\ a_k3 a j = a_k3 a' j /\
    a_k4 a j = a_k4 a' j /\ a_k5 a j = a_k5 a' j /\ a_k6 a j = a_k6 a' j.
Proof.
  intros N f T h y y' d d' Hf Hy Hd. cbv zeta. unfold inner_step.
  set (k2 := f _ (fun i => y i + h * a21 * d i)). set (k2' := f _ (fun i => y' i + h * a21 * d' i)).
  assert (K2 : forall j, (j < N)%nat -> k2 j = k2' j).
  { apply Hf. intros j Hj. rewrite Hy, Hd by exact Hj. reflexivity. }
  clearbody k2 k2'.
  set (k3 := f _ (fun i => y i + h * a31 * d i + _)). set (k3' := f _ (fun i => y' i + h * a31 * d' i + _)).
  assert (K3 : forall j, (j < N)%nat -> k3 j = k3' j).
  { apply Hf. intros j Hj. rewrite Hy, Hd, K2 by exact Hj. reflexivity. }
  clearbody k3 k3'.
  set (k4 := f _ (fun i => y i + h * a41 * d i + _ + _)). set (k4' := f _ (fun i => y' i + h * a41 * d' i + _ + _)).
  assert (K4 : forall j, (j < N)%nat -> k4 j = k4' j).
  { apply Hf. intros j Hj. rewrite Hy, Hd, K2, K3 by exact Hj. reflexivity. }
  clearbody k4 k4'.
  set (k5 := f _ (fun i => y i + h * a51 * d i + _ + _ + _)). set (k5' := f _ (fun i => y' i + h * a51 * d' i + _ + _ + _)).
  assert (K5 : forall j, (j < N)%nat -> k5 j = k5' j).
  { apply Hf. intros j Hj. rewrite Hy, Hd, K2, K3, K4 by exact Hj. reflexivity. }
  clearbody k5 k5'.
  set (k6 := f _ (fun i => y i + h * a61 * d i + _ + _ + _ + _)). set (k6' := f _ (fun i => y' i + h * a61 * d' i + _ + _ + _ + _)).
  assert (K6 : forall j, (j < N)%nat -> k6 j = k6' j).
  { apply Hf. intros j Hj. rewrite Hy, Hd, K2, K3, K4, K5 by exact Hj. reflexivity. }
  clearbody k6 k6'. cbn [a_yout a_dydxout a_k3 a_k4 a_k5 a_k6].
  set (o := fun i => y i + h * a71 * d i + _ + _ + _ + _). set (o' := fun i => y' i + h * a71 * d' i + _ + _ + _ + _).
  assert (O : forall j, (j < N)%nat -> o j = o' j).
  { intros j Hj. unfold o, o'. rewrite Hy, Hd, K3, K4, K5, K6 by exact Hj. reflexivity. }
  intros j Hj. split; [exact (O j Hj)|]. split; [exact (Hf _ _ _ O j Hj)|]. auto.
Qed.
Lemma inner_step_fsal : forall f T h y d, a_dydxout (inner_step f T h y d) = f (T + h) (a_yout (inner_step f T h y d)).
Proof. reflexivity. Qed.

(** * Trajectories *)
Lemma nth_error_lt : forall {A} (l : list A) i x, nth_error l i = Some x -> (i < length l)%nat.
Proof. intros A l i x H. apply nth_error_Some. congruence. Qed.
Lemma traj_nonempty : forall N f l, trajectory N f l -> l <> [].
Proof. intros N f l H. destruct H; [discriminate|]. destruct l; discriminate. Qed.

Lemma traj_derivative : forall N f l, trajectory N f l ->
  forall t y yp, In (t, y, yp) l -> forall j, (j < N)%nat -> yp j = f t y j.
Proof.
  intros N f l H. induction H as [y yp Hy|l t y yp h y' yp' Ht IH Hh Hy' Hyp']; intros t0 y0 yp0 Hin.
  - destruct Hin as [E|[]]. injection E as E1 E2 E3. subst. exact Hy.
  - apply in_app_iff in Hin. destruct Hin as [Hin|[E|[E|[]]]].
    + apply IH. apply in_app_iff. left. exact Hin.
    + apply IH. apply in_app_iff. right. left. exact E.
    + injection E as E1 E2 E3. subst. exact Hyp'.
Qed.

Lemma traj_consecutive : forall N f l, trajectory N f l ->
  forall i t y yp t' y' yp', nth_error l i = Some (t, y, yp) -> nth_error l (S i) = Some (t', y', yp') ->
  t < t' /\ forall j, (j < N)%nat -> y' j = a_yout (inner_step f t (t' - t) y yp) j.
Proof.
  intros N f l H. induction H as [y yp Hy|l t y yp h y' yp' Ht IH Hh Hy' Hyp']; intros i t0 y0 yp0 t1 y1 yp1 E0 E1.
  - destruct i; discriminate E1.
  - assert (Hlen : (S i < length (l ++ [(t, y, yp); ((t + h)%R, y', yp')]))%nat) by exact (nth_error_lt _ _ _ E1).
    rewrite app_length in Hlen. cbn [length] in Hlen.
    destruct (Nat.eq_dec (S i) (S (length l))) as [E|E].
    + assert (i = length l) by lia. subst i.
      rewrite nth_error_app2 in E0, E1 by lia.
      replace (length l - length l)%nat with 0%nat in E0 by lia. replace (S (length l) - length l)%nat with 1%nat in E1 by lia.
      cbn in E0, E1. injection E0 as A1 A2 A3. injection E1 as B1 B2 B3. subst.
      split; [lra|]. replace (t0 + h - t0) with h by ring. exact Hy'.
    + replace (l ++ [(t, y, yp); ((t + h)%R, y', yp')]) with ((l ++ [(t, y, yp)]) ++ [((t + h)%R, y', yp')]) in E0, E1
        by (rewrite <- app_assoc; reflexivity).
      rewrite nth_error_app1 in E0, E1 by (rewrite app_length; cbn [length]; lia).
      eapply IH; eassumption.
Qed.

Lemma traj_start_zero : forall N f l, trajectory N f l -> exists y yp l', l = (0, y, yp) :: l'.
Proof.
  intros N f l H. induction H as [y yp Hy|l t y yp h y' yp' Ht IH Hh Hy' Hyp'].
  - exists y, yp, []. reflexivity.
  - destruct IH as (y0 & yp0 & l' & E). destruct l as [|q l].
    + injection E as E1 E2 E3 E4. subst. eexists _, _, _. reflexivity.
    + injection E as E1 E2. subst. eexists _, _, _. reflexivity.
Qed.

Lemma traj_increasing : forall N f l, trajectory N f l ->
  forall i k p q, (i < k)%nat -> nth_error l i = Some p -> nth_error l k = Some q -> time_of p < time_of q.
Proof.
  intros N f l H i k p q Hik. revert q. induction Hik as [|k Hik IH]; intros q Ep Eq.
  - destruct p as ((t, y), yp), q as ((t', y'), yp'). exact (proj1 (traj_consecutive N f l H i _ _ _ _ _ _ Ep Eq)).
  - destruct (nth_error l k) as [r|] eqn:Er.
    + specialize (IH r Ep eq_refl). apply Rlt_trans with (time_of r); [exact IH|].
      destruct r as ((t, y), yp), q as ((t', y'), yp'). exact (proj1 (traj_consecutive N f l H k _ _ _ _ _ _ Er Eq)).
    + exfalso. apply nth_error_None in Er. pose proof (nth_error_lt _ _ _ Eq). lia.
Qed.
