(** C108: the times of the integrator with rounding. *)
Require Import Reals List ZArith Lia Lra.
From Flocq Require Import Core Relative.
From Verif Require Import Base IntegratorModel IntegratorSpec IntegratorProps RoundModel RoundSpec RoundProofs.
Import ListNotations.
Local Open Scope R_scope.

(** C108.  Time never runs backwards: whatever the equation and the error estimates are, and
    whatever the rounding does, as long as it is monotone and knows zero, the times that are
    stored are nondecreasing and not negative. *)
Theorem C108_forward : forall rnd tenth eps minscale maxscale l es s, rounding rnd -> rnd 1 = 1 ->
  0 <= tenth -> 0 <= minscale -> 0 <= maxscale ->
  run_attempts rnd tenth eps minscale maxscale rstart l = (es, s) ->
  nondecreasing (0 :: stored_times es) /\ (forall t, In t (stored_times es) -> 0 <= t <= r_time s) /\ length es = length l.
Proof.
  intros rnd tenth eps mn mx l es s Hr H1 Ht Hmn Hmx H.
  assert (F : fine rnd rstart).
  { unfold fine, rstart; cbn [r_time r_step]. split; [lra|]. split; [lra|]. split; [apply Hr|exact H1]. }
  destruct (run_fine rnd tenth eps mn mx Hr Ht Hmn Hmx l rstart es s F H) as (_ & N & _ & A).
  split; [exact N|]. split; [exact A|]. exact (run_length _ _ _ _ _ _ _ _ _ H).
Qed.
Print Assumptions C108_forward.

(** The rounding of doubles is one of these. *)
Theorem C108_binary64 : rounding b64 /\ b64 1 = 1 /\ (forall e, (-1074 <= e)%Z -> b64 (bpow radix2 e) = bpow radix2 e).
Proof. split; [exact b64_rounding|]. split; [exact b64_1|exact b64_bpow]. Qed.
Print Assumptions C108_binary64.

(** With doubles a step that was first refused and then accepted ends at a later time than it began. *)
Theorem C108_later : forall minscale maxscale l es s a1 a2 t s', 0 <= minscale -> 0 <= maxscale ->
  run_attempts b64 (b64 (1/10)) eps64 minscale maxscale rstart l = (es, s) ->
  run_attempts b64 (b64 (1/10)) eps64 minscale maxscale s [a1; a2] = ([Retry; Stored t], s') -> r_time s < t.
Proof.
  intros mn mx l es s a1 a2 t s' Hmn Hmx H H2.
  assert (H10 : 0 <= b64 (1/10)) by (apply b64_pos; lra).
  destruct (run_fine b64 _ eps64 mn mx b64_rounding H10 Hmn Hmx l rstart es s start_fine H) as (F & _).
  rewrite run_cons in H2.
  pose proof (step_fine b64 (b64 (1/10)) eps64 mn mx b64_rounding H10 Hmn Hmx s a1 F) as P.
  assert (E1 : fst (attempt_step b64 (b64 (1/10)) eps64 mn mx s a1) = Retry ->
    ~ Rabs (r_step (snd (attempt_step b64 (b64 (1/10)) eps64 mn mx s a1))) <= b64 (Rabs (r_time s) * eps64)).
  { destruct a1 as [| |w|w]; cbn [attempt_step rejected accepted fst snd r_step]; try discriminate;
    destruct (Rle_dec _ _); try discriminate; intros _; assumption. }
  destruct (attempt_step b64 (b64 (1/10)) eps64 mn mx s a1) as [e1 s1]. cbn [fst snd] in P, E1.
  rewrite run_cons in H2. destruct (attempt_step b64 (b64 (1/10)) eps64 mn mx s1 a2) as [e2 s2] eqn:E2.
  cbn [run_attempts] in H2. injection H2 as -> -> _. specialize (E1 eq_refl). destruct P as ((A & B & C & D) & T).
  assert (Et : t = b64 (r_time s1 + r_step s1)).
  { pose proof (f_equal fst E2) as X. cbn [fst] in X. destruct a2 as [| |w|w]; unfold attempt_step, rejected, accepted in X; cbn [fst] in X.
    - destruct (Rle_dec (Rabs _) (b64 (Rabs _ * _))); discriminate.
    - injection X as X. symmetry. exact X.
    - injection X as X. symmetry. exact X.
    - destruct (Rle_dec (Rabs _) (b64 (Rabs _ * _))); discriminate. }
  rewrite Et, <- T. apply b64_advances; [exact A|exact C|exact D|]. rewrite T. rewrite (Rabs_pos_eq (r_step s1)) in E1 by exact B. lra.
Qed.
Print Assumptions C108_later.

(** But time may stand still without the exception for a step size underflow being thrown: it
    is looked for after a refused attempt only.  If the steps are accepted and shrink each
    time, after 606 of them the stored time is the same for ever. *)
Theorem C108_stagnation_refuted : forall minscale maxscale l es s w, 0 <= minscale <= 15/16 -> 0 <= maxscale ->
  (606 <= length l)%nat -> Forall shrinks l ->
  run_attempts b64 (b64 (1/10)) eps64 minscale maxscale rstart l = (es, s) ->
  ~ In Thrown es /\ ~ In Retry es /\ fst (attempt_step b64 (b64 (1/10)) eps64 minscale maxscale s (AOk w)) = Stored (r_time s).
Proof.
  intros mn mx l es s w Hmn Hmx Hl F H.
  destruct (run_stored mn mx l rstart es s F H) as (A & B). split; [exact A|]. split; [exact B|].
  cbn [attempt_step accepted fst]. f_equal.
  assert (H10 : 0 <= b64 (1/10)) by (apply b64_pos; lra).
  destruct l as [|a l]; [cbn [length] in Hl; lia|].
  inversion F as [|? ? Fa Fl]; subst. destruct a as [| |w0|w0]; try contradiction.
  rewrite run_cons in H. pose proof (step_scale mn mx rstart (AOk w0)) as P0.
  pose proof (step_fine b64 (b64 (1/10)) eps64 mn mx b64_rounding H10 (proj1 Hmn) Hmx rstart (AOk w0) start_fine) as (F1 & _).
  assert (T1 : r_time (snd (attempt_step b64 (b64 (1/10)) eps64 mn mx rstart (AOk w0))) = 1).
  { cbn [attempt_step accepted snd r_time rstart r_step]. rewrite Rplus_0_l. apply b64_1. }
  pose proof (scale_small mn mx Hmn Hmx rstart (AOk w0) (or_introl Fa)) as Sm.
  destruct (attempt_step b64 (b64 (1/10)) eps64 mn mx rstart (AOk w0)) as [e1 s1]. cbn [snd] in P0, F1, T1.
  destruct (run_attempts b64 (b64 (1/10)) eps64 mn mx s1 l) as [es1 s2] eqn:E. injection H as <- <-.
  destruct (run_fine b64 _ eps64 mn mx b64_rounding H10 (proj1 Hmn) Hmx l s1 es1 s2 F1 E) as ((_ & Hs & Ft & _) & _ & Hle & _).
  destruct (run_shrink mn mx Hmn Hmx l s1 es1 s2) with (2 := E) as (ss & L & Fs & Es).
  { apply Forall_impl with (2 := Fl). intros a Ha. left. exact Ha. }
  apply b64_stays; [lra|exact Ft|]. split; [exact Hs|].
  rewrite Es. replace (-54)%Z with (0 - Z.of_nat 54)%Z by lia. cbn [length] in Hl.
  assert (Q : shrink (r_step rstart) (scale_of mn mx rstart (AOk w0) :: ss) <= bpow radix2 (0 - Z.of_nat 54)).
  { apply shrink_many; [cbn [length]; lia|lia|constructor; assumption|cbn; lra|apply b64_1|cbn; lra]. }
  rewrite shrink_cons, <- P0 in Q. exact Q.
Qed.
Print Assumptions C108_stagnation_refuted.

(** If every attempt is refused with a smaller step each time, the call of [Step] ends with
    the exception, when the time is not too close to zero. *)
Theorem C108_gives_up : forall minscale maxscale l es s, 0 <= minscale <= 15/16 -> 0 <= maxscale ->
  run_attempts b64 (b64 (1/10)) eps64 minscale maxscale rstart l = (es, s) -> bpow radix2 (-900) <= r_time s ->
  exists n, forall r es' s', (n <= length r)%nat -> Forall refused r ->
    run_attempts b64 (b64 (1/10)) eps64 minscale maxscale s r = (es', s') -> In Thrown es'.
Proof.
  intros mn mx l es s Hmn Hmx H HT.
  assert (H10 : 0 <= b64 (1/10)) by (apply b64_pos; lra).
  destruct (run_fine b64 _ eps64 mn mx b64_rounding H10 (proj1 Hmn) Hmx l rstart es s start_fine H) as ((HT0 & Hh & FT & Fh) & _).
  set (j := Z.max (mag radix2 (r_step s)) (-952)).
  exists (S (11 * Z.to_nat (j + 952))). intros r es' s' Hlen F H'.
  destruct (exists_last (l := r)) as (r' & a & ->); [intros ->; cbn [length] in Hlen; lia|].
  rewrite app_length in Hlen. cbn [length] in Hlen. apply Forall_app in F. destruct F as (Fr & Fa).
  inversion Fa as [|? ? Ha _]; subst. rewrite run_app in H'.
  destruct (run_attempts b64 (b64 (1/10)) eps64 mn mx s r') as [e1 s1] eqn:E1.
  pose proof (refused_event mn mx s1 a Ha) as Pe. pose proof (step_scale mn mx s1 a) as Ps.
  cbn [run_attempts] in H'. destruct (attempt_step b64 (b64 (1/10)) eps64 mn mx s1 a) as [e2 s2]. cbn [fst snd] in Pe, Ps.
  injection H' as <- <-. apply in_or_app. right. left. rewrite Pe.
  assert (F1 : Forall (fun a => shrinks a \/ refused a) r') by (apply Forall_impl with (2 := Fr); intros x Hx; right; exact Hx).
  destruct (run_shrink mn mx Hmn Hmx r' s e1 s1 F1 E1) as (ss & Ls & Fs & Es).
  assert (Sm : Forall small (ss ++ [scale_of mn mx s1 a])).
  { apply Forall_app. split; [exact Fs|]. constructor; [|constructor]. apply scale_small; [exact Hmn|exact Hmx|right; exact Ha]. }
  assert (E2 : r_step s2 = shrink (r_step s) (ss ++ [scale_of mn mx s1 a])).
  { rewrite shrink_app, <- Es, Ps. reflexivity. }
  destruct (Rle_dec _ _) as [_|N]; [reflexivity|]. exfalso. apply N.
  rewrite (run_refused_time mn mx r' s e1 s1 Fr E1).
  rewrite Rabs_pos_eq by (rewrite E2; apply shrink_pos; assumption).
  apply Rle_trans with (bpow radix2 (-952)).
  - rewrite E2. replace (-952)%Z with (j - Z.of_nat (Z.to_nat (j + 952)))%Z by lia.
    apply shrink_many; [rewrite app_length; cbn [length]; lia|lia|exact Sm|exact Hh|exact Fh|].
    apply Rle_trans with (bpow radix2 (mag radix2 (r_step s))); [|apply bpow_le; lia].
    rewrite <- (Rabs_pos_eq (r_step s)) at 1 by exact Hh. left. apply bpow_mag_gt.
  - rewrite <- b64_bpow by lia. apply b64_le. rewrite Rabs_pos_eq by exact HT0.
    replace (-952)%Z with (-900 + -52)%Z by lia. rewrite bpow_plus. apply Rmult_le_compat_r; [apply bpow_ge_0|exact HT].
Qed.
Print Assumptions C108_gives_up.

(** At time zero it need not end: the threshold is zero there, and a step that is multiplied by
    more than one half does not become zero. *)
Theorem C108_first_step_refuted : forall minscale maxscale l es s,
  Forall (fun a => exists w, a = ABad w /\ 1/2 < w) l ->
  run_attempts b64 (b64 (1/10)) eps64 minscale maxscale rstart l = (es, s) ->
  Forall (fun e => e = Retry) es /\ r_time s = 0.
Proof.
  intros mn mx l es s F H.
  enough (G : forall l s0 es s, r_time s0 = 0 -> bpow radix2 (-1074) <= r_step s0 ->
    Forall (fun a => exists w, a = ABad w /\ 1/2 < w) l ->
    run_attempts b64 (b64 (1/10)) eps64 mn mx s0 l = (es, s) -> Forall (fun e => e = Retry) es /\ r_time s = 0).
  { apply (G l rstart es s); [reflexivity| |exact F|exact H]. cbn [rstart r_step]. change 1 with (bpow radix2 0). apply bpow_le. lia. }
  clear. induction l as [|a l IH]; intros s0 es s T Hh F H.
  - injection H as <- <-. split; [constructor|exact T].
  - inversion F as [|? ? (w & Ea & Hw) Fl]; subst. rewrite run_cons in H. cbn [attempt_step rejected] in H.
    set (h := b64 (r_step s0 * Rmax w mn)) in H.
    assert (P : bpow radix2 (-1074) <= h).
    { set (x := Rmax w mn) in *. assert (Hx : 1/2 < x) by (unfold x; pose proof (Rmax_l w mn); lra).
      pose proof (bpow_gt_0 radix2 (-1074)) as B. unfold h. apply Rnot_lt_le. intros L.
      assert (Hc : b64 (bpow radix2 (-1074) * x) <= b64 (r_step s0 * x)) by (apply b64_le; apply Rmult_le_compat_r; lra).
      assert (Hd : bpow radix2 (-1074) <= b64 (bpow radix2 (-1074) * x)).
      { apply round_N_ge_midp; [apply FLT_exp_valid; exact prec53|apply generic_format_FLT_bpow; [exact prec53|lia]|].
        rewrite pred_eq_pos by lra. unfold pred_pos. rewrite mag_bpow.
        replace (FLT_exp (-1074) 53 (-1074 + 1 - 1)) with (-1074)%Z by reflexivity.
        replace (-1074 + 1 - 1)%Z with (-1074)%Z by reflexivity. rewrite Req_bool_true by reflexivity. nra. }
      lra. }
    rewrite T in H. rewrite Rabs_R0, Rmult_0_l, b64_0 in H. pose proof (bpow_gt_0 radix2 (-1074)) as B.
    destruct (Rle_dec (Rabs h) 0) as [N|_]; [rewrite Rabs_pos_eq in N by lra; lra|].
    match type of H with context [run_attempts _ _ _ _ _ ?x l] => destruct (run_attempts b64 (b64 (1/10)) eps64 mn mx x l) as [es1 s1] eqn:E end.
    injection H as <- <-. destruct (IH (RState 0 h true) es1 s1 eq_refl P Fl E) as (A & C). split; [constructor; [reflexivity|exact A]|exact C].
Qed.
Print Assumptions C108_first_step_refuted.

(** Every behaviour of [Step] over the real numbers (IntegratorModel) is one of these. *)
Theorem C108_real_steps : forall inner est eps p fuel c T y dydx o c', 
  try_steps inner est eps p fuel c T y dydx = Some (o, c') ->
  exists k l s, Z.of_nat (length l) = (Z.of_nat k + 1)%Z /\
    run_attempts (fun x => x) (1/10) eps (g_minscale p) (g_maxscale p) (RState T (c_h c) (c_rejected c)) l =
      (repeat Retry k ++ [match o with Ok _ => Stored (T + c_h c') | _ => Thrown end], s) /\
    r_step s = c_opt c' /\ r_rej s = c_rejected c'.
Proof.
  intros inner est eps p fuel. induction fuel as [|fuel IH]; intros c T y dydx o c' H; [discriminate|].
  cbn [try_steps] in H.
  assert (Retried : forall a sc, attempt_step (fun x => x) (1/10) eps (g_minscale p) (g_maxscale p) (RState T (c_h c) (c_rejected c)) a =
      rejected (fun x => x) eps (RState T (c_h c) (c_rejected c)) sc ->
    (let c2 := Control (c_h c * sc) (c_h c * sc) (c_errold c) true in
     if Rle_dec (Rabs (c_h c2)) (Rabs T * eps) then Some (Throw, c2) else try_steps inner est eps p fuel c2 T y dydx) = Some (o, c') ->
    exists k l s, Z.of_nat (length l) = (Z.of_nat k + 1)%Z /\
      run_attempts (fun x => x) (1/10) eps (g_minscale p) (g_maxscale p) (RState T (c_h c) (c_rejected c)) l =
        (repeat Retry k ++ [match o with Ok _ => Stored (T + c_h c') | _ => Thrown end], s) /\
      r_step s = c_opt c' /\ r_rej s = c_rejected c').
  { intros a sc Ea E. cbv zeta in E. cbn [c_h] in E. unfold rejected in Ea; cbn [r_time r_step] in Ea.
    destruct (Rle_dec (Rabs (c_h c * sc)) (Rabs T * eps)) as [N|N].
    - injection E as <- <-. exists 0%nat, [a], (RState T (c_h c * sc) true). split; [reflexivity|]. split; [|split; reflexivity].
      rewrite run_cons, Ea. reflexivity.
    - destruct (IH _ _ _ _ _ _ E) as (k & l & s & L & R & A & B). exists (S k), (a :: l), s. split; [cbn [length]; lia|].
      split; [|split; assumption]. rewrite run_cons, Ea. cbn [c_h c_rejected] in R. rewrite R. reflexivity. }
  destruct (est y (inner T (c_h c) y dydx)) as [x| |]; cbn [update_timestep] in H.
  - destruct (Rle_dec x 1) as [X1|X1].
    + match type of H with context [if Req_EM_T x 0 then _ else ?e] => set (w := e) in H end.
      injection H as <- <-. destruct (Req_EM_T x 0) as [X0|X0].
      * exists 0%nat, [AZero]. eexists. split; [reflexivity|]. split; [reflexivity|]. cbn [c_opt c_rejected r_step r_rej].
        split; [|reflexivity]. destruct (c_rejected c); reflexivity.
      * exists 0%nat, [AOk (g_safe p * Rpower x (- g_alpha p) * Rpower (c_errold c) (g_beta p))]. eexists.
        split; [reflexivity|]. split; [reflexivity|]. cbn [c_opt c_rejected r_step r_rej].
        split; [|reflexivity]. unfold w, accept_scale. cbv zeta. destruct (c_rejected c); reflexivity.
    + apply (Retried (ABad (g_safe p * Rpower x (- g_alpha p))) (Rmax (g_safe p * Rpower x (- g_alpha p)) (g_minscale p))); [reflexivity|exact H].
  - destruct (Rlt_dec 0 (g_alpha p)).
    + apply (Retried (ABad (g_safe p * 0)) (Rmax (g_safe p * 0) (g_minscale p))); [reflexivity|exact H].
    + destruct (Req_EM_T (g_alpha p) 0); [|discriminate].
      apply (Retried (ABad (g_safe p * 1)) (Rmax (g_safe p * 1) (g_minscale p))); [reflexivity|exact H].
  - apply (Retried ANaN (1/10)); [reflexivity|exact H].
Qed.
Print Assumptions C108_real_steps.

(** Equal times do no harm to the dense output, if the first two times differ and the requested
    times are in order: the interval in which a requested time is looked up contains
    it and has positive length, so that nothing is divided by zero.  The condition on where the search
    starts holds for the first request, and the result gives it for the next. *)
Theorem C108_dense_interval : forall st n t it T, (2 <= n)%Z ->
  (forall i, (0 <= i < n)%Z -> bread (s_time st) i = Ok (t i)) ->
  (forall i j, (0 <= i <= j)%Z -> (j < n)%Z -> t i <= t j) -> t 0%Z < t 1%Z ->
  (0 <= it <= n - 2)%Z -> (it = 0%Z \/ t it < T) -> t 0%Z <= T <= t (n - 1)%Z ->
  exists m, advance (Z.to_nat (n - (it + 2))) st it T = Ok m /\ (it <= m <= n - 2)%Z /\
    t m <= T <= t (m + 1)%Z /\ t m < t (m + 1)%Z /\ (forall T', T <= T' -> m = 0%Z \/ t m < T').
Proof.
  intros st n t it T Hn Hb Hs H01 Hi Hit HT.
  destruct (bread_adv (Z.to_nat (n - (it + 2))) st n t it T Hb ltac:(lia) ltac:(lia) ltac:(lra)) as (m & E & B & U & D).
  exists m. split; [exact E|]. split; [exact B|].
  assert (X : m = 0%Z \/ t m < T).
  { destruct D as [ -> |D]; [exact Hit|right; exact D]. }
  split; [split; [|exact U]|].
  - destruct X as [ -> |X]; lra.
  - split.
    + destruct X as [ -> |X]; [exact H01|lra].
    + intros T' HT'. destruct X as [X|X]; [left; exact X|right; lra].
Qed.
Print Assumptions C108_dense_interval.

(** The equally spaced times of the dense output, as computed with doubles: they are in order,
    the first is [tmin], the last is [tmax] and the others lie between, so that none of them
    is refused as being beyond [tmax].  [nt] is of type [unsigned int]. *)
Theorem C108_uniform : forall nt tmin tmax, (2 <= nt)%nat -> (Z.of_nat nt < 2 ^ 32)%Z ->
  b64 tmin = tmin -> b64 tmax = tmax -> bpow radix2 (-1000) <= (tmax - tmin) / (INR nt - 1) ->
  exists ts, uniform_times b64 nt tmin tmax = Ok ts /\ length ts = nt /\ nondecreasing ts /\
    nth_error ts 0 = Some tmin /\ nth_error ts (nt - 1) = Some tmax /\ (forall t, In t ts -> tmin <= t <= tmax).
Proof.
  intros nt tmin tmax Hn Hb Fmin Fmax HD.
  destruct (C40_times b64 nt tmin tmax Hn) as (ts & E & L & Xl & X0 & X).
  exists ts. split; [exact E|]. split; [exact L|]. specialize (X0 b64_0 Fmin).
  set (M := INR nt - 1) in *. set (D := tmax - tmin) in *. set (dt := b64 (b64 D / M)) in *.
  assert (M1 : 1 <= M) by (unfold M; apply le_INR in Hn; cbn [INR] in Hn; lra).
  assert (M2 : M <= IZR (2 ^ 32)).
  { unfold M. rewrite INR_IZR_INZ. assert (Z.of_nat nt <= 2 ^ 32)%Z as Q by lia. apply IZR_le in Q. lra. }
  change (2 ^ 32)%Z with 4294967296%Z in M2.
  set (u := / 2 * bpow radix2 (- (53) + 1)).
  assert (U : 0 < u <= / 9007199254740992).
  { unfold u. change (bpow radix2 (- (53) + 1)) with (/ IZR (2 ^ 52)). change (2 ^ 52)%Z with 4503599627370496%Z. split; [|right; field].
    apply Rmult_lt_0_compat; [lra|]. apply Rinv_0_lt_compat. lra. }
  pose proof (bpow_gt_0 radix2 (-1000)) as B0.
  assert (B1 : bpow radix2 (-1074 + 53 - 1) <= / 4 * bpow radix2 (-1000)).
  { change (/4) with (bpow radix2 (-2)). rewrite <- bpow_plus. apply bpow_le. lia. }
  assert (REL : forall x, / 4 * bpow radix2 (-1000) <= x -> x * (1 - u) <= b64 x <= x * (1 + u)).
  { intros x Hx. pose proof (relative_error_N_FLT radix2 (-1074) 53 ltac:(lia) (fun z => negb (Z.even z)) x) as Q.
    rewrite (Rabs_pos_eq x) in Q by lra. specialize (Q ltac:(lra)). fold u in Q.
    change (round radix2 (FLT_exp (-1074) 53) (Znearest (fun z => negb (Z.even z))) x) with (b64 x) in Q.
    apply Rabs_le_inv in Q. lra. }
  assert (DM : D = D / M * M) by (field; lra).
  assert (DP : bpow radix2 (-1000) <= D). { rewrite DM. rewrite <- (Rmult_1_r (bpow _ _)). apply Rmult_le_compat; lra. }
  pose proof (REL D ltac:(lra)) as R1. set (x1 := b64 D) in *.
  assert (XM : x1 / M <= D / M * (1 + u) /\ D / M * (1 - u) <= x1 / M).
  { unfold Rdiv. rewrite !(Rmult_assoc D), !(Rmult_comm (/ M)), <- !(Rmult_assoc D). 
    split; apply Rmult_le_compat_r; try (left; apply Rinv_0_lt_compat); lra. }
  assert (U1 : / 2 <= 1 - u) by lra.
  assert (X2 : / 2 * bpow radix2 (-1000) <= x1 / M).
  { apply Rle_trans with (2 := proj2 XM). rewrite Rmult_comm. apply Rmult_le_compat; lra. }
  pose proof (REL (x1 / M) ltac:(lra)) as R2. fold dt in R2.
  assert (Dt : / 4 * bpow radix2 (-1000) <= dt).
  { apply Rle_trans with (2 := proj1 R2). replace (/4 * bpow radix2 (-1000)) with (/ 2 * bpow radix2 (-1000) * / 2) by field. apply Rmult_le_compat; lra. }
  assert (Dt2 : dt <= D / M * ((1 + u) * (1 + u))).
  { apply Rle_trans with (1 := proj2 R2). rewrite <- Rmult_assoc. apply Rmult_le_compat_r; lra. }
  assert (IN : forall i, (i < nt - 1)%nat -> 0 <= b64 (INR i * dt) <= D).
  { intros i Hi. split; [apply b64_pos; apply Rmult_le_pos; [apply pos_INR|lra]|].
    destruct i as [|i]; [cbn [INR]; rewrite Rmult_0_l, b64_0; lra|].
    assert (I1 : 1 <= INR (S i)) by (change 1 with (INR 1); apply le_INR; lia).
    assert (I2 : INR (S i) <= M - 1).
    { unfold M. assert (S i + 2 <= nt)%nat as Q by lia. apply le_INR in Q. rewrite plus_INR in Q. cbn [INR] in Q |- *. lra. }
    assert (I3 : dt <= INR (S i) * dt). { rewrite <- (Rmult_1_l dt) at 1. apply Rmult_le_compat_r; lra. }
    pose proof (REL (INR (S i) * dt) ltac:(lra)) as (_ & R3). apply Rle_trans with (1 := R3).
    apply Rle_trans with ((M - 1) * (D / M * ((1 + u) * (1 + u))) * (1 + u)).
    - apply Rmult_le_compat_r; [lra|]. apply Rmult_le_compat; try lra.
    - assert (K : (1 + u) * (1 + u) * (1 + u) <= 1 + 4 * u) by nra.
      assert (K2 : (M - 1) * (1 + 4 * u) <= M) by nra.
      assert (DM0 : 0 <= D / M) by lra.
      replace ((M - 1) * (D / M * ((1 + u) * (1 + u))) * (1 + u)) with (D / M * ((M - 1) * ((1 + u) * (1 + u) * (1 + u)))) by ring.
      rewrite DM at 2. apply Rmult_le_compat_l; [exact DM0|].
      apply Rle_trans with (2 := K2). apply Rmult_le_compat_l; lra. }
  assert (BND : forall i t, nth_error ts i = Some t -> tmin <= t <= tmax).
  { intros i t Et. assert (Hi : (i < nt)%nat) by (rewrite <- L; apply nth_error_Some; congruence).
    destruct (Nat.eq_dec i (nt - 1)) as [ -> |Hd].
    - rewrite Xl in Et. injection Et as <-. unfold D in DP. lra.
    - rewrite X in Et by lia. injection Et as <-. destruct (IN i ltac:(lia)) as (P & Q). split.
      + rewrite <- Fmin at 1. apply b64_le. lra.
      + rewrite <- Fmax. apply b64_le. unfold D in Q. lra. }
  split.
  { intros i j a b Hij Ea Eb. assert (Hj : (j < nt)%nat) by (rewrite <- L; apply nth_error_Some; congruence).
    destruct (Nat.eq_dec j (nt - 1)) as [ -> |Hd].
    - rewrite Xl in Eb. injection Eb as <-. apply (BND i a Ea).
    - rewrite X in Ea by lia. rewrite X in Eb by lia. injection Ea as <-. injection Eb as <-.
      apply b64_le. apply Rplus_le_compat_l. apply b64_le. apply Rmult_le_compat_r; [lra|]. apply le_INR. exact Hij. }
  split; [exact X0|]. split; [exact Xl|]. intros t Ht. apply In_nth_error in Ht. destruct Ht as (i & Ei). exact (BND i t Ei).
Qed.
Print Assumptions C108_uniform.

(** Non-vacuity: a history with a refused attempt and two stored times, a history that stagnates, and five times
    from 0 to 1. *)
Example C108_example :
  (exists s, run_attempts b64 (b64 (1/10)) eps64 (1/4) 8 rstart [AZero; ABad (1/2); AOk (1/2)] = ([Stored 1; Retry; Stored 5], s) /\ r_time s = 5) /\
  (Forall shrinks (repeat (AOk (9/10)) 606) /\ length (repeat (AOk (9/10)) 606) = 606%nat) /\
  bpow radix2 (-1000) <= (1 - 0) / (INR 5 - 1).
Proof.
  split; [|split].
  - assert (N : forall m, (Z.abs m < 2 ^ 53)%Z -> b64 (IZR m) = IZR m).
    { intros m Hm. pose proof (b64_float m 0 Hm ltac:(lia)) as P. change (bpow radix2 0) with 1 in P. rewrite Rmult_1_r in P. exact P. }
    cbv beta iota zeta delta [run_attempts attempt_step accepted rejected rstart r_time r_step r_rej].
    rewrite Rplus_0_l, Rmult_1_l, b64_1, (N 8%Z) by reflexivity.
    rewrite (Rmax_left (1/2) (1/4)) by lra. replace (8 * (1/2)) with 4 by lra. rewrite (N 4%Z) by reflexivity.
    destruct (Rle_dec (Rabs 4) (b64 (Rabs 1 * eps64))) as [K|_].
    { exfalso. rewrite (Rabs_pos_eq 4), (Rabs_pos_eq 1), Rmult_1_l in K by lra.
      unfold eps64 in K. rewrite b64_bpow in K by lia. assert (bpow radix2 (-52) <= bpow radix2 0) as Q by (apply bpow_le; lia).
      change (bpow radix2 0) with 1 in Q. lra. }
    replace (1 + 4) with 5 by lra. rewrite (N 5%Z) by reflexivity.
    eexists. split; reflexivity.
  - split; [|reflexivity]. apply Forall_forall. intros a Ha. apply repeat_spec in Ha. subst a. cbn [shrinks]. lra.
  - replace ((1 - 0) / (INR 5 - 1)) with (bpow radix2 (-2)); [apply bpow_le; lia|]. cbn [INR]. change (bpow radix2 (-2)) with (/4). field.
Qed.
Print Assumptions C108_example.
