(** C118: integrals of distribution functions over the pitch. *)
From Coq Require Import Reals Lra Lia ZArith List.
From Coquelicot Require Import Coquelicot.
From Verif Require Import Base CodeModel CodeSpec CodeProofs CodeProps LoaderModel ProfileModel ProfileSpec ProfileProps PitchSpec PitchProofs.
Import ListNotations.
Local Open Scope R_scope.

(** The norms of the Legendre polynomials. *)
Theorem C118_norm : forall n, is_RInt (fun x => legendre n x * legendre n x) (-1) 1 (2 / (2 * INR n + 1)).
Proof. exact leg_norm. Qed.
Print Assumptions C118_norm.

Lemma value_on_grid : forall itp method np nleg p f q xi, on_grid np p q ->
  code_value itp method np nleg p f q xi = Rmax 0 (sum nleg (fun i => mode itp method np p f i q * legendre i (- xi))).
Proof.
  intros itp method np nleg p f q xi (A & B). unfold code_value.
  destruct (Rlt_dec q (Rmin (nth 0 p 0) (nth (np - 1) p 0))) as [L | _].
  { exfalso. rewrite Rmin_left in L; lra. }
  destruct (Rlt_dec (Rmax (nth 0 p 0) (nth (np - 1) p 0)) q) as [L | _]; [|reflexivity].
  exfalso. rewrite Rmax_right in L; lra.
Qed.
Lemma evaluated_value : forall itp np nleg p f method o q w xi, code_initialize np nleg p f method = Ok o -> (2 <= nleg)%nat -> on_grid np p q ->
  evaluated itp o q w xi = Some (Rmax 0 (sum nleg (fun i => mode itp method np p f i q * legendre i (- xi))) * w xi).
Proof.
  intros itp np nleg p f method o q w xi H N G. unfold evaluated.
  destruct (C58_eval itp np nleg p f method o q xi H N) as (o' & ->). cbn [snd]. rewrite value_on_grid by exact G. reflexivity.
Qed.

(** The modes of a CODE distribution can be recovered from its values: multiplied by a Legendre polynomial and
    integrated over the pitch it gives the mode of that degree, and zero for degrees it does not have, if the
    Legendre series is never negative at this momentum. *)
Theorem C118_modes : forall itp np nleg p f method o q l, code_initialize np nleg p f method = Ok o -> (2 <= nleg)%nat -> on_grid np p q ->
  (forall xi, -1 <= xi <= 1 -> 0 <= sum nleg (fun i => mode itp method np p f i q * legendre i (- xi))) ->
  pitch_integral (evaluated itp o q (fun xi => legendre l (- xi))) (if (l <? nleg)%nat then 2 / (2 * INR l + 1) * mode itp method np p f l q else 0).
Proof.
  intros itp np nleg p f method o q l H N G P.
  exists (fun xi => Rmax 0 (sum nleg (fun i => mode itp method np p f i q * legendre i (- xi))) * legendre l (- xi)). split.
  - intros xi _. exact (evaluated_value itp np nleg p f method o q _ xi H N G).
  - eapply is_RInt_ext; [|exact (series_project nleg (fun i => mode itp method np p f i q) l)].
    intros xi B. rewrite Rmin_left, Rmax_right in B by lra. cbn beta. rewrite Rmax_right; [reflexivity|]. apply P. lra.
Qed.
Print Assumptions C118_modes.

(** In particular the integral over the pitch is twice the mode of degree zero. *)
Theorem C118_density : forall itp np nleg p f method o q, code_initialize np nleg p f method = Ok o -> (2 <= nleg)%nat -> on_grid np p q ->
  (forall xi, -1 <= xi <= 1 -> 0 <= sum nleg (fun i => mode itp method np p f i q * legendre i (- xi))) ->
  pitch_integral (evaluated itp o q (fun _ => 1)) (2 * mode itp method np p f 0 q).
Proof.
  intros itp np nleg p f method o q H N G P.
  destruct (C118_modes itp np nleg p f method o q 0 H N G P) as (g & E & Q).
  replace (0 <? nleg)%nat with true in Q by (symmetry; apply Nat.ltb_lt; lia).
  exists g. split.
  - intros xi B. rewrite <- (E xi B). unfold evaluated. reflexivity.
  - replace (2 * mode itp method np p f 0 q) with (2 / (2 * INR 0 + 1) * mode itp method np p f 0 q) by (cbn [INR]; field). exact Q.
Qed.
Print Assumptions C118_density.

(** If the series is negative somewhere, the integral may be larger than that, never smaller. *)
Theorem C118_at_least : forall itp np nleg p f method o q, code_initialize np nleg p f method = Ok o -> (2 <= nleg)%nat -> on_grid np p q ->
  exists v, pitch_integral (evaluated itp o q (fun _ => 1)) v /\ 2 * mode itp method np p f 0 q <= v.
Proof.
  intros itp np nleg p f method o q H N G.
  set (s := fun xi => sum nleg (fun i => mode itp method np p f i q * legendre i (- xi))).
  assert (CM : forall x, continuous (fun xi => Rmax 0 (s xi)) x).
  { intros x. apply (continuous_ext (fun xi => / 2 * (s xi + Rabs (s xi)))).
    - intros t. unfold Rmax, Rabs. destruct (Rle_dec 0 (s t)); destruct (Rcase_abs (s t)); lra.
    - apply (continuous_mult (K := R_AbsRing) (fun _ => / 2)); [apply continuous_const|].
      apply (continuous_plus (V := R_NormedModule)); [apply series_continuous|].
      apply (continuous_comp s Rabs); [apply series_continuous | apply continuous_Rabs]. }
  destruct (ex_RInt_continuous (V := R_CompleteNormedModule) (fun xi => Rmax 0 (s xi)) (-1) 1 (fun x _ => CM x)) as (v & V).
  exists v. split.
  - exists (fun xi => Rmax 0 (s xi)). split; [|exact V]. intros xi _.
    rewrite (evaluated_value itp np nleg p f method o q _ xi H N G). rewrite Rmult_1_r. reflexivity.
  - pose proof (series_project nleg (fun i => mode itp method np p f i q) 0) as Q.
    replace (0 <? nleg)%nat with true in Q by (symmetry; apply Nat.ltb_lt; lia).
    replace (2 * mode itp method np p f 0 q) with (2 / (2 * INR 0 + 1) * mode itp method np p f 0 q) by (cbn [INR]; field).
    refine (is_RInt_le _ _ (-1) 1 _ _ _ Q V _); [lra|].
    intros x _. rewrite leg0, Rmult_1_r. apply Rmax_r.
Qed.
Print Assumptions C118_at_least.

(** With a mode of degree one only, which stands for no density, the integral is positive. *)
Theorem C118_negative_refuted : ~ (forall itp np nleg p f method o q v, code_initialize np nleg p f method = Ok o -> (2 <= nleg)%nat -> on_grid np p q ->
  pitch_integral (evaluated itp o q (fun _ => 1)) v -> v = 2 * mode itp method np p f 0 q).
Proof.
  intro C.
  assert (V : pitch_integral (evaluated first_itp small 1 (fun _ => 1)) (/ 2)).
  { exists (fun xi => Rmax 0 (- xi)). split.
    - intros xi _. unfold evaluated. destruct (C58_eval first_itp 2 2 [1; 2] [0; 0; 1; 1] 0 small 1 xi small_ok (le_n 2)) as (o' & ->). cbn [snd].
      rewrite small_value by lra. rewrite Rmult_1_r. reflexivity.
    - replace (/ 2) with (/ 2 + 0) by ring.
      apply (is_RInt_Chasles (V := R_NormedModule) _ (-1) 0 1).
      + apply (is_RInt_ext (fun x => - x)).
        { intros x B. rewrite Rmin_left, Rmax_right in B by lra. cbn. rewrite Rmax_right; [reflexivity | lra]. }
        replace (/ 2) with (minus (G := R_AbelianGroup) ((fun x => - (x * x) / 2) 0) ((fun x => - (x * x) / 2) (-1))) by (unfold minus, plus, opp; cbn; field).
        apply (is_RInt_derive (V := R_CompleteNormedModule) (fun x => - (x * x) / 2)).
        * intros x _. auto_derive; [exact Logic.I | field].
        * intros x _. apply (continuous_opp (V := R_NormedModule)), continuous_id.
      + apply (is_RInt_ext (fun _ => 0)); [|apply rint_zero].
        intros x B. rewrite Rmin_left, Rmax_right in B by lra. rewrite Rmax_left; [reflexivity | lra]. }
  assert (G : on_grid 2 [1; 2] 1) by (unfold on_grid; cbn; lra).
  pose proof (C first_itp 2%nat 2%nat [1; 2] [0; 0; 1; 1] 0%Z small 1 _ small_ok (le_n 2) G V) as Q.
  unfold mode, first_itp in Q. cbn in Q. lra.
Qed.
Print Assumptions C118_negative_refuted.

(** The integral of the avalanche distribution over the pitch (over the directions, with the factor 2 pi p^2):
    an exponential in the energy times a factor between one and two. *)
Theorem C118_avalanche : forall EHat lnLambda Zeff f p, make_avalanche EHat lnLambda Zeff = Some f -> -1 < EHat -> -1 < Zeff -> 0 < lnLambda -> p <> 0 ->
  let gamma := sqrt (1 + p ^ 2) in let A := (EHat + 1) / (Zeff + 1) * gamma in let gamma0 := lnLambda * sqrt (Zeff + 5) in
  exists v, pitch_integral (analytic_eval f p) v /\
    2 * PI * p ^ 2 * v = electron_mass * light_speed / gamma0 * exp (- gamma / gamma0) * (2 / (1 + exp (- A))) /\ 1 < 2 / (1 + exp (- A)) < 2.
Proof.
  intros EHat lnLambda Zeff f p H HE HZ HL HP gamma A gamma0.
  assert (Pg : 0 < gamma) by (apply sqrt_lt_R0; nra).
  assert (PA : 0 < A) by (unfold A; apply Rmult_lt_0_compat; [apply Rdiv_lt_0_compat; lra | exact Pg]).
  assert (Pg0 : 0 < gamma0) by (apply Rmult_lt_0_compat; [exact HL | apply sqrt_lt_R0; lra]).
  assert (Pp : 0 < p ^ 2) by nra.
  assert (EA : exp (- A) < 1) by (rewrite <- exp_0; apply exp_increasing; lra).
  pose proof (exp_pos (- A)) as PE. pose proof PI_RGT_0 as PP.
  assert (E2 : exp (- (2 * A)) = exp (- A) * exp (- A)) by (rewrite <- exp_plus; f_equal; ring).
  assert (EI : exp A = / exp (- A)) by (rewrite exp_Ropp, Rinv_inv; reflexivity).
  set (k := electron_mass * light_speed * A / (2 * PI * gamma0 * p ^ 2) * exp (- gamma / gamma0 - A) / (1 - exp (- (2 * A)))).
  exists (k * (2 * (exp A - 1) / A)). split; [|split].
  - exists (avalanche EHat lnLambda Zeff p). split.
    + intros xi _. apply (C62_avalanche EHat lnLambda Zeff f p xi H HE HZ HL HP).
    + apply (rint_ext (fun xi => k * exp (A * Rabs xi))).
      * intros xi. unfold avalanche. fold gamma. fold gamma0. fold A. unfold k.
        replace (- gamma / gamma0 - A * (1 - Rabs xi)) with ((- gamma / gamma0 - A) + A * Rabs xi) by ring.
        rewrite exp_plus. unfold Rdiv. ring.
      * apply rint_scal. apply exp_pitch. lra.
  - unfold k. replace (- gamma / gamma0 - A) with (- gamma / gamma0 + - A) by ring. rewrite exp_plus, E2, EI.
    replace (1 - exp (- A) * exp (- A)) with ((1 - exp (- A)) * (1 + exp (- A))) by ring.
    set (e := exp (- A)) in *. field. repeat split; try lra; nra.
  - assert (0 < / (1 + exp (- A))) by (apply Rinv_0_lt_compat; lra).
    split.
    + apply (Rmult_lt_reg_r (1 + exp (- A))); [lra|]. unfold Rdiv. rewrite Rmult_assoc, Rinv_l by lra. lra.
    + apply (Rmult_lt_reg_r (1 + exp (- A))); [lra|]. unfold Rdiv. rewrite Rmult_assoc, Rinv_l by lra. lra.
Qed.
Print Assumptions C118_avalanche.

(** The integral of the exponential pitch distribution, and of the unit distribution. *)
Theorem C118_exponential : forall C p, (C <> 0 -> pitch_integral (analytic_eval (ExpPitch C) p) (2 * (exp C - 1) / C)) /\
  pitch_integral (analytic_eval (ExpPitch 0) p) 2 /\ pitch_integral (analytic_eval Unit p) 2.
Proof.
  intros C p.
  assert (K : is_RInt (fun _ => 1) (-1) 1 2) by (pose proof (rint_const (-1) 1 1) as K; replace ((1 - -1) * 1) with 2 in K by ring; exact K).
  split; [|split].
  - intros H. exists (fun xi => exp (C * Rabs xi)). split; [reflexivity | apply exp_pitch; exact H].
  - exists (fun _ => 1). split; [|exact K]. intros xi _. cbn. rewrite Rmult_0_l, exp_0. reflexivity.
  - exists (fun _ => 1). split; [reflexivity | exact K].
Qed.
Print Assumptions C118_exponential.

(** A distribution with f0 = 3 and f1 = 1 at both momenta: its integral over the pitch is 6, and the one with
    weight P1(-xi) is 2/3. *)
Example C118_example : exists o, code_initialize 2 2 [1; 2] [3; 3; 1; 1] 0 = Ok o /\
  pitch_integral (evaluated first_itp o (3/2) (fun _ => 1)) 6 /\ pitch_integral (evaluated first_itp o (3/2) (fun xi => legendre 1 (- xi))) (2/3).
Proof.
  exists (Code 0 2 2 [1; 2] [3; 3; 1; 1] (repeat None 2) None).
  assert (H : code_initialize 2 2 [1; 2] [3; 3; 1; 1] 0 = Ok (Code 0 2 2 [1; 2] [3; 3; 1; 1] (repeat None 2) None)) by (apply (two_ok 1 2 2); [lra|lia|cbn; lia]).
  split; [exact H|].
  assert (G : on_grid 2 [1; 2] (3/2)) by (unfold on_grid; cbn; lra).
  assert (P : forall xi, -1 <= xi <= 1 -> 0 <= sum 2 (fun i => mode first_itp 0 2 [1; 2] [3; 3; 1; 1] i (3/2) * legendre i (- xi))).
  { intros xi B. unfold sum, mode, first_itp. rewrite leg0, leg1. cbn. lra. }
  split.
  - pose proof (C118_density first_itp 2 2 [1; 2] [3; 3; 1; 1] 0 _ (3/2) H (le_n 2) G P) as Q.
    replace 6 with (2 * mode first_itp 0 2 [1; 2] [3; 3; 1; 1] 0 (3/2)) by (unfold mode, first_itp; cbn; ring). exact Q.
  - pose proof (C118_modes first_itp 2 2 [1; 2] [3; 3; 1; 1] 0 _ (3/2) 1 H (le_n 2) G P) as Q.
    change (1 <? 2)%nat with true in Q. cbn iota in Q.
    replace (2/3) with (2 / (2 * INR 1 + 1) * mode first_itp 0 2 [1; 2] [3; 3; 1; 1] 1 (3/2)) by (unfold mode, first_itp; cbn; field). exact Q.
Qed.
Print Assumptions C118_example.
