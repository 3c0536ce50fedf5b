(** Theorems about analytical distribution functions (C61, C62, C64). *)
From Coq Require Import Reals Lra Lia List.
From Verif Require Import Base DomainModel AnalyticalModel CodeModel LoaderModel ProfileModel ProfileSpec.
Local Open Scope R_scope.
Set Bullet Behavior "Strict Subproofs".

(** * C61: radial profiles *)
Lemma outside_ok : forall rmin rmax x, outside rmin rmax x = true <-> ~ inside rmin rmax x.
Proof. intros rmin rmax x. unfold outside, inside. destruct (Rle_dec rmax x); [|destruct (Rlt_dec x rmin)]; split; intro H; try reflexivity; try discriminate; try lra; exfalso; lra. Qed.
Lemma outside_in : forall rmin rmax x, inside rmin rmax x -> outside rmin rmax x = false.
Proof. intros rmin rmax x H. destruct (outside rmin rmax x) eqn:E; [|reflexivity]. apply outside_ok in E. contradiction. Qed.
Lemma outside_out : forall rmin rmax x, ~ inside rmin rmax x -> outside rmin rmax x = true.
Proof. intros. apply outside_ok. assumption. Qed.
Lemma unit_interval : forall rmin rmax x, inside rmin rmax x -> 0 <= normalized rmin rmax x < 1.
Proof.
  intros rmin rmax x [A B]. unfold normalized. assert (P : 0 < / (rmax - rmin)) by (apply Rinv_0_lt_compat; lra). split.
  - apply Rmult_le_pos; lra.
  - apply Rmult_lt_reg_r with (rmax - rmin); [lra|]. unfold Rdiv. rewrite Rmult_assoc, Rinv_l by lra. lra.
Qed.
Lemma normalized_le : forall rmin rmax x y, rmin < rmax -> x <= y -> normalized rmin rmax x <= normalized rmin rmax y.
Proof. intros rmin rmax x y L H. unfold normalized. apply Rmult_le_compat_r; [left; apply Rinv_0_lt_compat; lra|lra]. Qed.

Lemma at_start : forall rmin rmax, normalized rmin rmax rmin = 0.
Proof. intros. unfold normalized, Rdiv. rewrite (Rminus_diag_eq rmin rmin eq_refl). apply Rmult_0_l. Qed.

(** Construction: the interval must not be empty, and the parameters of the Gaussian must be
    positive. *)
Theorem C61_rejected : forall rmin rmax a b c,
  (make_linear rmin rmax = Throw <-> rmax <= rmin) /\ (make_power rmin rmax b = Throw <-> rmax <= rmin) /\ (make_bessel rmin rmax = Throw <-> rmax <= rmin) /\
  (make_gaussian rmin rmax a b c = Throw <-> rmax <= rmin \/ a <= 0 \/ b <= 0 \/ c <= 0).
Proof.
  intros. unfold make_linear, make_power, make_bessel, make_gaussian. repeat split; intro H; destruct (Rle_dec rmax rmin); try reflexivity; try discriminate; try assumption; try lra; try (left; assumption).
  - destruct (Rle_dec a 0); [lra|]. destruct (Rle_dec b 0); [lra|]. destruct (Rle_dec c 0); [lra|discriminate].
  - destruct (Rle_dec a 0); [reflexivity|]. destruct (Rle_dec b 0); [reflexivity|]. destruct (Rle_dec c 0); [reflexivity|]. lra.
Qed.
Print Assumptions C61_rejected.

Section Profiles.
  Variable j0 : R -> R.
  (** Zero outside the interval. *)
  Theorem C61_outside : forall rmin rmax a b c f x s,
    make_linear rmin rmax = Ok f \/ make_power rmin rmax b = Ok f \/ make_gaussian rmin rmax a b c = Ok f \/ make_bessel rmin rmax = Ok f ->
    ~ inside rmin rmax (x - s) -> profile_eval j0 f x s = Some 0.
  Proof.
    intros rmin rmax a b c f x s H O. apply outside_out in O. unfold make_linear, make_power, make_bessel, make_gaussian in H.
    destruct (Rle_dec rmax rmin); [destruct H as [H|[H|[H|H]]]; discriminate H|].
    destruct H as [H|[H|[H|H]]].
    - injection H as <-. cbn. rewrite O. reflexivity.
    - injection H as <-. cbn. rewrite O. reflexivity.
    - destruct (Rle_dec a 0); [discriminate|]. destruct (Rle_dec b 0); [discriminate|]. destruct (Rle_dec c 0); [discriminate|]. injection H as <-. cbn. rewrite O. reflexivity.
    - injection H as <-. cbn. rewrite O. reflexivity.
  Qed.
  (** Only the radius with the drift subtracted matters. *)
  Theorem C61_shift : forall f x s, profile_eval j0 f x s = profile_eval j0 f (x - s) 0.
  Proof. intros f x s. unfold profile_eval. rewrite Rminus_0_r. reflexivity. Qed.
  (** A clone is the same function. *)
  Theorem C61_clone : forall f, constructed f -> profile_clone f = Ok f.
  Proof.
    intros f H. destruct H as [|rmin rmax f H|rmin rmax b f H|rmin rmax a b c f H|rmin rmax f H]; [reflexivity| | | |].
    - pose proof H as H'. unfold make_linear in H'. destruct (Rle_dec rmax rmin); [discriminate|]. injection H' as <-. exact H.
    - pose proof H as H'. unfold make_power in H'. destruct (Rle_dec rmax rmin); [discriminate|]. injection H' as <-. exact H.
    - pose proof H as H'. unfold make_gaussian in H'. destruct (Rle_dec rmax rmin); [discriminate|]. destruct (Rle_dec a 0); [discriminate|]. destruct (Rle_dec b 0); [discriminate|].
      destruct (Rle_dec c 0); [discriminate|]. injection H' as <-. exact H.
    - pose proof H as H'. unfold make_bessel in H'. destruct (Rle_dec rmax rmin); [discriminate|]. injection H' as <-. exact H.
  Qed.

  (** The linear profile. *)
  Theorem C61_linear : forall rmin rmax f x s, make_linear rmin rmax = Ok f -> inside rmin rmax (x - s) ->
    profile_eval j0 f x s = Some (1 - normalized rmin rmax (x - s)).
  Proof.
    intros rmin rmax f x s H I. unfold make_linear in H. destruct (Rle_dec rmax rmin) as [|L]; [discriminate|]. injection H as <-. cbn. rewrite (outside_in _ _ _ I). unfold normalized.
    f_equal. f_equal. unfold Rdiv. lra.
  Qed.
  Theorem C61_linear_range : forall rmin rmax f x s v, make_linear rmin rmax = Ok f -> inside rmin rmax (x - s) -> profile_eval j0 f x s = Some v -> 0 < v <= 1 /\ (x - s = rmin -> v = 1).
  Proof.
    intros rmin rmax f x s v H I E. rewrite (C61_linear _ _ _ _ _ H I) in E. injection E as <-. pose proof (unit_interval _ _ _ I). split; [lra|]. intros ->. rewrite at_start. lra.
  Qed.
  Theorem C61_linear_decreases : forall rmin rmax f x y v w, make_linear rmin rmax = Ok f -> rmin <= x <= y -> profile_eval j0 f x 0 = Some v -> profile_eval j0 f y 0 = Some w -> w <= v.
  Proof.
    intros rmin rmax f x y v w H [A B] E1 E2. assert (L : rmin < rmax) by (unfold make_linear in H; destruct (Rle_dec rmax rmin); [discriminate|lra]).
    destruct (Rlt_dec y rmax) as [Y|Y].
    - assert (IX : inside rmin rmax (x - 0)) by (unfold inside; lra). assert (IY : inside rmin rmax (y - 0)) by (unfold inside; lra).
      rewrite (C61_linear _ _ _ _ _ H IX) in E1. rewrite (C61_linear _ _ _ _ _ H IY) in E2. injection E1 as <-. injection E2 as <-.
      assert (Q := normalized_le rmin rmax (x - 0) (y - 0) L ltac:(lra)). lra.
    - rewrite (C61_outside rmin rmax 0 0 0 f y 0 (or_introl H)) in E2 by (unfold inside; lra). injection E2 as <-.
      destruct (Rlt_dec x rmax) as [X|X].
      + apply (C61_linear_range _ _ _ _ _ _ H) in E1; [lra|unfold inside; lra].
      + rewrite (C61_outside rmin rmax 0 0 0 f x 0 (or_introl H)) in E1 by (unfold inside; lra). injection E1 as <-. lra.
  Qed.

  (** The power profile. *)
  Theorem C61_power : forall rmin rmax b f x s, make_power rmin rmax b = Ok f -> 0 < b -> inside rmin rmax (x - s) ->
    profile_eval j0 f x s = Some (1 - power (normalized rmin rmax (x - s)) b).
  Proof.
    intros rmin rmax b f x s H B I. unfold make_power in H. destruct (Rle_dec rmax rmin) as [|L]; [discriminate|]. injection H as <-. cbn. rewrite (outside_in _ _ _ I).
    replace ((x - s - rmin) * (1 / (rmax - rmin))) with (normalized rmin rmax (x - s)) by (unfold normalized, Rdiv; lra). unfold cpow, power.
    pose proof (unit_interval _ _ _ I) as [U1 U2]. destruct (Rlt_dec 0 (normalized rmin rmax (x - s))) as [P|P].
    - destruct (Req_EM_T (normalized rmin rmax (x - s)) 0); [lra|]. reflexivity.
    - destruct (Req_EM_T (normalized rmin rmax (x - s)) 0); [|lra]. destruct (Rlt_dec 0 b); [reflexivity|lra].
  Qed.
  Lemma power_range : forall x b, 0 <= x < 1 -> 0 < b -> 0 <= power x b < 1.
  Proof.
    intros x b [A B] C. unfold power. destruct (Req_EM_T x 0); [lra|]. split; [left; apply exp_pos|]. rewrite <- exp_0. apply exp_increasing.
    assert (ln x < 0) by (rewrite <- ln_1; apply ln_increasing; lra). assert (0 < b * - ln x) by (apply Rmult_lt_0_compat; lra). lra.
  Qed.
  Lemma power_le : forall x y b, 0 <= x <= y -> 0 < b -> power x b <= power y b.
  Proof.
    intros x y b [A B] C. unfold power. destruct (Req_EM_T x 0) as [E|N].
    - destruct (Req_EM_T y 0); [lra|left; apply exp_pos].
    - destruct (Req_EM_T y 0); [lra|]. destruct (Req_EM_T x y) as [->|NE]; [lra|]. left. apply exp_increasing. apply Rmult_lt_compat_l; [exact C|]. apply ln_increasing; lra.
  Qed.
  Theorem C61_power_range : forall rmin rmax b f x s v, make_power rmin rmax b = Ok f -> 0 < b -> inside rmin rmax (x - s) -> profile_eval j0 f x s = Some v -> 0 < v <= 1 /\ (x - s = rmin -> v = 1).
  Proof.
    intros rmin rmax b f x s v H B I E. rewrite (C61_power _ _ _ _ _ _ H B I) in E. injection E as <-. pose proof (power_range _ b (unit_interval _ _ _ I) B). split; [lra|]. intros ->.
    rewrite at_start. unfold power. destruct (Req_EM_T 0 0); lra.
  Qed.
  Theorem C61_power_decreases : forall rmin rmax b f x y v w, make_power rmin rmax b = Ok f -> 0 < b -> rmin <= x <= y -> profile_eval j0 f x 0 = Some v -> profile_eval j0 f y 0 = Some w -> w <= v.
  Proof.
    intros rmin rmax b f x y v w H P [A B] E1 E2. assert (L : rmin < rmax) by (unfold make_power in H; destruct (Rle_dec rmax rmin); [discriminate|lra]).
    destruct (Rlt_dec y rmax) as [Y|Y].
    - assert (IX : inside rmin rmax (x - 0)) by (unfold inside; lra). assert (IY : inside rmin rmax (y - 0)) by (unfold inside; lra).
      rewrite (C61_power _ _ _ _ _ _ H P IX) in E1. rewrite (C61_power _ _ _ _ _ _ H P IY) in E2. injection E1 as <-. injection E2 as <-.
      assert (Q := normalized_le rmin rmax (x - 0) (y - 0) L ltac:(lra)). pose proof (unit_interval _ _ _ IX). assert (W := power_le _ _ b (conj (proj1 H0) Q) P). lra.
    - rewrite (C61_outside rmin rmax 0 b 0 f y 0 (or_intror (or_introl H))) in E2 by (unfold inside; lra). injection E2 as <-.
      destruct (Rlt_dec x rmax) as [X|X].
      + apply (C61_power_range _ _ _ _ _ _ _ H P) in E1; [lra|unfold inside; lra].
      + rewrite (C61_outside rmin rmax 0 b 0 f x 0 (or_intror (or_introl H))) in E1 by (unfold inside; lra). injection E1 as <-. lra.
  Qed.
  (** With exponent zero it is zero everywhere. *)
  Theorem C61_power_zero : forall rmin rmax f x s, make_power rmin rmax 0 = Ok f -> profile_eval j0 f x s = Some 0.
  Proof.
    intros rmin rmax f x s H. destruct (Rle_dec rmin (x - s)) as [A|A]; [|apply (C61_outside rmin rmax 0 0 0 f x s (or_intror (or_introl H))); unfold inside; lra].
    destruct (Rlt_dec (x - s) rmax) as [B|B]; [|apply (C61_outside rmin rmax 0 0 0 f x s (or_intror (or_introl H))); unfold inside; lra].
    assert (I : inside rmin rmax (x - s)) by (split; assumption).
    unfold make_power in H. destruct (Rle_dec rmax rmin) as [|L]; [discriminate|]. injection H as <-. cbn. rewrite (outside_in _ _ _ I).
    replace ((x - s - rmin) * (1 / (rmax - rmin))) with (normalized rmin rmax (x - s)) by (unfold normalized, Rdiv; lra). unfold cpow.
    pose proof (unit_interval _ _ _ I) as [U1 U2]. destruct (Rlt_dec 0 (normalized rmin rmax (x - s))) as [P|P].
    - rewrite Rpower_O by exact P. f_equal. lra.
    - destruct (Req_EM_T (normalized rmin rmax (x - s)) 0); [|lra]. destruct (Rlt_dec 0 0); [lra|]. destruct (Req_EM_T 0 0); [|lra]. f_equal. lra.
  Qed.
  (** With a negative one it is infinite at the inner limit and negative elsewhere. *)
  Theorem C61_power_negative : forall rmin rmax b f x s, make_power rmin rmax b = Ok f -> b < 0 -> inside rmin rmax (x - s) ->
    (x - s = rmin -> profile_eval j0 f x s = None) /\ (rmin < x - s -> exists v, profile_eval j0 f x s = Some v /\ v < 0).
  Proof.
    intros rmin rmax b f x s H B I. unfold make_power in H. destruct (Rle_dec rmax rmin) as [|L]; [discriminate|]. injection H as <-. cbn. rewrite (outside_in _ _ _ I).
    replace ((x - s - rmin) * (1 / (rmax - rmin))) with (normalized rmin rmax (x - s)) by (unfold normalized, Rdiv; lra). unfold cpow.
    pose proof (unit_interval _ _ _ I) as [U1 U2]. split; intro E.
    - rewrite E. rewrite at_start. destruct (Rlt_dec 0 0); [lra|]. destruct (Req_EM_T 0 0); [|lra].
      destruct (Rlt_dec 0 b); [lra|]. destruct (Req_EM_T b 0); [lra|reflexivity].
    - assert (P : 0 < normalized rmin rmax (x - s)) by (unfold normalized; apply Rmult_lt_0_compat; [lra|apply Rinv_0_lt_compat; lra]).
      destruct (Rlt_dec 0 (normalized rmin rmax (x - s))); [|lra]. eexists. split; [reflexivity|]. enough (1 < Rpower (normalized rmin rmax (x - s)) b) by lra.
      unfold Rpower. rewrite <- exp_0 at 1. apply exp_increasing. assert (ln (normalized rmin rmax (x - s)) < 0) by (rewrite <- ln_1; apply ln_increasing; lra).
      assert (0 < (- b) * - ln (normalized rmin rmax (x - s))) by (apply Rmult_lt_0_compat; lra). lra.
  Qed.

  (** The Gaussian profile. *)
  Theorem C61_gaussian : forall rmin rmax a b c f x s, make_gaussian rmin rmax a b c = Ok f -> inside rmin rmax (x - s) ->
    profile_eval j0 f x s = Some (a * exp (- ((x - s - b) / c) ^ 2)).
  Proof.
    intros rmin rmax a b c f x s H I. unfold make_gaussian in H. destruct (Rle_dec rmax rmin); [discriminate|]. destruct (Rle_dec a 0); [discriminate|]. destruct (Rle_dec b 0); [discriminate|].
    destruct (Rle_dec c 0) as [|C]; [discriminate|]. injection H as <-. cbn [profile_eval]. rewrite (outside_in _ _ _ I). unfold ediv. destruct (Req_EM_T (c * c) 0) as [E|N].
    - apply Rmult_integral in E. lra.
    - f_equal. f_equal. f_equal. field. lra.
  Qed.
  Theorem C61_gaussian_range : forall rmin rmax a b c f x s v, make_gaussian rmin rmax a b c = Ok f -> inside rmin rmax (x - s) -> profile_eval j0 f x s = Some v -> 0 < v <= a /\ (x - s = b -> v = a).
  Proof.
    intros rmin rmax a b c f x s v H I E. rewrite (C61_gaussian _ _ _ _ _ _ _ _ H I) in E. injection E as <-.
    assert (A : 0 < a) by (unfold make_gaussian in H; destruct (Rle_dec rmax rmin); [discriminate|]; destruct (Rle_dec a 0); [discriminate|lra]).
    pose proof (exp_pos (- ((x - s - b) / c) ^ 2)) as P. split; [split; [apply Rmult_lt_0_compat; assumption|]|].
    - assert (LE : exp (- ((x - s - b) / c) ^ 2) <= 1).
      { rewrite <- exp_0. destruct (pow2_ge_0 ((x - s - b) / c)) as [Q|Q]; [left; apply exp_increasing; lra|right; f_equal; lra]. }
      apply Rle_trans with (a * 1); [apply Rmult_le_compat_l; [lra|exact LE]|lra].
    - intros ->. unfold Rdiv. rewrite (Rminus_diag_eq b b eq_refl), Rmult_0_l. replace (- (0 * (0 * 1))) with 0 by ring. rewrite exp_0. lra.
  Qed.

  (** The Bessel profile, for a function that decreases from one to zero between zero and the
      constant in the code. *)
  Hypothesis j0_start : j0 0 = 1.
  Hypothesis j0_end : 0 <= j0 j0_zero1.
  Hypothesis j0_down : forall x y, 0 <= x -> x < y -> y <= j0_zero1 -> j0 y < j0 x.
  Lemma j0_zero1_pos : 0 < j0_zero1. Proof. unfold j0_zero1. apply Rmult_lt_0_compat; [lra|]. apply Rinv_0_lt_compat, pow_lt. lra. Qed.
  Theorem C61_bessel : forall rmin rmax f x s, make_bessel rmin rmax = Ok f -> inside rmin rmax (x - s) ->
    profile_eval j0 f x s = Some (j0 (normalized rmin rmax (x - s) * j0_zero1)).
  Proof.
    intros rmin rmax f x s H I. unfold make_bessel in H. destruct (Rle_dec rmax rmin); [discriminate|]. injection H as <-. cbn [profile_eval]. rewrite (outside_in _ _ _ I). unfold ediv.
    destruct (Req_EM_T (rmax - rmin) 0); [lra|reflexivity].
  Qed.
  Theorem C61_bessel_range : forall rmin rmax f x s v, make_bessel rmin rmax = Ok f -> inside rmin rmax (x - s) -> profile_eval j0 f x s = Some v -> 0 < v <= 1 /\ (x - s = rmin -> v = 1).
  Proof.
    intros rmin rmax f x s v H I E. rewrite (C61_bessel _ _ _ _ _ H I) in E. injection E as <-. pose proof (unit_interval _ _ _ I) as [U1 U2]. pose proof j0_zero1_pos as Z.
    assert (T : normalized rmin rmax (x - s) * j0_zero1 < j0_zero1) by (rewrite <- (Rmult_1_l j0_zero1) at 2; apply Rmult_lt_compat_r; assumption).
    assert (T0 : 0 <= normalized rmin rmax (x - s) * j0_zero1) by (apply Rmult_le_pos; lra). split; [split|].
    - assert (Q := j0_down _ _ T0 T (Rle_refl _)). lra.
    - destruct T0 as [T0|T0]; [assert (Q := j0_down 0 _ (Rle_refl 0) T0 (Rlt_le _ _ T)); lra|rewrite <- T0; lra].
    - intros ->. rewrite at_start, Rmult_0_l. exact j0_start.
  Qed.
End Profiles.
Print Assumptions C61_outside.
Print Assumptions C61_shift.
Print Assumptions C61_clone.
Print Assumptions C61_linear.
Print Assumptions C61_linear_range.
Print Assumptions C61_linear_decreases.
Print Assumptions C61_power.
Print Assumptions C61_power_range.
Print Assumptions C61_power_decreases.
Print Assumptions C61_power_zero.
Print Assumptions C61_power_negative.
Print Assumptions C61_gaussian.
Print Assumptions C61_gaussian_range.
Print Assumptions C61_bessel.
Print Assumptions C61_bessel_range.
(** So the values of a power profile are not always in the unit interval. *)
Theorem C61_power_refuted : ~ (forall j0 rmin rmax b f x, make_power rmin rmax b = Ok f -> inside rmin rmax x -> exists v, profile_eval j0 f x 0 = Some v /\ 0 <= v <= 1).
Proof.
  intro H. assert (M : make_power 0 1 (-1) = Ok (Power 0 1 (1 / (1 - 0)) (-1))) by (unfold make_power; destruct (Rle_dec 1 0); [lra|reflexivity]).
  destruct (H (fun _ => 0) 0 1 (-1) _ (1 / 2) M ltac:(unfold inside; lra)) as (v & E & R0).
  destruct (C61_power_negative (fun _ => 0) 0 1 (-1) _ (1 / 2) 0 M ltac:(lra) ltac:(unfold inside; lra)) as [_ Q]. destruct (Q ltac:(lra)) as (w & W & N). rewrite E in W. injection W as <-. lra.
Qed.
Print Assumptions C61_power_refuted.
Example C61_example : exists f g h, make_linear 1 3 = Ok f /\ profile_eval (fun _ => 0) f 2 (1 / 2) = Some (3 / 4) /\ make_power 0 2 2 = Ok g /\ (exists v, profile_eval (fun _ => 0) g 1 0 = Some v /\ 0 < v < 1) /\
  make_gaussian 0 2 5 1 1 = Ok h /\ profile_eval (fun _ => 0) h 1 0 = Some 5 /\ make_linear 3 1 = Throw.
Proof.
  assert (ML : make_linear 1 3 = Ok (Linear 1 3 (1 / (3 - 1)))) by (unfold make_linear; destruct (Rle_dec 3 1); [lra|reflexivity]).
  assert (MP : make_power 0 2 2 = Ok (Power 0 2 (1 / (2 - 0)) 2)) by (unfold make_power; destruct (Rle_dec 2 0); [lra|reflexivity]).
  assert (MG : make_gaussian 0 2 5 1 1 = Ok (Gaussian 0 2 5 1 1)) by (unfold make_gaussian; destruct (Rle_dec 2 0); [lra|]; destruct (Rle_dec 5 0); [lra|]; destruct (Rle_dec 1 0); [lra|reflexivity]).
  eexists. eexists. eexists. split; [exact ML|]. split; [|split; [exact MP|split; [|split; [exact MG|split]]]].
  - rewrite (C61_linear (fun _ => 0) 1 3 _ 2 (1 / 2) ML) by (unfold inside; lra). f_equal. unfold normalized. lra.
  - rewrite (C61_power (fun _ => 0) 0 2 2 _ 1 0 MP) by (unfold inside; lra). eexists. split; [reflexivity|]. unfold normalized, power. destruct (Req_EM_T ((1 - 0 - 0) / (2 - 0)) 0); [lra|].
    pose proof (exp_pos (2 * ln ((1 - 0 - 0) / (2 - 0)))). assert (W : exp (2 * ln ((1 - 0 - 0) / (2 - 0))) < exp 0); [apply exp_increasing|rewrite exp_0 in W; lra].
    assert (Q : ln ((1 - 0 - 0) / (2 - 0)) < ln 1) by (apply ln_increasing; lra). rewrite ln_1 in Q. lra.
  - rewrite (C61_gaussian (fun _ => 0) 0 2 5 1 1 _ 1 0 MG) by (unfold inside; lra). f_equal. replace (- ((1 - 0 - 1) / 1) ^ 2) with 0 by field. rewrite exp_0. lra.
  - apply (C61_rejected 3 1 0 0 0). lra.
Qed.
(** A function with the shape expected of the Bessel function. *)
Example C61_bessel_example : exists j0 : R -> R, j0 0 = 1 /\ 0 <= j0 j0_zero1 /\ (forall x y, 0 <= x -> x < y -> y <= j0_zero1 -> j0 y < j0 x) /\
  exists f, make_bessel 1 2 = Ok f /\ profile_eval j0 f (3 / 2) 0 = Some (1 / 2).
Proof.
  pose proof j0_zero1_pos as Z. exists (fun x => 1 - x / j0_zero1). split; [unfold Rdiv; lra|]. split; [unfold Rdiv; rewrite Rinv_r by lra; lra|]. split.
  - intros x y _ L _. assert (x / j0_zero1 < y / j0_zero1) by (apply Rmult_lt_compat_r; [apply Rinv_0_lt_compat; lra|lra]). lra.
  - exists (Bessel 1 2). assert (M : make_bessel 1 2 = Ok (Bessel 1 2)) by (unfold make_bessel; destruct (Rle_dec 2 1); [lra|reflexivity]). split; [exact M|].
    rewrite (C61_bessel _ 1 2 _ (3 / 2) 0 M) by (unfold inside; lra). f_equal. unfold normalized. field. lra.
Qed.

(** * C62: momentum distributions *)
Lemma some_inj : forall a b : R, Some a = Some b -> a = b. Proof. intros a b H. congruence. Qed.
Lemma electron_pos : 0 < electron_mass * light_speed.
Proof. unfold electron_mass, light_speed. lra. Qed.
Lemma gamma_ge : forall p, 1 <= sqrt (p * p + 1).
Proof. intro p. rewrite <- sqrt_1 at 1. apply sqrt_le_1; [lra| |]; pose proof (Rle_0_sqr p) as Q; unfold Rsqr in Q; lra. Qed.
Lemma exp_lt_1 : forall x, x < 0 -> exp x < 1.
Proof. intros x H. rewrite <- exp_0. apply exp_increasing. exact H. Qed.
(** The avalanche distribution is the documented one. *)
Theorem C62_avalanche : forall EHat lnLambda Zeff f p xi, make_avalanche EHat lnLambda Zeff = Some f -> -1 < EHat -> -1 < Zeff -> 0 < lnLambda -> p <> 0 ->
  analytic_eval f p xi = Some (avalanche EHat lnLambda Zeff p xi).
Proof.
  intros E L Z f p xi H HE HZ HL HP. unfold make_avalanche, ediv in H. destruct (Req_EM_T (Z + 1) 0); [lra|]. destruct (Rlt_dec (Z + 5) 0); [discriminate|]. injection H as <-.
  assert (S5 : 0 < sqrt (Z + 5)) by (apply sqrt_lt_R0; lra). assert (G0 : 0 < L * sqrt (Z + 5)) by (apply Rmult_lt_0_compat; assumption).
  assert (AC : 0 < (E + 1) / (Z + 1)) by (apply Rmult_lt_0_compat; [lra|apply Rinv_0_lt_compat; lra]). pose proof (gamma_ge p) as G.
  assert (A : 0 < (E + 1) / (Z + 1) * sqrt (p * p + 1)) by (apply Rmult_lt_0_compat; lra).
  assert (P2 : 0 < p * p) by (destruct (Rdichotomy _ _ HP); [replace (p * p) with ((- p) * (- p)) by ring|]; apply Rmult_lt_0_compat; lra).
  assert (D0 : 0 < 2 * PI * (L * sqrt (Z + 5)) * (p * p)) by (pose proof PI_RGT_0; apply Rmult_lt_0_compat; [apply Rmult_lt_0_compat; [lra|exact G0]|exact P2]).
  cbn [analytic_eval]. unfold ediv. destruct (Req_EM_T (2 * PI * (L * sqrt (Z + 5)) * (p * p)) 0); [lra|]. destruct (Req_EM_T (L * sqrt (Z + 5)) 0); [lra|].
  pose proof (exp_lt_1 (- 2 * ((E + 1) / (Z + 1) * sqrt (p * p + 1))) ltac:(lra)) as X.
  destruct (Req_EM_T (1 - exp (- 2 * ((E + 1) / (Z + 1) * sqrt (p * p + 1)))) 0); [lra|].
  unfold avalanche. replace (sqrt (1 + p ^ 2)) with (sqrt (p * p + 1)) by (f_equal; ring). replace (p ^ 2) with (p * p) by ring. f_equal.
  replace (- (2 * ((E + 1) / (Z + 1) * sqrt (p * p + 1)))) with (- 2 * ((E + 1) / (Z + 1) * sqrt (p * p + 1))) by ring.
  replace (- sqrt (p * p + 1) / (L * sqrt (Z + 5))) with (- (sqrt (p * p + 1) / (L * sqrt (Z + 5)))) by (unfold Rdiv; ring). unfold Rdiv. ring.
Qed.
Print Assumptions C62_avalanche.
(** It is positive, even in the pitch, and increases with its absolute value. *)
Theorem C62_avalanche_shape : forall EHat lnLambda Zeff p, -1 < EHat -> -1 < Zeff -> 0 < lnLambda -> p <> 0 ->
  (forall xi, 0 < avalanche EHat lnLambda Zeff p xi) /\ (forall xi, avalanche EHat lnLambda Zeff p (- xi) = avalanche EHat lnLambda Zeff p xi) /\
  (forall x y, Rabs x < Rabs y -> avalanche EHat lnLambda Zeff p x < avalanche EHat lnLambda Zeff p y).
Proof.
  intros E L Z p HE HZ HL HP. unfold avalanche. set (gam := sqrt (1 + p ^ 2)). set (A := (E + 1) / (Z + 1) * gam). set (g0 := L * sqrt (Z + 5)).
  assert (S5 : 0 < sqrt (Z + 5)) by (apply sqrt_lt_R0; lra). assert (G0 : 0 < g0) by (apply Rmult_lt_0_compat; assumption).
  assert (P2 : 0 < p ^ 2) by (replace (p ^ 2) with (p * p) by ring; destruct (Rdichotomy _ _ HP); [replace (p * p) with ((- p) * (- p)) by ring|]; apply Rmult_lt_0_compat; lra).
  assert (GG : 0 < gam) by (apply sqrt_lt_R0; lra).
  assert (AP : 0 < A) by (apply Rmult_lt_0_compat; [apply Rmult_lt_0_compat; [lra|apply Rinv_0_lt_compat; lra]|exact GG]).
  pose proof (exp_lt_1 (- (2 * A)) ltac:(lra)) as X. pose proof PI_RGT_0 as PI0. pose proof electron_pos as EP.
  assert (C1 : 0 < electron_mass * light_speed * A / (2 * PI * g0 * p ^ 2)).
  { apply Rmult_lt_0_compat; [apply Rmult_lt_0_compat; assumption|]. apply Rinv_0_lt_compat. apply Rmult_lt_0_compat; [apply Rmult_lt_0_compat; [lra|exact G0]|exact P2]. }
  assert (C2 : 0 < / (1 - exp (- (2 * A)))) by (apply Rinv_0_lt_compat; lra). split; [|split].
  - intro xi. apply Rmult_lt_0_compat; [|exact C2]. apply Rmult_lt_0_compat; [exact C1|apply exp_pos].
  - intro xi. rewrite Rabs_Ropp. reflexivity.
  - intros x y H. apply Rmult_lt_compat_r; [exact C2|]. apply Rmult_lt_compat_l; [exact C1|]. apply exp_increasing. apply Rplus_lt_compat_l. apply Ropp_lt_contravar. apply Rmult_lt_compat_l; lra.
Qed.
Print Assumptions C62_avalanche_shape.

(** The Connor-Hastie distribution is the documented one, up to the Gaussian that cuts it off
    beyond the maximum momentum. *)
Theorem C62_connor_hastie : forall EHat Zeff pMax deltaP f p xi, make_connor_hastie EHat Zeff pMax deltaP = Some f -> 0 < p -> xi <> 0 ->
  analytic_eval f p xi = Some (connor_hastie EHat Zeff (p * Rabs xi) (p ^ 2 * (1 - xi ^ 2)) *
    (if Req_EM_T deltaP 0 then 1 else if Rlt_dec p pMax then 1 else exp (- ((p - pMax) / deltaP) ^ 2))).
Proof.
  intros E Z pM dP f p xi H HP HX. unfold make_connor_hastie, ediv in H. destruct (Req_EM_T (2 * (Z + 1)) 0) as [|NZ]; [discriminate|]. injection H as <-. cbn [analytic_eval].
  assert (AX : 0 < Rabs xi) by (apply Rabs_pos_lt; exact HX). assert (PX : 0 < p * Rabs xi) by (apply Rmult_lt_0_compat; assumption). unfold ediv.
  destruct (Req_EM_T (p * Rabs xi) 0); [lra|]. destruct (Req_EM_T (Rabs xi) 0); [lra|]. unfold connor_hastie.
  replace (- (E + 1) / (2 * (Z + 1)) * (p ^ 2 * (1 - xi ^ 2)) / (p * Rabs xi)) with (- ((E + 1) / (2 * (Z + 1))) * p * (1 - xi * xi) / Rabs xi) by (field; repeat split; lra).
  destruct (Req_EM_T dP 0); [rewrite Rmult_1_r; reflexivity|]. destruct (Rlt_dec p pM); [rewrite Rmult_1_r; reflexivity|]. f_equal.
  rewrite (Rmult_assoc (1 / (p * Rabs xi))), <- exp_plus. f_equal. f_equal. ring.
Qed.
Print Assumptions C62_connor_hastie.
Theorem C62_connor_hastie_shape : forall EHat Zeff pMax deltaP f p xi v, make_connor_hastie EHat Zeff pMax deltaP = Some f -> 0 < p -> xi <> 0 -> analytic_eval f p xi = Some v ->
  0 < v /\ analytic_eval f p (- xi) = Some v /\ v <= connor_hastie EHat Zeff (p * Rabs xi) (p ^ 2 * (1 - xi ^ 2)).
Proof.
  intros E Z pM dP f p xi v H HP HX EV. rewrite (C62_connor_hastie _ _ _ _ _ _ _ H HP HX) in EV. apply some_inj in EV. rewrite <- EV. clear EV v.
  assert (AX : 0 < Rabs xi) by (apply Rabs_pos_lt; exact HX).
  assert (C : 0 < connor_hastie E Z (p * Rabs xi) (p ^ 2 * (1 - xi ^ 2))).
  { unfold connor_hastie. apply Rmult_lt_0_compat; [|apply exp_pos]. apply Rmult_lt_0_compat; [lra|]. apply Rinv_0_lt_compat. apply Rmult_lt_0_compat; assumption. }
  assert (G : 0 < (if Req_EM_T dP 0 then 1 else if Rlt_dec p pM then 1 else exp (- ((p - pM) / dP) ^ 2)) <= 1).
  { destruct (Req_EM_T dP 0); [lra|]. destruct (Rlt_dec p pM); [lra|]. split; [apply exp_pos|]. rewrite <- exp_0. destruct (pow2_ge_0 ((p - pM) / dP)) as [Q|Q]; [left; apply exp_increasing; lra|right; f_equal; lra]. }
  split; [|split].
  - apply Rmult_lt_0_compat; [exact C|apply G].
  - rewrite (C62_connor_hastie _ _ _ _ _ _ _ H HP) by (intro Q; apply HX; lra). rewrite Rabs_Ropp. replace ((- xi) ^ 2) with (xi ^ 2) by ring. reflexivity.
  - eapply Rle_trans; [apply Rmult_le_compat_l; [lra|apply G]|]. rewrite Rmult_1_r. apply Rle_refl.
Qed.
Print Assumptions C62_connor_hastie_shape.

(** Elementary inequalities for the logarithm. *)
Lemma ln_below : forall t, 1 < t -> 1 - / t < ln t.
Proof.
  intros t H. assert (P : 0 < / t) by (apply Rinv_0_lt_compat; lra). assert (Q : ln (/ t) = - ln t) by (apply ln_Rinv; lra).
  assert (T1 : / t < 1) by (rewrite <- Rinv_1; apply Rinv_lt_contravar; lra).
  assert (N : ln (/ t) <> 0) by (assert (W : ln (/ t) < ln 1) by (apply ln_increasing; lra); rewrite ln_1 in W; lra).
  pose proof (exp_ineq1 (ln (/ t)) N) as E. rewrite exp_ln in E by exact P. lra.
Qed.
Lemma ln_above : forall t, 1 <= t -> ln t <= (t - / t) / 2.
Proof.
  intros t H. destruct H as [H|<-]; [|rewrite ln_1, Rinv_1; lra].
  destruct (MVT_cor2 (fun t => (t - / t) / 2 - ln t) (fun t => (1 + / (t * t)) / 2 - / t) 1 t H) as (c & E & C).
  - intros c [C1 C2].
    assert (D1 : derivable_pt_lim (fun t => / t) c (- / (c * c))).
    { assert (W := derivable_pt_lim_div (fct_cte 1) id c 0 1 (derivable_pt_lim_const 1 c) (derivable_pt_lim_id c) ltac:(unfold id; lra)). unfold fct_cte, id in W.
      replace ((0 * c - 1 * 1) / Rsqr c) with (- / (c * c)) in W by (unfold Rsqr; field; lra).
      intros eps HE. destruct (W eps HE) as (delta & HD). exists delta. intros h H0 H1. specialize (HD h H0 H1). unfold div_fct in HD.
      replace (/ (c + h) - / c) with (1 / (c + h) - 1 / c) by (unfold Rdiv; ring). exact HD. }
    assert (D2 := derivable_pt_lim_minus _ _ c _ _ (derivable_pt_lim_id c) D1). assert (D3 := derivable_pt_lim_scal _ (/ 2) c _ D2).
    assert (D4 := derivable_pt_lim_minus _ _ c _ _ D3 (derivable_pt_lim_ln c ltac:(lra))). replace ((1 + / (c * c)) / 2 - / c) with (/ 2 * (1 - - / (c * c)) - / c) by (field; lra).
    intros eps HE. destruct (D4 eps HE) as (delta & HD). exists delta. intros h H0 H1. specialize (HD h H0 H1). unfold minus_fct, mult_real_fct, id in HD.
    replace (((c + h - / (c + h)) / 2 - ln (c + h) - ((c - / c) / 2 - ln c)) / h) with ((/ 2 * (c + h - / (c + h)) - ln (c + h) - (/ 2 * (c - / c) - ln c)) / h); [exact HD|]. unfold Rdiv. ring.
  - cbn beta in E. rewrite ln_1, Rinv_1 in E. assert (Q : 0 <= (1 + / (c * c)) / 2 - / c).
    { replace ((1 + / (c * c)) / 2 - / c) with ((1 - / c) ^ 2 / 2) by (field; lra). pose proof (pow2_ge_0 (1 - / c)). lra. }
    assert (0 <= ((1 + / (c * c)) / 2 - / c) * (t - 1)) by (apply Rmult_le_pos; lra). lra.
Qed.
(** The Connor-Hastie distribution as a function of the absolute value of the pitch. *)
Lemma ch_log : forall E Z p x, 0 < p -> 0 < x -> Z + 1 <> 0 -> let K := (E + 1) / (2 * (Z + 1)) * p in
  connor_hastie E Z (p * x) (p ^ 2 * (1 - x ^ 2)) = / p * exp (- ln x - K * (/ x - x)).
Proof.
  intros E Z p x P X N K. unfold connor_hastie. replace (- (E + 1) / (2 * (Z + 1)) * (p ^ 2 * (1 - x ^ 2)) / (p * x)) with (- (K * (/ x - x))) by (unfold K; field; repeat split; lra).
  replace (- ln x - K * (/ x - x)) with (- ln x + - (K * (/ x - x))) by ring. rewrite exp_plus, (exp_Ropp (ln x)), exp_ln by exact X. field. split; lra.
Qed.
(** It grows with the absolute value of the pitch exactly if the momentum is large enough. *)
Theorem C62_connor_hastie_growth : forall EHat Zeff p, -1 < EHat -> -1 < Zeff -> 0 < p ->
  (forall x y, 0 < x -> x <= y -> y <= 1 -> connor_hastie EHat Zeff (p * x) (p ^ 2 * (1 - x ^ 2)) <= connor_hastie EHat Zeff (p * y) (p ^ 2 * (1 - y ^ 2))) <-> Zeff + 1 <= (EHat + 1) * p.
Proof.
  intros E Z p HE HZ HP. set (K := (E + 1) / (2 * (Z + 1)) * p).
  assert (KP : 0 < K) by (apply Rmult_lt_0_compat; [|exact HP]; apply Rmult_lt_0_compat; [lra|apply Rinv_0_lt_compat; lra]).
  assert (EQ : Z + 1 <= (E + 1) * p <-> 1 <= 2 * K).
  { assert (W : 2 * K * (Z + 1) = (E + 1) * p) by (unfold K; field; lra). split; intro H.
    - apply Rmult_le_reg_r with (Z + 1); lra.
    - rewrite <- W. rewrite <- (Rmult_1_l (Z + 1)) at 1. apply Rmult_le_compat_r; lra. }
  rewrite EQ. split.
  - intro H. destruct (Rle_dec 1 (2 * K)) as [|N]; [assumption|exfalso]. assert (IK : 2 < / K).
    { apply Rmult_lt_reg_r with K; [exact KP|]. rewrite Rinv_l by lra. lra. }
    set (t := / K / 2). assert (T : 1 < t < / K - 1) by (unfold t; lra). assert (PT : 0 < / t) by (apply Rinv_0_lt_compat; lra).
    assert (T1 : / t <= 1) by (rewrite <- Rinv_1; apply Rinv_le_contravar; lra).
    specialize (H (/ t) 1 PT T1 (Rle_refl 1)). rewrite (ch_log E Z p (/ t) HP PT), (ch_log E Z p 1 HP) in H by lra. fold K in H.
    apply Rmult_le_reg_l in H; [|apply Rinv_0_lt_compat; exact HP]. rewrite ln_1, Rinv_1, ln_Rinv, Rinv_inv in H by lra.
    assert (L := ln_below t ltac:(lra)). assert (B : K * (t - / t) < 1 - / t).
    { replace (K * (t - / t)) with ((K * (t + 1)) * (1 - / t)) by (field; lra). rewrite <- (Rmult_1_l (1 - / t)) at 2. apply Rmult_lt_compat_r.
      - assert (/ t < 1) by (rewrite <- Rinv_1; apply Rinv_lt_contravar; lra). lra.
      - apply Rmult_lt_reg_l with (/ K); [apply Rinv_0_lt_compat; exact KP|]. rewrite <- Rmult_assoc, Rinv_l by lra. lra. }
    assert (C : exp (- 0 - K * (1 - 1)) < exp (- - ln t - K * (t - / t))) by (apply exp_increasing; lra). lra.
  - intros H x y X XY Y. rewrite (ch_log E Z p x HP X), (ch_log E Z p y HP) by lra. fold K. apply Rmult_le_compat_l; [left; apply Rinv_0_lt_compat; exact HP|].
    assert (Q : - ln x - K * (/ x - x) <= - ln y - K * (/ y - y)).
    { assert (T : 1 <= y / x) by (apply Rmult_le_reg_r with x; [exact X|]; unfold Rdiv; rewrite Rmult_assoc, Rinv_l by lra; lra).
      assert (L := ln_above (y / x) T). assert (LL : ln (y / x) = ln y - ln x) by (unfold Rdiv; rewrite ln_mult, ln_Rinv by (try apply Rinv_0_lt_compat; lra); lra).
      rewrite LL in L. assert (B : (y / x - / (y / x)) / 2 <= K * ((/ x - x) - (/ y - y))).
      { replace (y / x - / (y / x)) with ((y - x) * (x + y) * / (x * y)) by (field; lra). replace ((/ x - x) - (/ y - y)) with ((y - x) * (1 + x * y) * / (x * y)) by (field; lra).
        assert (I : 0 < / (x * y)) by (apply Rinv_0_lt_compat, Rmult_lt_0_compat; lra).
        assert (W : x + y <= 1 + x * y) by (assert (0 <= (1 - x) * (1 - y)) by (apply Rmult_le_pos; lra); lra).
        assert (V : 0 <= (y - x) * / (x * y)) by (apply Rmult_le_pos; lra). apply Rle_trans with (/ 2 * ((y - x) * (1 + x * y) * / (x * y))).
        - replace ((y - x) * (x + y) * / (x * y) / 2) with (/ 2 * ((x + y) * ((y - x) * / (x * y)))) by (field; lra). replace ((y - x) * (1 + x * y) * / (x * y)) with ((1 + x * y) * ((y - x) * / (x * y))) by ring.
          apply Rmult_le_compat_l; [lra|]. apply Rmult_le_compat_r; assumption.
        - apply Rmult_le_compat_r; [|lra]. replace ((y - x) * (1 + x * y) * / (x * y)) with ((1 + x * y) * ((y - x) * / (x * y))) by ring. apply Rmult_le_pos; [|exact V].
          assert (0 < x * y) by (apply Rmult_lt_0_compat; lra). lra. }
      lra. }
    destruct Q as [Q|Q]; [left; apply exp_increasing; exact Q|right; f_equal; exact Q].
Qed.
Print Assumptions C62_connor_hastie_growth.
(** So it does not always. *)
Theorem C62_growth_refuted : ~ (forall EHat Zeff f p x y v w, -1 < EHat -> -1 < Zeff -> make_connor_hastie EHat Zeff 0 0 = Some f -> 0 < p -> 0 < Rabs x -> Rabs x <= Rabs y -> Rabs y <= 1 ->
  analytic_eval f p x = Some v -> analytic_eval f p y = Some w -> v <= w).
Proof.
  intro H. assert (G := proj1 (C62_connor_hastie_growth 1 3 1 ltac:(lra) ltac:(lra) ltac:(lra))). enough (3 + 1 <= (1 + 1) * 1) by lra. apply G. intros x y X XY Y.
  assert (M : exists f, make_connor_hastie 1 3 0 0 = Some f) by (unfold make_connor_hastie, ediv; destruct (Req_EM_T (2 * (3 + 1)) 0); [lra|eexists; reflexivity]). destruct M as (f & M).
  assert (V : forall z, 0 < z -> analytic_eval f 1 z = Some (connor_hastie 1 3 (1 * z) (1 ^ 2 * (1 - z ^ 2)))).
  { intros z PZ. rewrite (C62_connor_hastie _ _ _ _ _ 1 z M) by lra. destruct (Req_EM_T 0 0); [|lra]. rewrite Rmult_1_r, (Rabs_right z) by lra. reflexivity. }
  apply (H 1 3 f 1 x y); try lra; try apply V; try lra; rewrite ?Rabs_right by lra; try lra. exact M.
Qed.
Print Assumptions C62_growth_refuted.

(** The exponential pitch distribution. *)
Theorem C62_exponential : forall C p xi, exists v, analytic_eval (ExpPitch C) p xi = Some v /\ 0 < v /\ analytic_eval (ExpPitch C) p (- xi) = Some v /\ (0 <= xi -> v = exp (C * xi)).
Proof.
  intros C p xi. eexists. split; [reflexivity|]. split; [apply exp_pos|]. split; [cbn; rewrite Rabs_Ropp; reflexivity|]. intro H. rewrite Rabs_right by lra. reflexivity.
Qed.
Print Assumptions C62_exponential.
Theorem C62_exponential_growth : forall C p x y v w, 0 <= C -> Rabs x <= Rabs y -> analytic_eval (ExpPitch C) p x = Some v -> analytic_eval (ExpPitch C) p y = Some w -> v <= w.
Proof.
  intros C p x y v w HC H E1 E2. cbn in E1, E2. injection E1 as <-. injection E2 as <-. assert (Q : C * Rabs x <= C * Rabs y) by (apply Rmult_le_compat_l; assumption).
  destruct Q as [Q|Q]; [left; apply exp_increasing; exact Q|right; f_equal; exact Q].
Qed.
Print Assumptions C62_exponential_growth.
(** The documentation has the exponential of the pitch itself. *)
Theorem C62_exponential_refuted : ~ (forall C p xi, analytic_eval (ExpPitch C) p xi = Some (exp (C * xi))).
Proof.
  intro H. specialize (H 1 0 (-1)). cbn in H. injection H as H. apply exp_inv in H. rewrite Rabs_left in H by lra. lra.
Qed.
Print Assumptions C62_exponential_refuted.
(** There is no value where the momentum is zero, nor for Connor-Hastie where the pitch is. *)
Theorem C62_singular : forall EHat lnLambda Zeff pMax deltaP f g xi p,
  make_avalanche EHat lnLambda Zeff = Some f -> make_connor_hastie EHat Zeff pMax deltaP = Some g ->
  analytic_eval f 0 xi = None /\ analytic_eval g 0 xi = None /\ analytic_eval g p 0 = None.
Proof.
  intros E L Z pM dP f g xi p F G. unfold make_avalanche, ediv in F. destruct (Req_EM_T (Z + 1) 0); [discriminate|]. destruct (Rlt_dec (Z + 5) 0); [discriminate|]. injection F as <-.
  unfold make_connor_hastie, ediv in G. destruct (Req_EM_T (2 * (Z + 1)) 0); [discriminate|]. injection G as <-. cbn [analytic_eval]. unfold ediv. repeat split.
  - destruct (Req_EM_T (2 * PI * (L * sqrt (Z + 5)) * (0 * 0)) 0) as [|N]; [reflexivity|]. exfalso. apply N. ring.
  - destruct (Req_EM_T (0 * Rabs xi) 0) as [|N]; [reflexivity|]. exfalso. apply N. ring.
  - rewrite Rabs_R0. destruct (Req_EM_T (p * 0) 0) as [|N]; [reflexivity|]. exfalso. apply N. ring.
Qed.
Print Assumptions C62_singular.
(** A clone is the same function. *)
Theorem C62_clone : forall f, made_analytic f -> analytic_clone f = Some f.
Proof.
  intros f H. destruct H as [E L Z f H|E Z pM dP f H|C|]; try reflexivity.
  - pose proof H as H'. unfold make_avalanche, ediv in H'. destruct (Req_EM_T (Z + 1) 0); [discriminate|]. destruct (Rlt_dec (Z + 5) 0); [discriminate|]. injection H' as <-. exact H.
  - pose proof H as H'. unfold make_connor_hastie, ediv in H'. destruct (Req_EM_T (2 * (Z + 1)) 0); [discriminate|]. injection H' as <-. exact H.
Qed.
Print Assumptions C62_clone.
Example C62_example : exists f g, make_avalanche 10 15 1 = Some f /\ (exists v, analytic_eval f 2 (-1 / 2) = Some v /\ 0 < v) /\
  make_connor_hastie 10 1 0 0 = Some g /\ analytic_eval g 2 (-1) = Some (1 / 2).
Proof.
  assert (MA : exists f, make_avalanche 10 15 1 = Some f) by (unfold make_avalanche, ediv; destruct (Req_EM_T (1 + 1) 0); [lra|]; destruct (Rlt_dec (1 + 5) 0); [lra|]; eexists; reflexivity).
  assert (MC : exists f, make_connor_hastie 10 1 0 0 = Some f) by (unfold make_connor_hastie, ediv; destruct (Req_EM_T (2 * (1 + 1)) 0); [lra|]; eexists; reflexivity).
  destruct MA as (f & MA). destruct MC as (g & MC). exists f, g. split; [exact MA|]. split; [|split; [exact MC|]].
  - rewrite (C62_avalanche _ _ _ _ 2 (-1 / 2) MA) by lra. eexists. split; [reflexivity|]. apply (C62_avalanche_shape 10 15 1 2); lra.
  - rewrite (C62_connor_hastie _ _ _ _ _ 2 (-1) MC) by lra. destruct (Req_EM_T 0 0); [|lra]. f_equal. unfold connor_hastie. rewrite Rabs_left by lra.
    replace (- (10 + 1) / (2 * (1 + 1)) * (2 ^ 2 * (1 - (-1) ^ 2)) / (2 * - -1)) with 0 by field. rewrite exp_0. field.
Qed.

(** * C64: products *)
(** The value of a product is the product of the values, and there is one exactly if both
    factors have one. *)
Theorem C64_product : forall (P M : Type) (eval_profile : P -> R -> R -> option R) (eval_momentum : M -> R -> R -> option R) rp m rho p xi shift v,
  product_eval eval_profile eval_momentum (to_radial rp m) rho p xi shift = Some v <->
  exists a b, eval_profile rp rho shift = Some a /\ eval_momentum m p xi = Some b /\ v = a * b.
Proof.
  intros P M ep em rp m rho p xi shift v. unfold product_eval, to_radial. cbn [pr_profile pr_momentum]. split.
  - intro H. destruct (ep rp rho shift) as [a|]; [|discriminate]. destruct (em m p xi) as [b|]; [|discriminate]. injection H as <-. exists a, b. repeat split.
  - intros (a & b & -> & -> & ->). reflexivity.
Qed.
Print Assumptions C64_product.
(** With the uniform profile it is the momentum distribution, at every radius and shift. *)
Theorem C64_uniform : forall (M : Type) (eval_momentum : M -> R -> R -> option R) j0 m rho p xi shift,
  product_eval (profile_eval j0) eval_momentum (to_radial Uniform m) rho p xi shift = momentum_everywhere eval_momentum m rho p xi shift.
Proof.
  intros M em j0 m rho p xi shift. unfold product_eval, to_radial, momentum_everywhere. cbn [pr_profile pr_momentum profile_eval]. destruct (em m p xi); [|reflexivity]. f_equal. ring.
Qed.
Print Assumptions C64_uniform.
(** A clone has the same values if those of the factors have, and cloning fails if one of
    those fails. *)
Theorem C64_clone : forall (P M : Type) (eval_profile : P -> R -> R -> option R) (eval_momentum : M -> R -> R -> option R) clone_profile clone_momentum (f f' : product P M),
  (forall r r', clone_profile r = Ok r' -> forall rho shift, eval_profile r' rho shift = eval_profile r rho shift) ->
  (forall m m', clone_momentum m = Ok m' -> forall p xi, eval_momentum m' p xi = eval_momentum m p xi) ->
  product_clone clone_profile clone_momentum f = Ok f' -> forall rho p xi shift, product_eval eval_profile eval_momentum f' rho p xi shift = product_eval eval_profile eval_momentum f rho p xi shift.
Proof.
  intros P M ep em cp cm [r m] f' HP HM H rho p xi shift. unfold product_clone in H. cbn [pr_profile pr_momentum] in H.
  destruct (cp r) as [r'| |] eqn:ER; try discriminate. cbn [obind] in H. destruct (cm m) as [m'| |] eqn:EM; try discriminate. cbn [obind] in H. injection H as <-.
  unfold product_eval. cbn [pr_profile pr_momentum]. rewrite (HP r r' ER), (HM m m' EM). reflexivity.
Qed.
Print Assumptions C64_clone.
(** In particular for the profiles and distributions above. *)
Theorem C64_clone_analytic : forall f m, constructed f -> made_analytic m ->
  product_clone profile_clone (fun m => match analytic_clone m with Some m' => Ok m' | None => UB end) (to_radial f m) = Ok (to_radial f m).
Proof.
  intros f m F M. unfold product_clone, to_radial. cbn [pr_profile pr_momentum]. rewrite (C61_clone f F), (C62_clone m M). reflexivity.
Qed.
Print Assumptions C64_clone_analytic.
Example C64_example : exists f, make_linear 1 3 = Ok f /\ product_eval (profile_eval (fun _ => 0)) analytic_eval (to_radial f (ExpPitch 0)) 2 5 1 0 = Some (1 / 2) /\
  product_eval (profile_eval (fun _ => 0)) analytic_eval (to_radial Uniform Unit) 2 5 1 0 = Some 1.
Proof.
  assert (ML : make_linear 1 3 = Ok (Linear 1 3 (1 / (3 - 1)))) by (unfold make_linear; destruct (Rle_dec 3 1); [lra|reflexivity]).
  eexists. split; [exact ML|]. split.
  - apply C64_product. exists (1 / 2), 1. split; [|split].
    + rewrite (C61_linear (fun _ => 0) 1 3 _ 2 0 ML) by (unfold inside; lra). f_equal. unfold normalized. lra.
    + cbn. f_equal. rewrite Rmult_0_l. apply exp_0.
    + lra.
  - rewrite C64_uniform. reflexivity.
Qed.
