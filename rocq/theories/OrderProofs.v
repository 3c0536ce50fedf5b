(** The order of the Dormand-Prince steps for nonlinear systems. *)
From Coq Require Import ZArith Reals Lia Lra.
From Verif Require Import Base AlgebraModel IntegratorModel IntegratorSpec IntegratorProofs StepProofs DenseProofs TableauProofs IntegratorUse ConvergeSpec ConvergeProofs OrderSpec.
Local Open Scope R_scope.

(** * Taylor expansions *)
Section Taylor.
Variable N : nat.
Variables Tend M : R.
Variable m0 : nat.
Variable D : nat -> R -> vec.
Hypothesis HD : derivatives N Tend m0 M D.
Fixpoint tay (k m : nat) (T s : R) (j : nat) : R :=
  match m with O => 0 | S m' => tay k m' T s j + D (k + m')%nat T j * (s ^ m' / INR (fact m')) end.
Lemma tay_at_0 : forall k m T j, tay k (S m) T 0 j = D k T j.
Proof.
  intros k m T j. induction m as [|m IH].
  - cbn [tay pow fact INR]. rewrite Nat.add_0_r. field.
  - cbn [tay] in *. rewrite IH. cbn [pow]. unfold Rdiv. ring.
Qed.
Lemma tay_derivative : forall k m T s j, derivable_pt_lim (fun s => tay k (S m) T s j) s (tay (S k) m T s j).
Proof.
  intros k m T s j. induction m as [|m IH].
  - cbn [tay]. apply (derivable_pt_lim_ext (fct_cte (D k T j))); [intro x; unfold fct_cte; cbn [pow fact INR]; rewrite Nat.add_0_r; field|].
    apply derivable_pt_lim_const.
  - change (fun s => tay k (S (S m)) T s j) with (fun s => tay k (S m) T s j + D (k + S m)%nat T j * (s ^ (S m) / INR (fact (S m)))).
    cbn [tay]. apply (derivable_pt_lim_plus (fun s => tay k (S m) T s j) (fun s => D (k + S m)%nat T j * (s ^ (S m) / INR (fact (S m))))); [exact IH|].
    replace (S k + m)%nat with (k + S m)%nat by lia.
    apply (derivable_pt_lim_scal (fun s => s ^ (S m) / INR (fact (S m)))).
    apply (derivable_pt_lim_ext (fun s => / INR (fact (S m)) * s ^ (S m))); [intro x; unfold Rdiv; ring|].
    replace (s ^ m / INR (fact m)) with (/ INR (fact (S m)) * (INR (S m) * s ^ m)).
    + apply (derivable_pt_lim_scal (fun s => s ^ (S m))). apply derivable_pt_lim_pow.
    + rewrite fact_simpl, mult_INR. field. split; [apply INR_fact_neq_0|apply not_0_INR; discriminate].
Qed.
Lemma tay_remainder : forall m k T s j, (k + m <= m0)%nat -> 0 <= T -> 0 <= s -> T + s <= Tend -> (j < N)%nat ->
  Rabs (D k (T + s) j - tay k m T s j) <= M * s ^ m.
Proof.
  destruct HD as (Hd & Hb). induction m as [|m IH]; intros k T s j Hk HT Hs Hle Hj.
  - cbn [tay pow]. rewrite Rminus_0_r, Rmult_1_r. apply Hb; [lia|lra|exact Hj].
  - destruct (Rle_lt_or_eq_dec 0 s Hs) as [Hlt| <-].
    2: { rewrite Rplus_0_r, tay_at_0, Rminus_diag_eq, Rabs_R0 by reflexivity. rewrite pow_i by lia. lra. }
    destruct (MVT_cor2 (fun s => D k (T + s) j - tay k (S m) T s j) (fun s => D (S k) (T + s) j - tay (S k) m T s j) 0 s Hlt) as (c & Ec & Hc).
    { intros c Hc. apply (derivable_pt_lim_minus (fun s => D k (T + s) j) (fun s => tay k (S m) T s j)); [|apply tay_derivative].
      replace (D (S k) (T + c) j) with (D (S k) (T + c) j * (0 + 1)) by ring.
      apply (derivable_pt_lim_comp (fun s => T + s) (fun s => D k s j) c).
      - apply (derivable_pt_lim_plus (fct_cte T) id); [apply derivable_pt_lim_const|apply derivable_pt_lim_id].
      - apply Hd; [lia|lra|exact Hj]. }
    cbv beta in Ec. rewrite Rplus_0_r, tay_at_0, (Rminus_diag_eq (D k T j)) in Ec by reflexivity. rewrite Rminus_0_r in Ec. rewrite Ec.
    rewrite Rabs_mult, (Rabs_pos_eq (s - 0)) by lra.
    assert (M0 : 0 <= M) by (pose proof (Hb 0%nat T j ltac:(lia) ltac:(lra) Hj); pose proof (Rabs_pos (D 0%nat T j)); lra).
    pose proof (IH (S k) T c j ltac:(lia) HT ltac:(lra) ltac:(lra) Hj) as Q.
    assert (c ^ m <= s ^ m) by (apply pow_incr; lra).
    assert (M * c ^ m <= M * s ^ m) by (apply Rmult_le_compat_l; assumption).
    cbn [pow]. replace (M * (s * s ^ m)) with (M * s ^ m * (s - 0)) by ring. apply Rmult_le_compat_r; lra.
Qed.
End Taylor.

(** * Terms of order h^n, uniformly in the start time T, the step h and a position th in the step *)
Section Order.
Variable N : nat.
Variable Tend : R.
Hypothesis HTend : 0 <= Tend.
Definition valid (T h th : R) : Prop := 0 <= T /\ 0 < h /\ T + h <= Tend /\ 0 <= th <= 1.
Definition term := R -> R -> R -> vec.
Definition O (n : nat) (E : term) : Prop := exists C, 0 <= C /\ forall T h th j, valid T h th -> (j < N)%nat -> Rabs (E T h th j) <= C * h ^ n.
Definition bounded (w : R -> R -> R -> R) : Prop := exists C, 0 <= C /\ forall T h th, valid T h th -> Rabs (w T h th) <= C.

Lemma O_ext : forall n (E E' : term), (forall T h th j, valid T h th -> (j < N)%nat -> E' T h th j = E T h th j) -> O n E -> O n E'.
Proof. intros n E E' Q (C & C0 & H). exists C. split; [exact C0|]. intros T h th j V Hj. rewrite Q by assumption. apply H; assumption. Qed.
Lemma O_plus : forall n (E E' : term), O n E -> O n E' -> O n (fun T h th j => E T h th j + E' T h th j).
Proof.
  intros n E E' (C & C0 & H) (C' & C0' & H'). exists (C + C'). split; [lra|]. intros T h th j V Hj.
  rewrite Rmult_plus_distr_r. apply abs_add_le; [apply H|apply H']; assumption.
Qed.
Lemma O_scal : forall n w (E : term), bounded w -> O n E -> O n (fun T h th j => w T h th * E T h th j).
Proof.
  intros n w E (C & C0 & H) (C' & C0' & H'). exists (C * C'). split; [apply Rmult_le_pos; assumption|]. intros T h th j V Hj.
  rewrite Rmult_assoc. apply abs_mul_le; [apply H|apply H']; assumption.
Qed.
Lemma O_const : forall n c (E : term), O n E -> O n (fun T h th j => c * E T h th j).
Proof. intros n c E H. apply (O_scal n (fun _ _ _ => c)); [|exact H]. exists (Rabs c). split; [apply Rabs_pos|intros; lra]. Qed.
Lemma O_h : forall k n (E : term), O n E -> O (k + n) (fun T h th j => h ^ k * E T h th j).
Proof.
  intros k n E (C & C0 & H). exists C. split; [exact C0|]. intros T h th j V Hj. pose proof V as (V1 & V2 & V3 & V4).
  assert (P : 0 <= h ^ k) by (apply pow_le; lra). rewrite Rabs_mult, (Rabs_pos_eq (h ^ k)) by exact P.
  rewrite pow_add. replace (C * (h ^ k * h ^ n)) with (h ^ k * (C * h ^ n)) by ring. apply Rmult_le_compat_l; [exact P|apply H; assumption].
Qed.
Lemma O_weaken : forall n k (E : term), O (k + n) E -> O n E.
Proof.
  intros n k E (C & C0 & H). exists (C * Tend ^ k). split; [apply Rmult_le_pos; [exact C0|apply pow_le; exact HTend]|]. intros T h th j V Hj.
  eapply Rle_trans; [apply H; assumption|]. destruct V as (V1 & V2 & V3 & V4). rewrite pow_add, <- Rmult_assoc.
  apply Rmult_le_compat_r; [apply pow_le; lra|]. apply Rmult_le_compat_l; [exact C0|]. apply pow_incr. lra.
Qed.
(** A matrix whose entries are of order h^k. *)
Definition OM (k : nat) (A : R -> R -> R -> nat -> vec) : Prop :=
  exists C, 0 <= C /\ forall T h th j i, valid T h th -> (j < N)%nat -> (i < N)%nat -> Rabs (A T h th j i) <= C * h ^ k.
Definition app (A : R -> R -> R -> nat -> vec) (E : term) : term := fun T h th j => rsum N (fun i => A T h th j i * E T h th i).
Lemma rsum_const : forall n (c : R), rsum n (fun _ => c) = INR n * c.
Proof. induction n as [|n IH]; intro c; [unfold rsum; cbn; ring|]. rewrite rsum_S, S_INR, IH. ring. Qed.
Lemma O_app : forall k n A E, OM k A -> O n E -> O (k + n) (app A E).
Proof.
  intros k n A E (C & C0 & H) (C' & C0' & H'). exists (INR N * (C * C')). split; [repeat apply Rmult_le_pos; try assumption; apply pos_INR|].
  intros T h th j V Hj. unfold app. rewrite Rmult_assoc, <- rsum_const. apply rsum_abs. intros i Hi.
  replace (C * C' * h ^ (k + n)) with ((C * h ^ k) * (C' * h ^ n)) by (rewrite pow_add; ring).
  apply abs_mul_le; [apply H|apply H']; assumption.
Qed.
End Order.

(** * The expansion of a step *)
Section Expansion.
Variable N : nat.
Variable Tend : R.
Hypothesis HTend : 0 <= Tend.
Variable f : R -> vec -> vec.
Variable D : nat -> R -> vec.
Variable M : R.
Hypothesis HD : derivatives N Tend 6 M D.
Hypothesis Hf : forall t j, 0 <= t <= Tend -> (j < N)%nat -> f t (D 0%nat t) j = D 1%nat t j.
Variable J : nat -> R -> nat -> vec.
Hypothesis HJ : smooth_matrix N Tend M J.
Hypothesis HM : 0 <= M.
Variable K : R.
Hypothesis HK0 : 0 <= K.
Hypothesis HK : forall t y m, 0 <= t <= Tend -> 0 <= m -> close N m y (D 0%nat t) ->
  close N (K * m ^ 2) (f t y) (fun j => f t (D 0%nat t) j + rsum N (fun i => J 0%nat t j i * (y i - D 0%nat t i))).

Notation O := (O N Tend).
Notation OM := (OM N Tend).
Notation valid := (valid Tend).
Definition jac (k : nat) : R -> R -> R -> nat -> vec := fun T _ _ => J k T.
Notation app0 u := (app N (jac 0) u).
Notation app1 u := (app N (jac 1) u).

Lemma valid_time : forall T h th c, valid T h th -> 0 <= c <= 1 -> 0 <= T + c * h <= Tend /\ 0 <= c * h <= h.
Proof. intros T h th c (V1 & V2 & V3 & V4) Hc. assert (0 <= c * h) by (apply Rmult_le_pos; lra). assert (c * h <= 1 * h) by (apply Rmult_le_compat_r; lra). lra. Qed.
Lemma O_D : forall k, (k <= 6)%nat -> O 0 (fun T h th j => D k T j).
Proof. intros k Hk. exists M. split; [exact HM|]. intros T h th j (V1 & V2 & V3 & V4) Hj. cbn [pow]. rewrite Rmult_1_r. apply HD; [exact Hk|lra|exact Hj]. Qed.
Lemma O_tay : forall k m c, 0 <= c <= 1 -> (k + m <= 6)%nat -> O m (fun T h th j => D k (T + c * h) j - tay D k m T (c * h) j).
Proof.
  intros k m c Hc Hk. exists M. split; [exact HM|]. intros T h th j V Hj. destruct (valid_time T h th c V Hc) as (X & Y). pose proof V as (V1 & V2 & V3 & V4).
  eapply Rle_trans; [apply (tay_remainder N Tend M 6 D HD); try assumption; lra|]. apply Rmult_le_compat_l; [exact HM|]. apply pow_incr. lra.
Qed.
Lemma O_tay_th : forall k m, (k + m <= 6)%nat -> O m (fun T h th j => D k (T + th * h) j - tay D k m T (th * h) j).
Proof.
  intros k m Hk. exists M. split; [exact HM|]. intros T h th j V Hj. pose proof V as (V1 & V2 & V3 & V4). destruct (valid_time T h th th V V4) as (X & Y).
  eapply Rle_trans; [apply (tay_remainder N Tend M 6 D HD); try assumption; lra|]. apply Rmult_le_compat_l; [exact HM|]. apply pow_incr. lra.
Qed.
Lemma OM_jac : forall k, (k <= 2)%nat -> OM 0 (jac k).
Proof.
  intros k Hk. exists M. split; [exact HM|]. intros T h th j i (V1 & V2 & V3 & V4) Hj Hi. cbn [pow]. rewrite Rmult_1_r. unfold jac.
  exact (proj2 (HJ j Hj) k T i Hk ltac:(lra) Hi).
Qed.
Lemma OM_tay : forall c, 0 <= c <= 1 -> OM 2 (fun T h th j i => J 0%nat (T + c * h) j i - J 0%nat T j i - c * h * J 1%nat T j i).
Proof.
  intros c Hc. exists M. split; [exact HM|]. intros T h th j i V Hj Hi. destruct (valid_time T h th c V Hc) as (X & Y). pose proof V as (V1 & V2 & V3 & V4).
  pose proof (tay_remainder N Tend M 2 (fun k t => J k t j) (HJ j Hj) 2 0 T (c * h) i ltac:(lia) V1 ltac:(lra) ltac:(lra) Hi) as Q.
  cbn [tay plus fact] in Q. change (1 * 1)%nat with 1%nat in Q. change (1 + 0)%nat with 1%nat in Q. cbn [INR pow] in Q.
  replace (J 0%nat (T + c * h) j i - J 0%nat T j i - c * h * J 1%nat T j i) with (J 0%nat (T + c * h) j i - (0 + J 0%nat T j i * (1 / 1) + J 1%nat T j i * (c * h * 1 / 1))) by field.
  eapply Rle_trans; [exact Q|]. apply Rmult_le_compat_l; [exact HM|]. cbn [pow]. rewrite !Rmult_1_r. apply Rmult_le_compat; lra.
Qed.

Lemma expand_sum : forall n (Jt J0 J1 e u v : nat -> R) a b c,
  rsum n (fun i => Jt i * e i) = rsum n (fun i => (Jt i - J0 i - c * J1 i) * e i) + rsum n (fun i => J0 i * (e i - (a * u i + b * v i)))
    + c * rsum n (fun i => J1 i * (e i - a * u i)) + a * rsum n (fun i => J0 i * u i) + b * rsum n (fun i => J0 i * v i) + c * a * rsum n (fun i => J1 i * u i).
Proof.
  induction n as [|n IH]; intros; [unfold rsum; cbn; ring|]. rewrite !rsum_S, (IH (fun i => Jt (S i)) (fun i => J0 (S i)) (fun i => J1 (S i)) (fun i => e (S i)) (fun i => u (S i)) (fun i => v (S i)) a b c). ring.
Qed.

(** The slope at a stage whose value is known up to two terms. *)
Lemma kappa : forall c n (St u v : term), 0 <= c <= 1 -> (2 <= n)%nat -> O 0 u -> O 0 v ->
  O (2 + n) (fun T h th j => St T h th j - D 0%nat (T + c * h) j - (h ^ n * u T h th j + h ^ (1 + n) * v T h th j)) ->
  O (2 + n) (fun T h th j => f (T + c * h) (St T h th) j - D 1%nat (T + c * h) j -
     (h ^ n * app0 u T h th j + h ^ (1 + n) * (app0 v T h th j + c * app1 u T h th j))).
Proof.
  intros c n St u v Hc Hn Hu Hv He.
  set (e := fun T h th j => St T h th j - D 0%nat (T + c * h) j).
  assert (H1 : O (1 + n) (fun T h th j => e T h th j - h ^ n * u T h th j)).
  { apply (O_ext N Tend _ (fun T h th j => (St T h th j - D 0%nat (T + c * h) j - (h ^ n * u T h th j + h ^ (1 + n) * v T h th j)) + h ^ (1 + n) * v T h th j)).
    - intros. unfold e. ring.
    - apply O_plus; [apply (O_weaken N Tend HTend _ 1); exact He|]. replace (1 + n)%nat with (1 + n + 0)%nat at 1 by lia. apply O_h. exact Hv. }
  assert (H0 : O n e).
  { apply (O_ext N Tend _ (fun T h th j => (e T h th j - h ^ n * u T h th j) + h ^ n * u T h th j)); [intros; ring|].
    apply O_plus; [apply (O_weaken N Tend HTend _ 1); exact H1|]. replace n with (n + 0)%nat at 1 by lia. apply O_h. exact Hu. }
  assert (Q : O (2 + n) (fun T h th j => f (T + c * h) (St T h th) j - (f (T + c * h) (D 0%nat (T + c * h)) j + rsum N (fun i => J 0%nat (T + c * h) j i * e T h th i)))).
  { apply (O_weaken N Tend HTend _ (n - 2)). destruct H0 as (C & C0 & H0). exists (K * C ^ 2). split; [apply Rmult_le_pos; [exact HK0|apply pow_le; exact C0]|].
    intros T h th j V Hj. destruct (valid_time T h th c V Hc) as (X & Y). pose proof V as (V1 & V2 & V3 & V4).
    replace (n - 2 + (2 + n))%nat with (n + n)%nat by lia.
    replace (K * C ^ 2 * h ^ (n + n)) with (K * (C * h ^ n) ^ 2) by (rewrite pow_add; ring).
    apply (HK (T + c * h) (St T h th) (C * h ^ n) X); [apply Rmult_le_pos; [exact C0|apply pow_le; lra]| |exact Hj].
    intros i Hi. apply (H0 T h th i V Hi). }
  apply (O_ext N Tend _ (fun T h th j =>
    (f (T + c * h) (St T h th) j - (f (T + c * h) (D 0%nat (T + c * h)) j + rsum N (fun i => J 0%nat (T + c * h) j i * e T h th i)))
    + (app N (fun T h th j i => J 0%nat (T + c * h) j i - J 0%nat T j i - c * h * J 1%nat T j i) e T h th j
    + (app N (jac 0) (fun T h th j => St T h th j - D 0%nat (T + c * h) j - (h ^ n * u T h th j + h ^ (1 + n) * v T h th j)) T h th j
    + h ^ 1 * (c * app N (jac 1) (fun T h th j => e T h th j - h ^ n * u T h th j) T h th j))))).
  - intros T h th j V Hj. destruct (valid_time T h th c V Hc) as (X & Y). rewrite (Hf (T + c * h) j X Hj).
    rewrite (expand_sum N (J 0%nat (T + c * h) j) (J 0%nat T j) (J 1%nat T j) (e T h th) (u T h th) (v T h th) (h ^ n) (h ^ (1 + n)) (c * h)).
    unfold app, jac, e. cbn [pow plus]. ring.
  - apply O_plus; [exact Q|]. apply O_plus; [exact (O_app N Tend 2 n _ _ (OM_tay c Hc) H0)|].
    apply O_plus; [exact (O_app N Tend 0 (2 + n) _ _ (OM_jac 0 ltac:(lia)) He)|].
    apply (O_h N Tend 1 (1 + n)). apply O_const. exact (O_app N Tend 0 (1 + n) _ _ (OM_jac 1 ltac:(lia)) H1).
Qed.

Lemma fact_vals : INR (fact 0) = 1 /\ INR (fact 1) = 1 /\ INR (fact 2) = 2 /\ INR (fact 3) = 6 /\ INR (fact 4) = 24 /\ INR (fact 5) = 120.
Proof. rewrite !INR_IZR_INZ. repeat split. Qed.
Lemma tay4 : forall k T s j, tay D k 4 T s j = D k T j + D (1 + k)%nat T j * s + D (2 + k)%nat T j * (s ^ 2 / 2) + D (3 + k)%nat T j * (s ^ 3 / 6).
Proof.
  intros. destruct fact_vals as (F0 & F1 & F2 & F3 & F4 & F5). cbn [tay]. rewrite F0, F1, F2, F3.
  rewrite Nat.add_0_r, (Nat.add_comm k 1), (Nat.add_comm k 2), (Nat.add_comm k 3). cbn [pow]. field.
Qed.
Lemma tay5 : forall k T s j, tay D k 5 T s j = D k T j + D (1 + k)%nat T j * s + D (2 + k)%nat T j * (s ^ 2 / 2) + D (3 + k)%nat T j * (s ^ 3 / 6) + D (4 + k)%nat T j * (s ^ 4 / 24).
Proof. intros. change (tay D k 5 T s j) with (tay D k 4 T s j + D (k + 4)%nat T j * (s ^ 4 / INR (fact 4))). destruct fact_vals as (F0 & F1 & F2 & F3 & F4 & F5). rewrite tay4, F4, (Nat.add_comm k 4). ring. Qed.
Lemma tay6 : forall k T s j, tay D k 6 T s j = D k T j + D (1 + k)%nat T j * s + D (2 + k)%nat T j * (s ^ 2 / 2) + D (3 + k)%nat T j * (s ^ 3 / 6) + D (4 + k)%nat T j * (s ^ 4 / 24) + D (5 + k)%nat T j * (s ^ 5 / 120).
Proof. intros. change (tay D k 6 T s j) with (tay D k 5 T s j + D (k + 5)%nat T j * (s ^ 5 / INR (fact 5))). destruct fact_vals as (F0 & F1 & F2 & F3 & F4 & F5). rewrite tay5, F5, (Nat.add_comm k 5). ring. Qed.

(** The slopes of the step from [D 0 T]. *)
Definition s1 : term := fun T h th => f T (D 0%nat T).
Definition s2 : term := fun T h th => f (T + c2*h) (fun i => D 0%nat T i + h*a21*s1 T h th i).
Definition s3 : term := fun T h th => f (T + c3*h) (fun i => D 0%nat T i + (h*a31)*s1 T h th i + (h*a32)*s2 T h th i).
Definition s4 : term := fun T h th => f (T + c4*h) (fun i => D 0%nat T i + (h*a41)*s1 T h th i + (h*a42)*s2 T h th i + (h*a43)*s3 T h th i).
Definition s5 : term := fun T h th => f (T + c5*h) (fun i => D 0%nat T i + (h*a51)*s1 T h th i + (h*a52)*s2 T h th i + (h*a53)*s3 T h th i + (h*a54)*s4 T h th i).
Definition s6 : term := fun T h th => f (T + h) (fun i => D 0%nat T i + (h*a61)*s1 T h th i + (h*a62)*s2 T h th i + (h*a63)*s3 T h th i + (h*a64)*s4 T h th i + (h*a65)*s5 T h th i).
Definition out : term := fun T h th i => D 0%nat T i + (h*a71)*s1 T h th i + (h*a73)*s3 T h th i + (h*a74)*s4 T h th i + (h*a75)*s5 T h th i + (h*a76)*s6 T h th i.
Lemma out_step : forall T h th, out T h th = a_yout (inner_step f T h (D 0%nat T) (f T (D 0%nat T))).
Proof. reflexivity. Qed.

(** The leading terms of the errors of the stages and of the slopes. *)
Definition u2 : term := fun T h th j => - (c2 ^ 2 / 2) * D 2%nat T j.
Definition v2 : term := fun T h th j => - (c2 ^ 3 / 6) * D 3%nat T j.
Definition p2 : term := app0 u2.
Definition q2 : term := fun T h th j => app0 v2 T h th j + c2 * app1 u2 T h th j.
Definition u3 : term := fun T h th j => ((a32 * c2 ^ 2) / 2 - c3 ^ 3 / 6) * D 3%nat T j + a32 * p2 T h th j.
Definition v3 : term := fun T h th j => ((a32 * c2 ^ 3) / 6 - c3 ^ 4 / 24) * D 4%nat T j + a32 * q2 T h th j.
Definition p3 : term := app0 u3.
Definition q3 : term := fun T h th j => app0 v3 T h th j + c3 * app1 u3 T h th j.
Definition u4 : term := fun T h th j => ((a42 * c2 ^ 2 + a43 * c3 ^ 2) / 2 - c4 ^ 3 / 6) * D 3%nat T j + a42 * p2 T h th j.
Definition v4 : term := fun T h th j => ((a42 * c2 ^ 3 + a43 * c3 ^ 3) / 6 - c4 ^ 4 / 24) * D 4%nat T j + a42 * q2 T h th j + a43 * p3 T h th j.
Definition p4 : term := app0 u4.
Definition q4 : term := fun T h th j => app0 v4 T h th j + c4 * app1 u4 T h th j.
Definition u5 : term := fun T h th j => ((a52 * c2 ^ 2 + a53 * c3 ^ 2 + a54 * c4 ^ 2) / 2 - c5 ^ 3 / 6) * D 3%nat T j + a52 * p2 T h th j.
Definition v5 : term := fun T h th j => ((a52 * c2 ^ 3 + a53 * c3 ^ 3 + a54 * c4 ^ 3) / 6 - c5 ^ 4 / 24) * D 4%nat T j + a52 * q2 T h th j + a53 * p3 T h th j + a54 * p4 T h th j.
Definition p5 : term := app0 u5.
Definition q5 : term := fun T h th j => app0 v5 T h th j + c5 * app1 u5 T h th j.
Definition u6 : term := fun T h th j => ((a62 * c2 ^ 2 + a63 * c3 ^ 2 + a64 * c4 ^ 2 + a65 * c5 ^ 2) / 2 - 1 ^ 3 / 6) * D 3%nat T j + a62 * p2 T h th j.
Definition v6 : term := fun T h th j => ((a62 * c2 ^ 3 + a63 * c3 ^ 3 + a64 * c4 ^ 3 + a65 * c5 ^ 3) / 6 - 1 ^ 4 / 24) * D 4%nat T j + a62 * q2 T h th j + a63 * p3 T h th j + a64 * p4 T h th j + a65 * p5 T h th j.
Definition p6 : term := app0 u6.
Definition q6 : term := fun T h th j => app0 v6 T h th j + 1 * app1 u6 T h th j.

Lemma O_app0 : forall k u, (k <= 2)%nat -> O 0 u -> O 0 (app N (jac k) u).
Proof. intros k u Hk Hu. exact (O_app N Tend 0 0 _ _ (OM_jac k Hk) Hu). Qed.
Ltac bnd := repeat first [assumption | apply O_plus | apply O_const | apply O_app0; [lia|] | apply O_D; lia].
Lemma bounded2 : O 0 u2 /\ O 0 v2 /\ O 0 p2 /\ O 0 q2.
Proof. assert (O 0 u2) by (unfold u2; bnd). assert (O 0 v2) by (unfold v2; bnd). repeat split; unfold p2, q2; bnd. Qed.
Lemma bounded3 : O 0 u3 /\ O 0 v3 /\ O 0 p3 /\ O 0 q3.
Proof.
  destruct bounded2 as (? & ? & ? & ?).
  assert (O 0 u3) by (unfold u3; bnd). assert (O 0 v3) by (unfold v3; bnd). repeat split; unfold p3, q3; bnd.
Qed.
Lemma bounded4 : O 0 u4 /\ O 0 v4 /\ O 0 p4 /\ O 0 q4.
Proof.
  destruct bounded2 as (? & ? & ? & ?).
  destruct bounded3 as (? & ? & ? & ?).
  assert (O 0 u4) by (unfold u4; bnd). assert (O 0 v4) by (unfold v4; bnd). repeat split; unfold p4, q4; bnd.
Qed.
Lemma bounded5 : O 0 u5 /\ O 0 v5 /\ O 0 p5 /\ O 0 q5.
Proof.
  destruct bounded2 as (? & ? & ? & ?).
  destruct bounded3 as (? & ? & ? & ?).
  destruct bounded4 as (? & ? & ? & ?).
  assert (O 0 u5) by (unfold u5; bnd). assert (O 0 v5) by (unfold v5; bnd). repeat split; unfold p5, q5; bnd.
Qed.
Lemma bounded6 : O 0 u6 /\ O 0 v6 /\ O 0 p6 /\ O 0 q6.
Proof.
  destruct bounded2 as (? & ? & ? & ?).
  destruct bounded3 as (? & ? & ? & ?).
  destruct bounded4 as (? & ? & ? & ?).
  destruct bounded5 as (? & ? & ? & ?).
  assert (O 0 u6) by (unfold u6; bnd). assert (O 0 v6) by (unfold v6; bnd). repeat split; unfold p6, q6; bnd.
Qed.

Lemma c_range : 0 <= c2 <= 1 /\ 0 <= c3 <= 1 /\ 0 <= c4 <= 1 /\ 0 <= c5 <= 1 /\ 0 <= 1 <= 1.
Proof. unfold c2, c3, c4, c5. lra. Qed.
Definition rho0 (c : R) : term := fun T h th j => D 0%nat (T + c * h) j - tay D 0 5 T (c * h) j.
Definition rho1 (c : R) : term := fun T h th j => D 1%nat (T + c * h) j - tay D 1 4 T (c * h) j.
Lemma O_rho0 : forall c, 0 <= c <= 1 -> O 5 (rho0 c). Proof. intros c Hc. apply O_tay; [exact Hc|lia]. Qed.
Lemma O_rho1 : forall c, 0 <= c <= 1 -> O 4 (rho1 c). Proof. intros c Hc. apply O_tay; [exact Hc|lia]. Qed.
(** What remains of the slopes. *)
Definition r2 : term := fun T h th j => s2 T h th j - D 1%nat (T + c2 * h) j - (h ^ 2 * p2 T h th j + h ^ 3 * q2 T h th j).
Lemma O_r2 : O 4 r2.
Proof.
  destruct bounded2 as (B1 & B2 & B3 & B4). destruct c_range as (C2 & _).
  apply (kappa c2 2 (fun T h th i => D 0%nat T i + h*a21*s1 T h th i) u2 v2 C2 (le_n 2) B1 B2).
  apply (O_ext N Tend _ (fun T h th j => -1 * rho0 c2 T h th j + h ^ 4 * (- (c2 ^ 4 / 24) * D 4%nat T j))).
  - intros T h th j (V1 & V2 & V3 & V4) Hj. unfold rho0, u2, v2, s1. rewrite tay5, (Hf T j) by (try assumption; lra). cbn [plus]. unfold c2, a21. field.
  - apply O_plus; [apply O_const, (O_weaken N Tend HTend _ 1), O_rho0, C2|]. apply (O_h N Tend 4 0). bnd.
Qed.
Definition r3 : term := fun T h th j => s3 T h th j - D 1%nat (T + c3 * h) j - (h ^ 3 * p3 T h th j + h ^ 4 * q3 T h th j).
Lemma O_r3 : O 5 r3.
Proof.
  destruct bounded2 as (? & ? & Bp2 & Bq2).
  destruct bounded3 as (? & ? & Bp3 & Bq3).
  destruct c_range as (C2 & C3 & C4 & C5 & C6).
  apply (kappa c3 3 (fun T h th i => D 0%nat T i + (h*a31)*s1 T h th i + (h*a32)*s2 T h th i) u3 v3); try assumption; try lia.
  apply (O_ext N Tend _ (fun T h th j => -1 * rho0 c3 T h th j + (h ^ 1 * (a32 * r2 T h th j) + (h ^ 1 * (a32 * rho1 c2 T h th j))))).
  - intros T h th j (V1 & V2 & V3 & V4) Hj. unfold r2, rho0, rho1, u3, v3, s1. rewrite tay5, !tay4, (Hf T j) by (try assumption; lra). cbn [plus]. unfold a31, a32, c2, c3. field.
  - repeat apply O_plus.
    + apply O_const, O_rho0; assumption.
    + apply (O_h N Tend 1 4), O_const, O_r2.
    + apply (O_h N Tend 1 4), O_const, O_rho1; assumption.
Qed.
Definition r4 : term := fun T h th j => s4 T h th j - D 1%nat (T + c4 * h) j - (h ^ 3 * p4 T h th j + h ^ 4 * q4 T h th j).
Lemma O_r4 : O 5 r4.
Proof.
  destruct bounded2 as (? & ? & Bp2 & Bq2).
  destruct bounded3 as (? & ? & Bp3 & Bq3).
  destruct bounded4 as (? & ? & Bp4 & Bq4).
  destruct c_range as (C2 & C3 & C4 & C5 & C6).
  apply (kappa c4 3 (fun T h th i => D 0%nat T i + (h*a41)*s1 T h th i + (h*a42)*s2 T h th i + (h*a43)*s3 T h th i) u4 v4); try assumption; try lia.
  apply (O_ext N Tend _ (fun T h th j => -1 * rho0 c4 T h th j + (h ^ 1 * (a42 * r2 T h th j) + (h ^ 1 * (a42 * rho1 c2 T h th j) + (h ^ 1 * (a43 * rho1 c3 T h th j) + (h ^ 1 * (a43 * r3 T h th j) + (h ^ 5 * (a43 * q3 T h th j)))))))).
  - intros T h th j (V1 & V2 & V3 & V4) Hj. unfold r2, r3, rho0, rho1, u4, v4, s1. rewrite tay5, !tay4, (Hf T j) by (try assumption; lra). cbn [plus]. unfold a41, a42, a43, c2, c3, c4. field.
  - repeat apply O_plus.
    + apply O_const, O_rho0; assumption.
    + apply (O_h N Tend 1 4), O_const, O_r2.
    + apply (O_h N Tend 1 4), O_const, O_rho1; assumption.
    + apply (O_h N Tend 1 4), O_const, O_rho1; assumption.
    + apply (O_h N Tend 1 4), O_const, (O_weaken N Tend HTend _ 1), O_r3.
    + apply (O_h N Tend 5 0), O_const; assumption.
Qed.
Definition r5 : term := fun T h th j => s5 T h th j - D 1%nat (T + c5 * h) j - (h ^ 3 * p5 T h th j + h ^ 4 * q5 T h th j).
Lemma O_r5 : O 5 r5.
Proof.
  destruct bounded2 as (? & ? & Bp2 & Bq2).
  destruct bounded3 as (? & ? & Bp3 & Bq3).
  destruct bounded4 as (? & ? & Bp4 & Bq4).
  destruct bounded5 as (? & ? & Bp5 & Bq5).
  destruct c_range as (C2 & C3 & C4 & C5 & C6).
  apply (kappa c5 3 (fun T h th i => D 0%nat T i + (h*a51)*s1 T h th i + (h*a52)*s2 T h th i + (h*a53)*s3 T h th i + (h*a54)*s4 T h th i) u5 v5); try assumption; try lia.
  apply (O_ext N Tend _ (fun T h th j => -1 * rho0 c5 T h th j + (h ^ 1 * (a52 * r2 T h th j) + (h ^ 1 * (a52 * rho1 c2 T h th j) + (h ^ 1 * (a53 * rho1 c3 T h th j) + (h ^ 1 * (a54 * rho1 c4 T h th j) + (h ^ 1 * (a53 * r3 T h th j) + (h ^ 5 * (a53 * q3 T h th j) + (h ^ 1 * (a54 * r4 T h th j) + (h ^ 5 * (a54 * q4 T h th j))))))))))).
  - intros T h th j (V1 & V2 & V3 & V4) Hj. unfold r2, r3, r4, rho0, rho1, u5, v5, s1. rewrite tay5, !tay4, (Hf T j) by (try assumption; lra). cbn [plus]. unfold a51, a52, a53, a54, c2, c3, c4, c5. field.
  - repeat apply O_plus.
    + apply O_const, O_rho0; assumption.
    + apply (O_h N Tend 1 4), O_const, O_r2.
    + apply (O_h N Tend 1 4), O_const, O_rho1; assumption.
    + apply (O_h N Tend 1 4), O_const, O_rho1; assumption.
    + apply (O_h N Tend 1 4), O_const, O_rho1; assumption.
    + apply (O_h N Tend 1 4), O_const, (O_weaken N Tend HTend _ 1), O_r3.
    + apply (O_h N Tend 5 0), O_const; assumption.
    + apply (O_h N Tend 1 4), O_const, (O_weaken N Tend HTend _ 1), O_r4.
    + apply (O_h N Tend 5 0), O_const; assumption.
Qed.
Definition r6 : term := fun T h th j => s6 T h th j - D 1%nat (T + 1 * h) j - (h ^ 3 * p6 T h th j + h ^ 4 * q6 T h th j).
Lemma O_r6 : O 5 r6.
Proof.
  destruct bounded2 as (? & ? & Bp2 & Bq2).
  destruct bounded3 as (? & ? & Bp3 & Bq3).
  destruct bounded4 as (? & ? & Bp4 & Bq4).
  destruct bounded5 as (? & ? & Bp5 & Bq5).
  destruct bounded6 as (? & ? & Bp6 & Bq6).
  destruct c_range as (C2 & C3 & C4 & C5 & C6).
  apply (O_ext N Tend _ (fun T h th j => f (T + 1 * h) (fun i => D 0%nat T i + (h*a61)*s1 T h th i + (h*a62)*s2 T h th i + (h*a63)*s3 T h th i + (h*a64)*s4 T h th i + (h*a65)*s5 T h th i) j - D 1%nat (T + 1 * h) j - (h ^ 3 * p6 T h th j + h ^ 4 * q6 T h th j))); [intros; unfold r6, s6; rewrite Rmult_1_l; reflexivity|].
  apply (kappa 1 3 (fun T h th i => D 0%nat T i + (h*a61)*s1 T h th i + (h*a62)*s2 T h th i + (h*a63)*s3 T h th i + (h*a64)*s4 T h th i + (h*a65)*s5 T h th i) u6 v6); try assumption; try lia.
  apply (O_ext N Tend _ (fun T h th j => -1 * rho0 1 T h th j + (h ^ 1 * (a62 * r2 T h th j) + (h ^ 1 * (a62 * rho1 c2 T h th j) + (h ^ 1 * (a63 * rho1 c3 T h th j) + (h ^ 1 * (a64 * rho1 c4 T h th j) + (h ^ 1 * (a65 * rho1 c5 T h th j) + (h ^ 1 * (a63 * r3 T h th j) + (h ^ 5 * (a63 * q3 T h th j) + (h ^ 1 * (a64 * r4 T h th j) + (h ^ 5 * (a64 * q4 T h th j) + (h ^ 1 * (a65 * r5 T h th j) + (h ^ 5 * (a65 * q5 T h th j)))))))))))))).
  - intros T h th j (V1 & V2 & V3 & V4) Hj. unfold r2, r3, r4, r5, rho0, rho1, u6, v6, s1. rewrite tay5, !tay4, (Hf T j) by (try assumption; lra). cbn [plus]. unfold a61, a62, a63, a64, a65, c2, c3, c4, c5. field.
  - repeat apply O_plus.
    + apply O_const, O_rho0; assumption.
    + apply (O_h N Tend 1 4), O_const, O_r2.
    + apply (O_h N Tend 1 4), O_const, O_rho1; assumption.
    + apply (O_h N Tend 1 4), O_const, O_rho1; assumption.
    + apply (O_h N Tend 1 4), O_const, O_rho1; assumption.
    + apply (O_h N Tend 1 4), O_const, O_rho1; assumption.
    + apply (O_h N Tend 1 4), O_const, (O_weaken N Tend HTend _ 1), O_r3.
    + apply (O_h N Tend 5 0), O_const; assumption.
    + apply (O_h N Tend 1 4), O_const, (O_weaken N Tend HTend _ 1), O_r4.
    + apply (O_h N Tend 5 0), O_const; assumption.
    + apply (O_h N Tend 1 4), O_const, (O_weaken N Tend HTend _ 1), O_r5.
    + apply (O_h N Tend 5 0), O_const; assumption.
Qed.


(** The order conditions make the leading terms cancel. *)
Lemma combine4 : forall n (A x3 x4 x5 x6 : nat -> R) w3 w4 w5 w6,
  w3 * rsum n (fun i => A i * x3 i) + w4 * rsum n (fun i => A i * x4 i) + w5 * rsum n (fun i => A i * x5 i) + w6 * rsum n (fun i => A i * x6 i)
  = rsum n (fun i => A i * (w3 * x3 i + w4 * x4 i + w5 * x5 i + w6 * x6 i)).
Proof. induction n as [|n IH]; intros; [unfold rsum; cbn; ring|]. rewrite !rsum_S, <- IH. ring. Qed.
Lemma app_zero : forall n (A x : nat -> R), (forall i, x i = 0) -> rsum n (fun i => A i * x i) = 0.
Proof. induction n as [|n IH]; intros A x Hx; [reflexivity|]. rewrite rsum_S, Hx, (IH (fun i => A (S i)) (fun i => x (S i))) by (intro; apply Hx). ring. Qed.
Ltac coefs := unfold a71, a73, a74, a75, a76, a31, a32, a41, a42, a43, a51, a52, a53, a54, a61, a62, a63, a64, a65, c2, c3, c4, c5.
Lemma u_sum : forall T h th j, a73 * u3 T h th j + a74 * u4 T h th j + a75 * u5 T h th j + a76 * u6 T h th j = 0.
Proof. intros. unfold u3, u4, u5, u6. coefs. field. Qed.
Lemma cu_sum : forall T h th j, (a73 * c3) * u3 T h th j + (a74 * c4) * u4 T h th j + (a75 * c5) * u5 T h th j + a76 * u6 T h th j = 0.
Proof. intros. unfold u3, u4, u5, u6. coefs. field. Qed.
Lemma p_sum : forall T h th j, a73 * p3 T h th j + a74 * p4 T h th j + a75 * p5 T h th j + a76 * p6 T h th j = 0.
Proof. intros. unfold p3, p4, p5, p6, app. rewrite combine4. apply app_zero. intro i. apply u_sum. Qed.
(** [a4], [a5] and [a6] times the slopes of the third, fourth and fifth stage. *)
Lemma ap_sum : forall T h th j, (a74 * a43 + a75 * a53 + a76 * a63) * p3 T h th j + (a75 * a54 + a76 * a64) * p4 T h th j + (a76 * a65) * p5 T h th j + 0 * p6 T h th j = 0.
Proof. intros. unfold p3, p4, p5, p6, app. rewrite combine4. apply app_zero. intro i. unfold u3, u4, u5, u6. coefs. field. Qed.
Lemma v_sum : forall T h th j, a73 * v3 T h th j + a74 * v4 T h th j + a75 * v5 T h th j + a76 * v6 T h th j = 0.
Proof.
  intros. pose proof (ap_sum T h th j) as Q.
  transitivity ((a74 * a43 + a75 * a53 + a76 * a63) * p3 T h th j + (a75 * a54 + a76 * a64) * p4 T h th j + (a76 * a65) * p5 T h th j + 0 * p6 T h th j); [|exact Q].
  clear Q. unfold v3, v4, v5, v6. coefs. field.
Qed.
Lemma q_sum : forall T h th j, a73 * q3 T h th j + a74 * q4 T h th j + a75 * q5 T h th j + a76 * q6 T h th j = 0.
Proof.
  intros. unfold q3, q4, q5, q6, app.
  transitivity ((a73 * rsum N (fun i => jac 0 T h th j i * v3 T h th i) + a74 * rsum N (fun i => jac 0 T h th j i * v4 T h th i) + a75 * rsum N (fun i => jac 0 T h th j i * v5 T h th i) + a76 * rsum N (fun i => jac 0 T h th j i * v6 T h th i))
    + ((a73 * c3) * rsum N (fun i => jac 1 T h th j i * u3 T h th i) + (a74 * c4) * rsum N (fun i => jac 1 T h th j i * u4 T h th i) + (a75 * c5) * rsum N (fun i => jac 1 T h th j i * u5 T h th i) + a76 * rsum N (fun i => jac 1 T h th j i * u6 T h th i))); [ring|].
  rewrite !combine4, !app_zero; [ring|intro i; apply cu_sum|intro i; apply v_sum].
Qed.

Definition rho1' (c : R) : term := fun T h th j => D 1%nat (T + c * h) j - tay D 1 5 T (c * h) j.
Lemma O_rho1' : forall c, 0 <= c <= 1 -> O 5 (rho1' c). Proof. intros c Hc. apply O_tay; [exact Hc|lia]. Qed.
Definition rho0' (c : R) : term := fun T h th j => D 0%nat (T + c * h) j - tay D 0 6 T (c * h) j.
Lemma O_rho0' : forall c, 0 <= c <= 1 -> O 6 (rho0' c). Proof. intros c Hc. apply O_tay; [exact Hc|lia]. Qed.

Lemma local_order : O 6 (fun T h th j => out T h th j - D 0%nat (T + h) j).
Proof.
  destruct c_range as (C2 & C3 & C4 & C5 & C6).
  apply (O_ext N Tend _ (fun T h th j => -1 * rho0' 1 T h th j
     + (h ^ 1 * (a73 * r3 T h th j) + (h ^ 1 * (a74 * r4 T h th j) + (h ^ 1 * (a75 * r5 T h th j) + (h ^ 1 * (a76 * r6 T h th j)
     + (h ^ 1 * (a73 * rho1' c3 T h th j) + (h ^ 1 * (a74 * rho1' c4 T h th j) + (h ^ 1 * (a75 * rho1' c5 T h th j) + h ^ 1 * (a76 * rho1' 1 T h th j)))))))))).
  - intros T h th j (V1 & V2 & V3 & V4) Hj.
    pose proof (p_sum T h th j) as P. pose proof (q_sum T h th j) as Q.
    assert (P6 : p6 T h th j = - (a73 * p3 T h th j + a74 * p4 T h th j + a75 * p5 T h th j) / a76) by (apply (Rmult_eq_reg_l a76); [|unfold a76; lra]; replace (a76 * (- (a73 * p3 T h th j + a74 * p4 T h th j + a75 * p5 T h th j) / a76)) with (- (a73 * p3 T h th j + a74 * p4 T h th j + a75 * p5 T h th j)) by (field; unfold a76; lra); lra).
    assert (Q6 : q6 T h th j = - (a73 * q3 T h th j + a74 * q4 T h th j + a75 * q5 T h th j) / a76) by (apply (Rmult_eq_reg_l a76); [|unfold a76; lra]; replace (a76 * (- (a73 * q3 T h th j + a74 * q4 T h th j + a75 * q5 T h th j) / a76)) with (- (a73 * q3 T h th j + a74 * q4 T h th j + a75 * q5 T h th j)) by (field; unfold a76; lra); lra).
    unfold r3, r4, r5, r6, rho0', rho1', out. rewrite P6, Q6. rewrite tay6, !tay5. unfold s1. rewrite (Hf T j) by (try assumption; lra). cbn [plus]. rewrite !Rmult_1_l.
    clear P6 Q6 P Q. coefs. field.
  - repeat apply O_plus.
    + apply O_const, O_rho0'; assumption.
    + apply (O_h N Tend 1 5), O_const, O_r3.
    + apply (O_h N Tend 1 5), O_const, O_r4.
    + apply (O_h N Tend 1 5), O_const, O_r5.
    + apply (O_h N Tend 1 5), O_const, O_r6.
    + apply (O_h N Tend 1 5), O_const, O_rho1'; assumption.
    + apply (O_h N Tend 1 5), O_const, O_rho1'; assumption.
    + apply (O_h N Tend 1 5), O_const, O_rho1'; assumption.
    + apply (O_h N Tend 1 5), O_const, O_rho1'; assumption.
Qed.

(** * Dense output *)
Definition s7 : term := fun T h th => f (T + h) (out T h th).
Definition r7 : term := fun T h th j => s7 T h th j - D 1%nat (T + 1 * h) j.
Lemma O_zero : forall n, O n (fun T h th j => 0).
Proof. intro n. exists 0. split; [lra|]. intros. rewrite Rabs_R0. lra. Qed.
Lemma O_r7 : O 6 r7.
Proof.
  destruct c_range as (C2 & C3 & C4 & C5 & C6).
  pose proof (kappa 1 4 out (fun T h th j => 0) (fun T h th j => 0) C6 ltac:(lia) (O_zero 0) (O_zero 0)) as X.
  apply (O_ext N Tend _ (fun T h th j => f (T + 1 * h) (out T h th) j - D 1%nat (T + 1 * h) j - (h ^ 4 * app0 (fun T h th j => 0) T h th j + h ^ (1 + 4) * (app0 (fun T h th j => 0) T h th j + 1 * app1 (fun T h th j => 0) T h th j)))).
  - intros T h th j V Hj. unfold app. rewrite !app_zero by reflexivity. unfold r7, s7. rewrite !Rmult_1_l. ring.
  - apply X. apply (O_ext N Tend _ (fun T h th j => out T h th j - D 0%nat (T + h) j)); [|exact local_order].
    intros. rewrite Rmult_1_l. ring.
Qed.
Definition dense_term : term := fun T h th j =>
  (1 - th) * D 0%nat T j + th * out T h th j + th * (th - 1) * ((1 - 2 * th) * (out T h th j - D 0%nat T j) + (th - 1) * h * s1 T h th j + th * h * s7 T h th j)
  + th * th * (1 - th) * (1 - th) *
    (h * (d1 * s1 T h th j + d3 * s3 T h th j + d4 * s4 T h th j + d5 * s5 T h th j + d6 * s6 T h th j + d7 * s7 T h th j)).
(** The weight of a slope with weight [b] in the step and [d] in the correction. *)
Definition weight (b d th : R) : R := th * (b * (1 + (th - 1) * (1 - 2 * th)) + th * (1 - th) * (1 - th) * d).
Definition weight7 (th : R) : R := th * th * (th - 1) + th * th * (1 - th) * (1 - th) * d7.
Lemma bounded_poly : forall g : R -> R, (exists C, forall x, 0 <= x <= 1 -> Rabs (g x) <= C) -> bounded Tend (fun T h th => g th).
Proof.
  intros g (C & H). exists C. assert (0 <= C) by (pose proof (H 0 ltac:(lra)); pose proof (Rabs_pos (g 0)); lra). split; [assumption|].
  intros T h th (_ & _ & _ & V). apply H. exact V.
Qed.
Lemma weight_bound : forall b d x, 0 <= x <= 1 -> Rabs (weight b d x) <= 2 * Rabs b + Rabs d.
Proof.
  intros b d x Hx. unfold weight. rewrite Rabs_mult, (Rabs_pos_eq x) by lra.
  assert (A : Rabs (b * (1 + (x - 1) * (1 - 2 * x)) + x * (1 - x) * (1 - x) * d) <= 2 * Rabs b + Rabs d).
  { apply abs_add_le.
    - rewrite Rmult_comm. apply abs_mul_le; [|lra]. apply Rabs_le.
      assert (0 <= (1 - x) * x) by (apply Rmult_le_pos; lra).
      assert (0 <= (x - 1 / 2) * (x - 1 / 2)) by apply Rle_0_sqr. lra.
    - replace (Rabs d) with (1 * Rabs d) by ring. apply abs_mul_le; [|lra].
      assert (0 <= x * (1 - x)) by (apply Rmult_le_pos; lra).
      assert (x * (1 - x) <= 1) by (replace 1 with (1 * 1) at 2 by ring; apply Rmult_le_compat; lra).
      assert (0 <= x * (1 - x) * (1 - x)) by (apply Rmult_le_pos; lra).
      assert (x * (1 - x) * (1 - x) <= 1 * 1) by (apply Rmult_le_compat; lra).
      rewrite Rabs_pos_eq by assumption. lra. }
  pose proof (Rabs_pos (b * (1 + (x - 1) * (1 - 2 * x)) + x * (1 - x) * (1 - x) * d)) as P.
  replace (2 * Rabs b + Rabs d) with (1 * (2 * Rabs b + Rabs d)) by ring. apply Rmult_le_compat; lra.
Qed.
Lemma bounded_weight : forall b d, bounded Tend (fun T h th => weight b d th).
Proof. intros b d. apply bounded_poly. exists (2 * Rabs b + Rabs d). apply weight_bound. Qed.
Lemma weight7_bound : forall x, 0 <= x <= 1 -> Rabs (weight7 x) <= 1 + Rabs d7.
Proof.
  intros x Hx. unfold weight7. assert (0 <= x * x) by (apply Rmult_le_pos; lra). assert (x * x <= 1 * 1) by (apply Rmult_le_compat; lra).
  apply abs_add_le.
  - replace 1 with (1 * 1) by ring. apply abs_mul_le; apply Rabs_le; lra.
  - replace (Rabs d7) with (1 * Rabs d7) by ring. apply abs_mul_le; [|lra].
    assert (0 <= x * x * (1 - x)) by (apply Rmult_le_pos; lra). assert (x * x * (1 - x) <= 1 * 1) by (apply Rmult_le_compat; lra).
    assert (0 <= x * x * (1 - x) * (1 - x)) by (apply Rmult_le_pos; lra). assert (x * x * (1 - x) * (1 - x) <= 1 * 1) by (apply Rmult_le_compat; lra).
    rewrite Rabs_pos_eq by assumption. lra.
Qed.
Lemma bounded_weight7 : bounded Tend (fun T h th => weight7 th).
Proof. apply bounded_poly. exists (1 + Rabs d7). apply weight7_bound. Qed.
Ltac dcoefs := unfold weight, weight7, d1, d3, d4, d5, d6, d7; coefs.
Lemma dense_p : forall T h th j, weight a73 d3 th * p3 T h th j + weight a74 d4 th * p4 T h th j + weight a75 d5 th * p5 T h th j + weight a76 d6 th * p6 T h th j = 0.
Proof. intros. unfold p3, p4, p5, p6, app. rewrite combine4. apply app_zero. intro i. unfold u3, u4, u5, u6. dcoefs. field. Qed.
Lemma dense_order : O 5 (fun T h th j => dense_term T h th j - D 0%nat (T + th * h) j).
Proof.
  destruct c_range as (C2 & C3 & C4 & C5 & C6).
  destruct bounded3 as (? & ? & ? & ?). destruct bounded4 as (? & ? & ? & ?). destruct bounded5 as (? & ? & ? & ?). destruct bounded6 as (? & ? & ? & ?).
  apply (O_ext N Tend _ (fun T h th j => -1 * (D 0%nat (T + th * h) j - tay D 0 5 T (th * h) j)
     + (h ^ 1 * (weight a73 d3 th * (r3 T h th j + h ^ 4 * q3 T h th j)) + (h ^ 1 * (weight a74 d4 th * (r4 T h th j + h ^ 4 * q4 T h th j))
     + (h ^ 1 * (weight a75 d5 th * (r5 T h th j + h ^ 4 * q5 T h th j)) + (h ^ 1 * (weight a76 d6 th * (r6 T h th j + h ^ 4 * q6 T h th j)) + (h ^ 1 * (weight7 th * r7 T h th j)
     + (h ^ 1 * (weight a73 d3 th * rho1 c3 T h th j) + (h ^ 1 * (weight a74 d4 th * rho1 c4 T h th j) + (h ^ 1 * (weight a75 d5 th * rho1 c5 T h th j)
     + (h ^ 1 * (weight a76 d6 th * rho1 1 T h th j) + h ^ 1 * (weight7 th * rho1 1 T h th j)))))))))))).
  - intros T h th j (V1 & V2 & V3 & V4) Hj.
    transitivity (h ^ 4 * (weight a73 d3 th * p3 T h th j + weight a74 d4 th * p4 T h th j + weight a75 d5 th * p5 T h th j + weight a76 d6 th * p6 T h th j)
     + (-1 * (D 0%nat (T + th * h) j - tay D 0 5 T (th * h) j)
     + (h ^ 1 * (weight a73 d3 th * (r3 T h th j + h ^ 4 * q3 T h th j)) + (h ^ 1 * (weight a74 d4 th * (r4 T h th j + h ^ 4 * q4 T h th j))
     + (h ^ 1 * (weight a75 d5 th * (r5 T h th j + h ^ 4 * q5 T h th j)) + (h ^ 1 * (weight a76 d6 th * (r6 T h th j + h ^ 4 * q6 T h th j)) + (h ^ 1 * (weight7 th * r7 T h th j)
     + (h ^ 1 * (weight a73 d3 th * rho1 c3 T h th j) + (h ^ 1 * (weight a74 d4 th * rho1 c4 T h th j) + (h ^ 1 * (weight a75 d5 th * rho1 c5 T h th j)
     + (h ^ 1 * (weight a76 d6 th * rho1 1 T h th j) + h ^ 1 * (weight7 th * rho1 1 T h th j)))))))))))).
    + unfold r3, r4, r5, r6, r7, rho1, dense_term, out. rewrite tay5, !tay4. unfold s1. rewrite (Hf T j) by (try assumption; lra). cbn [plus]. rewrite !Rmult_1_l.
      dcoefs. field.
    + rewrite dense_p. ring.
  - repeat apply O_plus.
    + apply O_const, O_tay_th. lia.
    + apply (O_h N Tend 1 4), O_scal; [apply bounded_weight|]. apply O_plus; [apply (O_weaken N Tend HTend _ 1), O_r3|apply (O_h N Tend 4 0); assumption].
    + apply (O_h N Tend 1 4), O_scal; [apply bounded_weight|]. apply O_plus; [apply (O_weaken N Tend HTend _ 1), O_r4|apply (O_h N Tend 4 0); assumption].
    + apply (O_h N Tend 1 4), O_scal; [apply bounded_weight|]. apply O_plus; [apply (O_weaken N Tend HTend _ 1), O_r5|apply (O_h N Tend 4 0); assumption].
    + apply (O_h N Tend 1 4), O_scal; [apply bounded_weight|]. apply O_plus; [apply (O_weaken N Tend HTend _ 1), O_r6|apply (O_h N Tend 4 0); assumption].
    + apply (O_h N Tend 1 4), O_scal; [apply bounded_weight7|]. apply (O_weaken N Tend HTend _ 2), O_r7.
    + apply (O_h N Tend 1 4), O_scal; [apply bounded_weight|apply O_rho1; assumption].
    + apply (O_h N Tend 1 4), O_scal; [apply bounded_weight|apply O_rho1; assumption].
    + apply (O_h N Tend 1 4), O_scal; [apply bounded_weight|apply O_rho1; assumption].
    + apply (O_h N Tend 1 4), O_scal; [apply bounded_weight|apply O_rho1; assumption].
    + apply (O_h N Tend 1 4), O_scal; [apply bounded_weight7|apply O_rho1; assumption].
Qed.

End Expansion.

(** * Histories *)
Lemma jacobian_everywhere : forall N f Tend L M rho K Y (J : nat -> R -> nat -> vec), (1 <= N)%nat -> 0 <= L -> 0 <= M -> 0 < rho -> lipschitz N Tend L f ->
  smooth_matrix N Tend M J -> jacobian N Tend rho K f Y (J 0%nat) ->
  forall t y m, 0 <= t <= Tend -> 0 <= m -> close N m y (Y t) ->
  close N ((Rabs K + (L + INR N * M) / rho) * m ^ 2) (f t y) (fun j => f t (Y t) j + rsum N (fun i => J 0%nat t j i * (y i - Y t i))).
Proof.
  intros N f Tend L M rho K Y J HN HL HM Hrho Hlip HJ Hjac t y m Ht Hm Hc j Hj.
  assert (NM : 0 <= INR N * M) by (apply Rmult_le_pos; [apply pos_INR|exact HM]).
  assert (Q : 0 <= (L + INR N * M) / rho) by (apply Rmult_le_pos; [lra|apply Rlt_le, Rinv_0_lt_compat; exact Hrho]).
  assert (M2 : 0 <= m ^ 2) by (apply pow_le; exact Hm).
  destruct (Rle_lt_dec m rho) as [Hle|Hgt].
  - eapply Rle_trans; [exact (Hjac t y m Ht Hle Hc j Hj)|]. apply Rmult_le_compat_r; [exact M2|]. pose proof (RRle_abs K). lra.
  - assert (A : Rabs (f t y j - f t (Y t) j) <= L * m).
    { pose proof (Hlip t t y (Y t) m Ht Ht Hc j Hj) as X. rewrite (Rminus_diag_eq t t), Rabs_R0, Rplus_0_l in X by reflexivity. exact X. }
    assert (B : Rabs (rsum N (fun i => J 0%nat t j i * (y i - Y t i))) <= INR N * (M * m)).
    { rewrite <- rsum_const. apply rsum_abs. intros i Hi. apply abs_mul_le; [exact (proj2 (HJ j Hj) 0%nat t i ltac:(lia) Ht Hi)|exact (Hc i Hi)]. }
    replace (f t y j - (f t (Y t) j + rsum N (fun i => J 0%nat t j i * (y i - Y t i)))) with ((f t y j - f t (Y t) j) - rsum N (fun i => J 0%nat t j i * (y i - Y t i))) by ring.
    pose proof (Rabs_triang (f t y j - f t (Y t) j) (- rsum N (fun i => J 0%nat t j i * (y i - Y t i)))) as Tr. rewrite Rabs_Ropp in Tr. fold (Rminus (f t y j - f t (Y t) j) (rsum N (fun i => J 0%nat t j i * (y i - Y t i)))) in Tr.
    apply Rle_trans with ((L + INR N * M) * m); [lra|].
    apply Rle_trans with ((L + INR N * M) / rho * m ^ 2).
    + replace ((L + INR N * M) / rho * m ^ 2) with ((L + INR N * M) * m * (m / rho)) by (cbn [pow]; field; lra).
      rewrite <- (Rmult_1_r ((L + INR N * M) * m)) at 1. apply Rmult_le_compat_l; [apply Rmult_le_pos; lra|].
      apply (Rmult_le_reg_r rho); [exact Hrho|]. unfold Rdiv. rewrite Rmult_assoc, Rinv_l by lra. lra.
    + apply Rmult_le_compat_r; [exact M2|]. pose proof (Rabs_pos K). lra.
Qed.

(** The interpolant of the step from [y], at the position [th]. *)
Definition dense_at (f : R -> vec -> vec) (t h : R) (y : vec) (th : R) (j : nat) : R :=
  let a := inner_step f t h y (f t y) in
  (1 - th) * y j + th * a_yout a j + th * (th - 1) * ((1 - 2 * th) * (a_yout a j - y j) + (th - 1) * h * f t y j + th * h * a_dydxout a j)
  + th * th * (1 - th) * (1 - th) * (h * (d1 * f t y j + d3 * a_k3 a j + d4 * a_k4 a j + d5 * a_k5 a j + d6 * a_k6 a j + d7 * a_dydxout a j)).

Lemma step_order : forall N f Tend L M rho K D J, (1 <= N)%nat -> 0 <= Tend -> 0 <= L -> lipschitz N Tend L f -> solves N Tend f (D 0%nat) ->
  derivatives N Tend 6 M D -> smooth_matrix N Tend M J -> 0 < rho -> jacobian N Tend rho K f (D 0%nat) (J 0%nat) ->
  exists C, 0 <= C /\ forall t h, 0 <= t -> 0 < h -> t + h <= Tend ->
    close N (C * h ^ 6) (a_yout (inner_step f t h (D 0%nat t) (f t (D 0%nat t)))) (D 0%nat (t + h)) /\
    forall th, 0 <= th <= 1 -> close N (C * h ^ 5) (dense_at f t h (D 0%nat t) th) (D 0%nat (t + th * h)).
Proof.
  intros N f Tend L M rho K D J HN HT HL Hlip HY HD HJ Hrho Hjac.
  assert (HM : 0 <= M) by (pose proof (proj2 HD 0%nat 0 0%nat ltac:(lia) ltac:(lra) ltac:(lia)); pose proof (Rabs_pos (D 0%nat 0 0%nat)); lra).
  assert (Hf : forall t j, 0 <= t <= Tend -> (j < N)%nat -> f t (D 0%nat t) j = D 1%nat t j).
  { intros t j Ht Hj. apply (uniqueness_limite (fun s => D 0%nat s j) t); [exact (HY t j Ht Hj)|exact (proj1 HD 0%nat t j ltac:(lia) Ht Hj)]. }
  assert (HK0 : 0 <= Rabs K + (L + INR N * M) / rho).
  { pose proof (Rabs_pos K). assert (0 <= INR N * M) by (apply Rmult_le_pos; [apply pos_INR|exact HM]).
    assert (0 <= (L + INR N * M) / rho) by (apply Rmult_le_pos; [lra|apply Rlt_le, Rinv_0_lt_compat; exact Hrho]). lra. }
  pose proof (jacobian_everywhere N f Tend L M rho K (D 0%nat) J HN HL HM Hrho Hlip HJ Hjac) as HK.
  destruct (local_order N Tend HT f D M HD Hf J HJ HM _ HK0 HK) as (C1 & C10 & H1).
  destruct (dense_order N Tend HT f D M HD Hf J HJ HM _ HK0 HK) as (C2 & C20 & H2).
  exists (C1 + C2). split; [lra|]. intros t h Ht Hh Hle. split.
  - apply (close_weaken N (C1 * h ^ 6)); [|apply Rmult_le_compat_r; [apply pow_le; lra|lra]].
    intros j Hj. exact (H1 t h 0 j (conj Ht (conj Hh (conj Hle (conj (Rle_refl 0) Rle_0_1)))) Hj).
  - intros th Hth. apply (close_weaken N (C2 * h ^ 5)); [|apply Rmult_le_compat_r; [apply pow_le; lra|lra]].
    intros j Hj. exact (H2 t h th j (conj Ht (conj Hh (conj Hle Hth))) Hj).
Qed.

Lemma dense_stable : forall N f Tend L t h th y z B, (1 <= N)%nat -> 0 <= L -> lipschitz N Tend L f -> 0 <= t -> 0 < h -> t + h <= Tend -> 50 * L * h <= 1 ->
  0 <= th <= 1 -> close N B y z -> close N (2 * B) (dense_at f t h y th) (dense_at f t h z th).
Proof.
  intros N f Tend L t h th y z B HN HL Hlip Ht Hh Hle Hsm Hth Hc.
  pose proof (close_pos N B y z HN Hc) as HB. assert (LB : 0 <= L * B) by (apply Rmult_le_pos; assumption).
  destruct (inner_step_stages f t h y) as (k & Hk & Ky & K3 & K4 & K5 & K6 & K7 & K1). cbv zeta in *.
  destruct (inner_step_stages f t h z) as (k' & Hk' & Ky' & K3' & K4' & K5' & K6' & K7' & K1'). cbv zeta in *.
  assert (S : forall i, (i < 7)%nat -> close N (2 * (L * B)) (k i) (k' i)).
  { intro i. induction i as [i IH] using lt_wf_ind. intros Hi. rewrite (Hk i Hi), (Hk' i Hi).
    assert (V : close N (2 * B) (fun n => y n + h * rsum 7 (fun j => dp_a i j * k j n)) (fun n => z n + h * rsum 7 (fun j => dp_a i j * k' j n))).
    { intros n Hn. replace (y n + h * rsum 7 (fun j => dp_a i j * k j n) - (z n + h * rsum 7 (fun j => dp_a i j * k' j n))) with ((y n - z n) + h * rsum 7 (fun j => dp_a i j * (k j n - k' j n))).
      2: { rewrite (rsum_ext 7 (fun j => dp_a i j * (k j n - k' j n)) (fun j => dp_a i j * k j n - dp_a i j * k' j n)) by (intros; ring). rewrite <- rsum_minus. ring. }
      assert (W : Rabs (rsum 7 (fun j => dp_a i j * (k j n - k' j n))) <= 25 * (2 * (L * B))).
      { eapply Rle_trans; [apply (rsum_weighted 7 (dp_a i) (fun j => k j n - k' j n) (2 * (L * B))); [lra|]|].
        - intros j Hj. destruct (Nat.lt_ge_cases j i) as [Hlt|Hge]; [right; exact (IH j Hlt Hj n Hn)|left; apply upper_zero; assumption].
        - apply Rmult_le_compat_r; [lra|]. apply row_sums; exact Hi. }
      replace (2 * B) with (B + B) by ring. apply abs_add_le; [exact (Hc n Hn)|].
      rewrite Rabs_mult, (Rabs_pos_eq h) by lra. apply Rle_trans with (h * (25 * (2 * (L * B)))); [apply Rmult_le_compat_l; lra|].
      replace (h * (25 * (2 * (L * B)))) with (50 * L * h * B) by ring. rewrite <- (Rmult_1_l B) at 2. apply Rmult_le_compat_r; assumption. }
    pose proof (node_time Tend t h Ht Hh Hle i Hi) as (TT & _).
    pose proof (Hlip _ _ _ _ _ TT TT V) as X. rewrite (Rminus_diag_eq (t + dp_c i * h) (t + dp_c i * h)), Rabs_R0, Rplus_0_l in X by reflexivity.
    apply (close_weaken N _ _ _ _ X). lra. }
  assert (E : forall w kk, (forall n, a_yout (inner_step f t h w (f t w)) n = w n + h * rsum 7 (fun i => dp_b i * kk i n)) ->
     a_k3 (inner_step f t h w (f t w)) = kk 2%nat -> a_k4 (inner_step f t h w (f t w)) = kk 3%nat -> a_k5 (inner_step f t h w (f t w)) = kk 4%nat -> a_k6 (inner_step f t h w (f t w)) = kk 5%nat ->
     a_dydxout (inner_step f t h w (f t w)) = kk 6%nat -> kk 0%nat = f t w -> forall j,
     dense_at f t h w th j = w j + h * ((weight a71 d1 th + th * (th - 1) * (th - 1)) * kk 0%nat j + weight a73 d3 th * kk 2%nat j + weight a74 d4 th * kk 3%nat j
       + weight a75 d5 th * kk 4%nat j + weight a76 d6 th * kk 5%nat j + weight7 th * kk 6%nat j)).
  { intros w kk Ey E3 E4 E5 E6 E7 E1 j. unfold dense_at. cbv zeta. rewrite Ey, E3, E4, E5, E6, E7, <- E1. unfold rsum. cbn [seq map fold_right]. unfold dp_b. cbn [dp_a]. unfold weight, weight7. ring. }
  intros j Hj. rewrite (E y k Ky K3 K4 K5 K6 K7 K1), (E z k' Ky' K3' K4' K5' K6' K7' K1'). clear E.
  match goal with |- Rabs (y j + h * ?a - (z j + h * ?b)) <= _ => replace (y j + h * a - (z j + h * b)) with ((y j - z j) + h *
    ((weight a71 d1 th + th * (th - 1) * (th - 1)) * (k 0%nat j - k' 0%nat j) + weight a73 d3 th * (k 2%nat j - k' 2%nat j) + weight a74 d4 th * (k 3%nat j - k' 3%nat j)
       + weight a75 d5 th * (k 4%nat j - k' 4%nat j) + weight a76 d6 th * (k 5%nat j - k' 5%nat j) + weight7 th * (k 6%nat j - k' 6%nat j))) by ring end.
  assert (A71 : Rabs a71 <= 1/10) by (apply Rabs_le; unfold a71; lra). assert (A73 : Rabs a73 <= 45/100) by (apply Rabs_le; unfold a73; lra).
  assert (A74 : Rabs a74 <= 66/100) by (apply Rabs_le; unfold a74; lra). assert (A75 : Rabs a75 <= 33/100) by (apply Rabs_le; unfold a75; lra).
  assert (A76 : Rabs a76 <= 14/100) by (apply Rabs_le; unfold a76; lra).
  assert (D1 : Rabs d1 <= 114/100) by (apply Rabs_le; unfold d1; lra). assert (D3 : Rabs d3 <= 268/100) by (apply Rabs_le; unfold d3; lra).
  assert (D4 : Rabs d4 <= 570/100) by (apply Rabs_le; unfold d4; lra). assert (D5 : Rabs d5 <= 353/100) by (apply Rabs_le; unfold d5; lra).
  assert (D6 : Rabs d6 <= 178/100) by (apply Rabs_le; unfold d6; lra). assert (D7 : Rabs d7 <= 239/100) by (apply Rabs_le; unfold d7; lra).
  pose proof (weight_bound a71 d1 th Hth) as W1. pose proof (weight_bound a73 d3 th Hth) as W3. pose proof (weight_bound a74 d4 th Hth) as W4.
  pose proof (weight_bound a75 d5 th Hth) as W5. pose proof (weight_bound a76 d6 th Hth) as W6. pose proof (weight7_bound th Hth) as W7.
  assert (Hx : Rabs (th * (th - 1) * (th - 1)) <= 1).
  { assert (0 <= th * (1 - th)) by (apply Rmult_le_pos; lra). assert (th * (1 - th) <= 1 * 1) by (apply Rmult_le_compat; lra).
    assert (0 <= th * (1 - th) * (1 - th)) by (apply Rmult_le_pos; lra). assert (th * (1 - th) * (1 - th) <= 1 * 1) by (apply Rmult_le_compat; lra).
    apply Rabs_le. lra. }
  assert (W1' : Rabs (weight a71 d1 th + th * (th - 1) * (th - 1)) <= 134/100 + 1) by (apply abs_add_le; lra).
  set (m := 2 * (L * B)) in *.
  assert (Sum : Rabs ((weight a71 d1 th + th * (th - 1) * (th - 1)) * (k 0%nat j - k' 0%nat j) + weight a73 d3 th * (k 2%nat j - k' 2%nat j) + weight a74 d4 th * (k 3%nat j - k' 3%nat j)
       + weight a75 d5 th * (k 4%nat j - k' 4%nat j) + weight a76 d6 th * (k 5%nat j - k' 5%nat j) + weight7 th * (k 6%nat j - k' 6%nat j))
     <= (134/100 + 1) * m + 358/100 * m + 702/100 * m + 419/100 * m + 206/100 * m + 339/100 * m).
  { repeat apply abs_add_le; (apply abs_mul_le; [lra|apply S; [lia|exact Hj]]). }
  replace (2 * B) with (B + B) by ring. apply abs_add_le; [exact (Hc j Hj)|].
  rewrite Rabs_mult, (Rabs_pos_eq h) by lra. apply Rle_trans with (h * (25 * m)).
  - apply Rmult_le_compat_l; [lra|]. assert (0 <= m) by (unfold m; lra). lra.
  - unfold m. replace (h * (25 * (2 * (L * B)))) with (50 * L * h * B) by ring. rewrite <- (Rmult_1_l B) at 2. apply Rmult_le_compat_r; assumption.
Qed.

Lemma interpolant_dense_at : forall N f t h y yp y' yp' T, reads_components N f -> 0 < h ->
  (forall j, (j < N)%nat -> yp j = f t y j) -> (forall j, (j < N)%nat -> y' j = a_yout (inner_step f t h y yp) j) ->
  (forall j, (j < N)%nat -> yp' j = f (t + h) y' j) ->
  forall j, (j < N)%nat -> interpolant f (t, y, yp) (t + h, y', yp') j T = dense_at f t h y ((T - t) / h) j.
Proof.
  intros N f t h y yp y' yp' T Hf Hh Hyp Hy' Hyp' j Hj.
  assert (X : forall n, (n < N)%nat -> y' n = a_yout (inner_step f t h y (f t y)) n).
  { intros n Hn. rewrite (Hy' n Hn). destruct (inner_step_ext N f t h y y yp (f t y) Hf (fun _ _ => eq_refl) Hyp n Hn) as (Q & _). exact Q. }
  destruct (inner_step_ext N f t h y y yp (f t y) Hf (fun _ _ => eq_refl) Hyp j Hj) as (_ & _ & E3 & E4 & E5 & E6).
  assert (E7 : yp' j = a_dydxout (inner_step f t h y (f t y)) j).
  { rewrite (Hyp' j Hj). exact (Hf (t + h) y' _ X j Hj). }
  unfold interpolant, dense_at. replace (t + h - t) with h by ring. cbv zeta. rewrite E3, E4, E5, E6, E7, (X j Hj), (Hyp j Hj). reflexivity.
Qed.

Lemma order_error_mono : forall N C L H delta t T y z, (1 <= N)%nat -> 0 <= C -> 0 <= L -> 0 <= H -> 0 <= t <= T -> close N (order_error C L H delta t) y z ->
  order_error C L H delta t <= order_error C L H delta T.
Proof.
  intros N C L H delta t T y z HN HC HL HH Ht Hc. pose proof (close_pos N _ _ _ HN Hc) as HD. unfold order_error in *.
  assert (CH : 0 <= C * H ^ 5) by (apply Rmult_le_pos; [exact HC|apply pow_le; exact HH]). set (c := C * H ^ 5) in *.
  assert (LE : 4 * L * t <= 4 * L * T) by (apply Rmult_le_compat_l; lra).
  assert (Hexp : exp (4 * L * t) <= exp (4 * L * T)).
  { destruct (Req_dec (4 * L * t) (4 * L * T)) as [->|Ne]; [lra|]. apply Rlt_le, exp_increasing. lra. }
  pose proof (exp_pos (4 * L * t)) as Pe.
  assert (0 <= delta + c * t) by (apply (Rmult_le_reg_r (exp (4 * L * t))); [exact Pe|rewrite Rmult_0_l; exact HD]).
  assert (c * t <= c * T) by (apply Rmult_le_compat_l; lra).
  apply Rmult_le_compat; lra.
Qed.

Lemma history_order : forall N f Tend L M rho K D J, (1 <= N)%nat -> reads_components N f -> 0 <= Tend -> 0 <= L -> lipschitz N Tend L f -> solves N Tend f (D 0%nat) ->
  derivatives N Tend 6 M D -> smooth_matrix N Tend M J -> 0 < rho -> jacobian N Tend rho K f (D 0%nat) (J 0%nat) ->
  exists C, 0 <= C /\ forall H delta l, 0 <= H -> 50 * L * H <= 1 -> trajectory N f l -> steps_at_most Tend H l -> starts_near N delta (D 0%nat) l ->
    (forall i t y yp, nth_error l i = Some (t, y, yp) -> t <= Tend -> 0 <= t /\ close N (order_error C L H delta t) y (D 0%nat t)) /\
    (forall i p q T, nth_error l i = Some p -> nth_error l (S i) = Some q -> time_of p <= T <= time_of q -> time_of q <= Tend ->
     close N (2 * order_error C L H delta T + C * H ^ 5) (fun j => interpolant f p q j T) (D 0%nat T)).
Proof.
  intros N f Tend L M rho K D J HN Hf HT HL Hlip HY HD HJ Hrho Hjac.
  destruct (step_order N f Tend L M rho K D J HN HT HL Hlip HY HD HJ Hrho Hjac) as (C & HC & Loc).
  exists C. split; [exact HC|]. intros H delta l HH0 HH Ht Hst Hd.
  assert (A : forall i t y yp, nth_error l i = Some (t, y, yp) -> t <= Tend -> 0 <= t /\ close N (order_error C L H delta t) y (D 0%nat t)).
  { unfold order_error. apply (history_accumulates N f Tend L (D 0%nat) H delta (C * H ^ 5) l HN Hf HL Hlip); try assumption.
    - apply Rmult_le_pos; [exact HC|apply pow_le; exact HH0].
    - intros t h Hp Hh Hle. apply (close_weaken N _ _ _ _ (proj1 (Loc t h Hp ltac:(lra) Hle))).
      replace (C * h ^ 6) with (C * h ^ 5 * h) by ring. apply Rmult_le_compat_r; [lra|]. apply Rmult_le_compat_l; [exact HC|]. apply pow_incr. lra. }
  split; [exact A|].
  intros i ((t, y), yp) ((t', y'), yp') T Ep Eq HTT Hle j Hj. unfold time_of in HTT, Hle. cbn [fst] in HTT, Hle.
  destruct (A i t y yp Ep ltac:(lra)) as (Hp & Hc).
  destruct (traj_consecutive N f l Ht i t y yp t' y' yp' Ep Eq) as (Hlt & Hy).
  pose proof (Hst i _ _ Ep Eq Hle) as Hstep. unfold time_of in Hstep. cbn [fst] in Hstep.
  pose proof (traj_derivative N f l Ht t y yp (nth_error_In _ _ Ep)) as Hder.
  pose proof (traj_derivative N f l Ht t' y' yp' (nth_error_In _ _ Eq)) as Hder'.
  remember (t' - t) as h eqn:Eh. assert (Et : t' = t + h) by lra. subst t'. assert (Hh : 0 < h) by lra.
  assert (Hsm : 50 * L * h <= 1) by (apply Rle_trans with (50 * L * H); [apply Rmult_le_compat_l; lra|exact HH]).
  cbv beta. match goal with |- Rabs (?x - _) <= _ => replace x with (dense_at f t h y ((T - t) / h) j) by (symmetry; exact (interpolant_dense_at N f t h y yp y' yp' T Hf Hh Hder Hy Hder' j Hj)) end.
  assert (Hth : 0 <= (T - t) / h <= 1).
  { split; [apply Rmult_le_pos; [lra|apply Rlt_le, Rinv_0_lt_compat; exact Hh]|].
    apply (Rmult_le_reg_r h); [exact Hh|]. unfold Rdiv. rewrite Rmult_assoc, Rinv_l by lra. lra. }
  pose proof (dense_stable N f Tend L t h ((T - t) / h) y (D 0%nat t) _ HN HL Hlip Hp Hh ltac:(lra) Hsm Hth Hc j Hj) as X1.
  pose proof (proj2 (Loc t h Hp Hh ltac:(lra)) _ Hth j Hj) as X2.
  replace (t + (T - t) / h * h) with T in X2 by (field; lra).
  set (x := dense_at f t h y ((T - t) / h) j) in *. set (x0 := dense_at f t h (D 0%nat t) ((T - t) / h) j) in *.
  replace (x - D 0%nat T j) with ((x - x0) + (x0 - D 0%nat T j)) by ring.
  eapply Rle_trans; [exact (abs_add_le _ _ _ _ X1 X2)|].
  pose proof (order_error_mono N C L H delta t T y (D 0%nat t) HN HC HL HH0 ltac:(lra) Hc) as Mono.
  assert (C * h ^ 5 <= C * H ^ 5) by (apply Rmult_le_compat_l; [exact HC|apply pow_incr; lra]). lra.
Qed.
