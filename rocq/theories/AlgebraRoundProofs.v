From Coq Require Import Reals ZArith Lra Lia Psatz PeanoNat.
From Flocq Require Import Core Relative.
From Verif Require Import AlgebraModel AlgebraProofs AlgebraRoundModel RoundSpec AlgebraRoundSpec.
Local Open Scope R_scope.

Lemma half_u : / 2 * bpow radix2 (- 53 + 1) = u64.
Proof. unfold u64. change (-53)%Z with (-1 + (- 53 + 1))%Z. rewrite (bpow_plus radix2 (-1)). reflexivity. Qed.
Lemma half_eta : / 2 * bpow radix2 (-1074) = eta64.
Proof. unfold eta64. change (-1075)%Z with (-1 + -1074)%Z. rewrite (bpow_plus radix2 (-1)). reflexivity. Qed.
Lemma b64_accurate : accurate b64 u64 eta64.
Proof.
  split; [apply bpow_ge_0|]. split; [apply bpow_ge_0|]. intros x.
  destruct (error_N_FLT radix2 (-1074) 53 ltac:(lia) (fun z => negb (Z.even z)) x) as (e & d & E & D & _ & Q).
  unfold b64. change ZnearestE with (Znearest (fun z => negb (Z.even z))). rewrite Q.
  replace (x * (1 + e) + d - x) with (e * x + d) by ring.
  eapply Rle_trans; [apply Rabs_triang|]. rewrite Rabs_mult.
  apply Rplus_le_compat.
  - apply Rmult_le_compat_r; [apply Rabs_pos|]. eapply Rle_trans; [exact E|]. apply Req_le, half_u.
  - eapply Rle_trans; [exact D|]. apply Req_le, half_eta.
Qed.
Lemma x64_accurate : accurate x64 u64 0.
Proof.
  split; [apply bpow_ge_0|]. split; [lra|]. intros x.
  destruct (relative_error_N_FLX_ex radix2 53 ltac:(lia) (fun z => negb (Z.even z)) x) as (e & E & Q).
  unfold x64. change ZnearestE with (Znearest (fun z => negb (Z.even z))). rewrite Q.
  replace (x * (1 + e) - x) with (e * x) by ring. rewrite Rabs_mult, Rplus_0_r.
  apply Rmult_le_compat_r; [apply Rabs_pos|]. eapply Rle_trans; [exact E|]. apply Req_le, half_u.
Qed.

Lemma pow1u : forall u n, 0 <= u -> 1 <= (1 + u) ^ n.
Proof. intros. apply pow_R1_Rle. lra. Qed.
Lemma total_S : forall n g, total (S n) g = total n g + g n. Proof. reflexivity. Qed.
Lemma total_abs_pos : forall n g, 0 <= total n (fun i => Rabs (g i)).
Proof. induction n as [|n IH]; intros; [cbn; lra|]. rewrite total_S. pose proof (IH g). pose proof (Rabs_pos (g n)). lra. Qed.
Lemma total_abs : forall n g, Rabs (total n g) <= total n (fun i => Rabs (g i)).
Proof.
  induction n as [|n IH]; intros; [cbn; rewrite Rabs_R0; lra|]. rewrite !total_S.
  eapply Rle_trans; [apply Rabs_triang|]. pose proof (IH g). lra.
Qed.
Lemma total_ext : forall n g h, (forall i, (i < n)%nat -> g i = h i) -> total n g = total n h.
Proof. induction n as [|n IH]; intros g h H; [reflexivity|]. rewrite !total_S, (IH g h), (H n); [reflexivity|lia|intros; apply H; lia]. Qed.
Lemma growth_pos : forall u n, 0 <= u -> 0 <= growth u n.
Proof. intros. unfold growth. pose proof (pow1u u n H). lra. Qed.
Lemma loop_S : forall S n (b : nat -> S -> S) s, loop (Datatypes.S n) b s = b n (loop n b s). Proof. reflexivity. Qed.

Section Sum.
Variables (rnd : R -> R) (u eta : R).
Hypothesis A : accurate rnd u eta.

(** The accumulation of Dot, Norm and the matrix products. *)
Lemma sum_near : forall n g, near_sum u eta n g (loop n (fun i s => rnd (s + rnd (g i))) 0).
Proof.
  destruct A as (U & E & D). unfold near_sum. induction n as [|n IH]; intros g.
  - cbn [loop total]. unfold lost, growth. cbn [INR]. rewrite Rminus_0_r, Rabs_R0. lra.
  - rewrite loop_S, !total_S. specialize (IH g).
    set (s' := loop n (fun i s => rnd (s + rnd (g i))) 0) in *. set (s := total n g) in *. set (a := total n (fun i => Rabs (g i))) in *.
    pose proof (D (g n)) as Dp. set (p' := rnd (g n)) in *.
    pose proof (D (s' + p')) as Ds. set (t := rnd (s' + p')) in *.
    assert (As : Rabs s <= a) by apply total_abs.
    assert (Pa : 0 <= a) by apply total_abs_pos.
    pose proof (Rabs_pos (g n)) as Pg.
    set (w := 1 + u) in *. 
    assert (Wn : 1 <= w ^ n) by (apply pow1u; exact U).
    assert (T1 : Rabs (t - (s + g n)) <= u * Rabs (s' + p') + eta + Rabs (s' - s) + Rabs (p' - g n)).
    { replace (t - (s + g n)) with ((t - (s' + p')) + ((s' - s) + (p' - g n))) by ring.
      eapply Rle_trans; [apply Rabs_triang|]. pose proof (Rabs_triang (s' - s) (p' - g n)). lra. }
    assert (T2 : Rabs (s' + p') <= a + Rabs (g n) + Rabs (s' - s) + Rabs (p' - g n)).
    { replace (s' + p') with ((s + g n) + ((s' - s) + (p' - g n))) by ring.
      eapply Rle_trans; [apply Rabs_triang|]. pose proof (Rabs_triang (s' - s) (p' - g n)). pose proof (Rabs_triang s (g n)). lra. }
    set (es := Rabs (s' - s)) in *. set (ep := Rabs (p' - g n)) in *.
    assert (T3 : Rabs (t - (s + g n)) <= u * (a + Rabs (g n)) + w * (es + ep) + eta).
    { unfold w. apply (Rmult_le_compat_l u) in T2; [|exact U]. lra. }
    eapply Rle_trans; [exact T3|].
    assert (T4 : w * (es + ep) <= w * (growth u (S n) * a + lost u eta n + (u * Rabs (g n) + eta))).
    { apply Rmult_le_compat_l; [unfold w; lra|]. lra. }
    unfold growth, lost in *. rewrite S_INR. cbn [pow] in *. fold w in T4 |- *.
    set (W := w ^ n) in *.
    assert (Wpos : 0 <= W * eta) by (apply Rmult_le_pos; lra).
    assert (K1 : u * (a + Rabs (g n)) + w * ((w * W - 1) * a + (u * Rabs (g n))) <= (w * (w * W) - 1) * (a + Rabs (g n))).
    { replace ((w * (w * W) - 1) * (a + Rabs (g n)) - (u * (a + Rabs (g n)) + w * ((w * W - 1) * a + u * Rabs (g n))))
        with (a * (w - 1 - u) + Rabs (g n) * (w * w * W - 1 - u - w * u)) in * by ring.
      assert (0 <= Rabs (g n) * (w * w * (W - 1))) by (apply Rmult_le_pos; [lra|]; apply Rmult_le_pos; [nra | lra]).
      unfold w in *. nra. }
    assert (K2 : w * (2 * INR n * W * eta + eta) + eta <= 2 * (INR n + 1) * (w * W) * eta).
    { replace (2 * (INR n + 1) * (w * W) * eta - (w * (2 * INR n * W * eta + eta) + eta)) with (eta * (2 * (w * W) - w - 1)) in * by ring.
      assert (0 <= eta * (2 * (w * W) - w - 1)) by (apply Rmult_le_pos; [exact E|]; unfold w in *; nra).
      nra. }
    lra.
Qed.
Lemma near_sum_ext : forall n g h x, (forall i, (i < n)%nat -> g i = h i) -> near_sum u eta n g x -> near_sum u eta n h x.
Proof.
  intros n g h x H. unfold near_sum. rewrite (total_ext n g h H).
  rewrite (total_ext n (fun i => Rabs (g i)) (fun i => Rabs (h i))); [auto|]. intros i Hi. rewrite (H i Hi). reflexivity.
Qed.
End Sum.

Lemma upd_same : forall v i x, upd v i x i = x. Proof. intros. unfold upd. rewrite Nat.eqb_refl. reflexivity. Qed.
Lemma upd_other : forall v i x j, j <> i -> upd v i x j = v j.
Proof. intros. unfold upd. destruct (Nat.eqb_spec j i); [lia | reflexivity]. Qed.
(** A loop that changes each element once, from its own value. *)
Lemma loop_each : forall n (f : nat -> R -> R) v i, loop n (fun i v => upd v i (f i (v i))) v i = if (i <? n)%nat then f i (v i) else v i.
Proof.
  induction n as [|n IH]; intros f v i; [reflexivity|]. rewrite loop_S.
  destruct (Nat.eq_dec i n) as [-> | NE].
  - rewrite upd_same, IH. replace (n <? n)%nat with false by (symmetry; apply Nat.ltb_ge; lia).
    replace (n <? S n)%nat with true by (symmetry; apply Nat.ltb_lt; lia). reflexivity.
  - rewrite upd_other, IH by exact NE.
    replace (i <? S n)%nat with (i <? n)%nat; [reflexivity|].
    destruct (Nat.ltb_spec i n); symmetry; [apply Nat.ltb_lt | apply Nat.ltb_ge]; lia.
Qed.
(** A loop that stores given values. *)
Lemma loop_store : forall n (f : nat -> R) v i, loop n (fun i v => upd v i (f i)) v i = if (i <? n)%nat then f i else v i.
Proof. intros. apply (loop_each n (fun i _ => f i)). Qed.

Lemma sqrt_near : forall g e x y, 0 <= g -> 0 <= e -> 0 <= x -> 0 <= y -> Rabs (x - y) <= g * y + e ->
  Rabs (sqrt x - sqrt y) <= g * sqrt y + sqrt e.
Proof.
  intros g e x y G E X Y H.
  pose proof (sqrt_pos x). pose proof (sqrt_pos y). pose proof (sqrt_pos e).
  pose proof (sqrt_sqrt x X) as Sx. pose proof (sqrt_sqrt y Y) as Sy. pose proof (sqrt_sqrt e E) as Se.
  set (a := sqrt x) in *. set (b := sqrt y) in *. set (c := sqrt e) in *.
  rewrite <- Sx, <- Sy, <- Se in H. clearbody a b c. clear X Y E Sx Sy Se x y e.
  assert (J1 : a * a - b * b <= g * (b * b) + c * c) by (unfold Rabs in H; destruct (Rcase_abs (a * a - b * b)); lra).
  assert (J2 : b * b - a * a <= g * (b * b) + c * c) by (unfold Rabs in H; destruct (Rcase_abs (a * a - b * b)); lra).
  clear H. apply Rabs_le. split.
  - destruct (Rle_lt_dec (b - a) (g * b + c)) as [L | L]; [lra|]. exfalso.
    assert (Pd : 0 <= g * b) by (apply Rmult_le_pos; assumption).
    assert (c < b) by lra.
    assert (M1 : (g * b + c) * b <= (b - a) * b) by (apply Rmult_le_compat_r; lra).
    assert (M2 : 0 <= (b - a) * a) by (apply Rmult_le_pos; lra).
    assert (M3 : c * c <= c * b) by (apply Rmult_le_compat_l; lra).
    destruct (Rle_lt_or_eq_dec 0 c ltac:(lra)) as [Pc | <-].
    + assert (c * c < c * b) by (apply Rmult_lt_compat_l; lra). nra.
    + assert ((g * b + 0) * b < (b - a) * b) by (apply Rmult_lt_compat_r; lra). nra.
  - destruct (Rle_lt_dec (a - b) (g * b + c)) as [L | L]; [lra|]. exfalso.
    assert (Pd : 0 <= g * b) by (apply Rmult_le_pos; assumption).
    assert (Q : (b + g * b + c) * (b + g * b + c) < a * a) by (apply Rmult_le_0_lt_compat; lra).
    assert (0 <= g * b * b) by (apply Rmult_le_pos; assumption).
    assert (0 <= (g * b) * (g * b)) by (apply Rmult_le_pos; assumption).
    assert (0 <= (g * b) * c) by (apply Rmult_le_pos; assumption).
    assert (0 <= b * c) by (apply Rmult_le_pos; assumption).
    nra.
Qed.

Section Norm.
Variables (rnd : R -> R) (u eta : R).
Hypothesis A : accurate rnd u eta.

Lemma total_sq_abs : forall n (v : cells), total n (fun i => Rabs (v i * v i)) = total n (fun i => v i * v i).
Proof. intros. apply total_ext. intros. apply Rabs_pos_eq. nra. Qed.
Lemma total_sq_pos : forall n (v : cells), 0 <= total n (fun i => v i * v i).
Proof. intros. rewrite <- total_sq_abs. apply total_abs_pos. Qed.
Lemma lost_pos : forall n, 0 <= lost u eta n.
Proof.
  destruct A as (U & E & _). intros n. unfold lost. pose proof (pow1u u n U). pose proof (pos_INR n).
  apply Rmult_le_pos; [|exact E]. apply Rmult_le_pos; lra.
Qed.
(** The norm; the square root of a sum that rounding made negative would be a NaN. *)
Lemma norm_near : forall n v,
  0 <= r_dot rnd n v v ->
  Rabs (r_norm rnd n v - euclid n v)
    <= growth u (n + 2) * euclid n v + ((1 + u) * sqrt (lost u eta n) + eta).
Proof.
  destruct A as (U & E & D). intros n v P.
  pose proof (sum_near rnd u eta A n (fun i => v i * v i)) as SN. unfold near_sum in SN. cbv beta in SN.
  rewrite total_sq_abs in SN. unfold r_norm. unfold r_dot in P.
  set (s' := loop n (fun i s => rnd (s + rnd (v i * v i))) 0) in *.
  pose proof (sqrt_near (growth u (S n)) (lost u eta n) s' (total n (fun i => v i * v i)) (growth_pos u (S n) U) (lost_pos n) P (total_sq_pos n v) SN) as Q.
  fold (euclid n v) in Q. pose proof (D (sqrt s')) as Dn.
  assert (Pe : 0 <= euclid n v) by apply sqrt_pos.
  assert (B : Rabs (sqrt s') <= euclid n v + Rabs (sqrt s' - euclid n v)).
  { replace (sqrt s') with (euclid n v + (sqrt s' - euclid n v)) at 1 by ring.
    eapply Rle_trans; [apply Rabs_triang|]. rewrite (Rabs_pos_eq (euclid n v)) by exact Pe. lra. }
  replace (rnd (sqrt s') - euclid n v) with ((rnd (sqrt s') - sqrt s') + (sqrt s' - euclid n v)) by ring.
  eapply Rle_trans; [apply Rabs_triang|].
  set (q := Rabs (sqrt s' - euclid n v)) in *. set (L := sqrt (lost u eta n)) in *.
  apply (Rmult_le_compat_l u) in B; [|exact U].
  assert (T : (1 + u) * q <= (1 + u) * (growth u (S n) * euclid n v + L)) by (apply Rmult_le_compat_l; lra).
  unfold growth in *. replace (n + 2)%nat with (S (S n)) by lia. cbn [pow] in *. lra.
Qed.
(** Rounding that keeps the sign keeps the sum of squares nonnegative. *)
Lemma dot_self_pos : (forall x, 0 <= x -> 0 <= rnd x) -> forall n v, 0 <= r_dot rnd n v v.
Proof.
  intros S n v. unfold r_dot. induction n as [|n IH]; [cbn; lra|]. rewrite loop_S. apply S.
  apply Rplus_le_le_0_compat; [exact IH | apply S; nra].
Qed.
(** Without underflow a product with the rounded reciprocal is near the quotient. *)
Lemma div_near : forall x s, s <> 0 ->
  Rabs (rnd (x * rnd (1 / s)) - x / s) <= growth u 2 * Rabs (x / s) + ((1 + u) * Rabs x * eta + eta).
Proof.
  destruct A as (U & E & D). intros x s Ns.
  pose proof (D (1 / s)) as D1. set (t := rnd (1 / s)) in *. pose proof (D (x * t)) as D2.
  assert (Q : Rabs (x * t - x / s) <= u * Rabs (x / s) + Rabs x * eta).
  { replace (x * t - x / s) with (x * (t - 1 / s)) by (field; exact Ns). rewrite Rabs_mult.
    replace (x / s) with (x * (1 / s)) by (field; exact Ns). rewrite (Rabs_mult x (1 / s)).
    pose proof (Rmult_le_compat_l (Rabs x) _ _ (Rabs_pos x) D1). lra. }
  assert (B : Rabs (x * t) <= Rabs (x / s) + Rabs (x * t - x / s)).
  { replace (x * t) with (x / s + (x * t - x / s)) at 1 by ring. apply Rabs_triang. }
  replace (rnd (x * t) - x / s) with ((rnd (x * t) - x * t) + (x * t - x / s)) by ring.
  eapply Rle_trans; [apply Rabs_triang|].
  set (q := Rabs (x * t - x / s)) in *. set (r := Rabs (x / s)) in *. set (ax := Rabs x) in *.
  apply (Rmult_le_compat_l u) in B; [|exact U].
  assert (T : (1 + u) * q <= (1 + u) * (u * r + ax * eta)) by (apply Rmult_le_compat_l; lra).
  unfold growth. cbn [pow]. lra.
Qed.
(** The difference of two products. *)
Lemma cross_near : forall a b c d,
  Rabs (rnd (rnd (a * b) - rnd (c * d)) - (a * b - c * d)) <= growth u 2 * (Rabs (a * b) + Rabs (c * d)) + (3 + 2 * u) * eta.
Proof.
  destruct A as (U & E & D). intros a b c d. pose proof (D (a * b)) as D1. pose proof (D (c * d)) as D2.
  set (p := rnd (a * b)) in *. set (q := rnd (c * d)) in *. set (x := a * b) in *. set (y := c * d) in *. pose proof (D (p - q)) as D3.
  assert (B1 : Rabs ((p - q) - (x - y)) <= Rabs (p - x) + Rabs (q - y)).
  { replace ((p - q) - (x - y)) with ((p - x) + - (q - y)) by ring. eapply Rle_trans; [apply Rabs_triang|]. rewrite Rabs_Ropp. lra. }
  assert (B2 : Rabs (p - q) <= Rabs x + Rabs y + Rabs ((p - q) - (x - y))).
  { replace (p - q) with ((x + - y) + ((p - q) - (x - y))) at 1 by ring. eapply Rle_trans; [apply Rabs_triang|].
    pose proof (Rabs_triang x (- y)) as T. rewrite Rabs_Ropp in T. lra. }
  replace (rnd (p - q) - (x - y)) with ((rnd (p - q) - (p - q)) + ((p - q) - (x - y))) by ring.
  eapply Rle_trans; [apply Rabs_triang|]. set (k := Rabs ((p - q) - (x - y))) in *.
  apply (Rmult_le_compat_l u) in B2; [|exact U].
  assert (T : (1 + u) * k <= (1 + u) * (u * Rabs x + eta + (u * Rabs y + eta))) by (apply Rmult_le_compat_l; lra).
  unfold growth. cbn [pow]. lra.
Qed.
End Norm.

Lemma euclid_scale_bounds : forall n (v w : cells) lo hi, 0 <= lo -> 0 <= hi ->
  (forall i, (i < n)%nat -> lo * Rabs (v i) <= Rabs (w i) <= hi * Rabs (v i)) ->
  lo * euclid n v <= euclid n w <= hi * euclid n v.
Proof.
  intros n v w lo hi L H B. unfold euclid.
  assert (Q : lo * lo * total n (fun i => v i * v i) <= total n (fun i => w i * w i) <= hi * hi * total n (fun i => v i * v i)).
  { clear - L H B. induction n as [|n IH]; [cbn; lra|]. rewrite !total_S.
    destruct (IH ltac:(intros; apply B; lia)) as [I1 I2]. destruct (B n ltac:(lia)) as [B1 B2].
    assert (V : v n * v n = Rabs (v n) * Rabs (v n)) by (rewrite <- Rabs_mult; symmetry; apply Rabs_pos_eq; nra).
    assert (W : w n * w n = Rabs (w n) * Rabs (w n)) by (rewrite <- Rabs_mult; symmetry; apply Rabs_pos_eq; nra).
    rewrite V, W. pose proof (Rabs_pos (v n)). pose proof (Rabs_pos (w n)).
    assert (0 <= lo * Rabs (v n)) by (apply Rmult_le_pos; lra).
    assert (lo * Rabs (v n) * (lo * Rabs (v n)) <= Rabs (w n) * Rabs (w n)) by (apply Rmult_le_compat; lra).
    assert (Rabs (w n) * Rabs (w n) <= hi * Rabs (v n) * (hi * Rabs (v n))) by (apply Rmult_le_compat; lra).
    split; lra. }
  destruct Q as [Q1 Q2]. pose proof (total_sq_pos n v) as P.
  rewrite <- (sqrt_square lo) at 1 by exact L. rewrite <- (sqrt_square hi) at 1 by exact H.
  rewrite <- !sqrt_mult by (try exact P; nra). split; apply sqrt_le_1_alt; assumption.
Qed.

(** Integers of at most 53 bits are not rounded. *)
Lemma b64_int : forall z, (Z.abs z <= 2 ^ 53)%Z -> b64 (IZR z) = IZR z.
Proof.
  intros z H. unfold b64. apply round_generic; [apply valid_rnd_N|].
  destruct (Z.eq_dec (Z.abs z) (2 ^ 53)) as [E | NE].
  - assert (G : generic_format radix2 (FLT_exp (-1074) 53) (bpow radix2 53)) by (apply generic_format_bpow; vm_compute; intros X; discriminate X).
    assert (C : z = (2 ^ 53)%Z \/ z = (- 2 ^ 53)%Z) by lia. destruct C as [-> | ->].
    + exact G.
    + change (IZR (- 2 ^ 53)) with (- bpow radix2 53). apply generic_format_opp. exact G.
  - apply generic_format_FLT. exists (Float radix2 z 0); cbn [Fnum Fexp].
    + unfold F2R. cbn. ring.
    + change (Zpower radix2 53) with (2 ^ 53)%Z. lia.
    + lia.
Qed.
