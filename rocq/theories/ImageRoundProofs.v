(** Proofs about colours computed with rounding. *)
From Coq Require Import Reals Lra Lia.
From Flocq Require Import Core Relative Plus_error.
From Verif Require Import Base RoundSpec RoundProofs ImageModel ImageSpec ImageRoundModel ImageRoundSpec.
Local Open Scope R_scope.

Lemma div_le : forall a b c, 0 < b -> a <= c * b -> a / b <= c.
Proof. intros a b c B H. apply Rmult_le_reg_r with b; [ exact B |]. unfold Rdiv. rewrite Rmult_assoc, Rinv_l by lra. lra. Qed.
Lemma div_lt : forall a b c, 0 < b -> a < c * b -> a / b < c.
Proof. intros a b c B H. apply Rmult_lt_reg_r with b; [ exact B |]. unfold Rdiv. rewrite Rmult_assoc, Rinv_l by lra. lra. Qed.
Lemma div_1 : forall x, x / 1 = x. Proof. intros x. field. Qed.
Local Instance prec53 : Prec_gt_0 53. Proof. reflexivity. Qed.
Definition u64 : R := bpow radix2 (-53).
Definition n64 : R := bpow radix2 (-1075).
Lemma u64_pos : 0 < u64. Proof. apply bpow_gt_0. Qed.
Lemma n64_pos : 0 < n64. Proof. apply bpow_gt_0. Qed.
Lemma n64_u64 : n64 <= u64 / 1024.
Proof. replace 1024 with (bpow radix2 10) by (simpl; lra). unfold Rdiv. rewrite <- bpow_opp. unfold n64, u64. rewrite <- bpow_plus. apply bpow_le. lia. Qed.
Lemma u64_val : u64 = / 9007199254740992. Proof. unfold u64. simpl. lra. Qed.

Lemma b64_err : forall x m, Rabs x <= m -> Rabs (b64 x - x) <= u64 * m + n64.
Proof.
  intros x m H. destruct (error_N_FLT radix2 (-1074) 53 eq_refl (fun x => negb (Z.even x)) x) as (e & n & E & N & _ & Q).
  fold (b64 x) in Q. replace (b64 x - x) with (x * e + n) by (rewrite Q; ring).
  assert (V : / 2 * bpow radix2 (- (53) + 1) = u64) by (unfold u64; simpl; lra). rewrite V in E.
  replace (/ 2 * bpow radix2 (-1074)) with n64 in N.
  2:{ unfold n64. replace (-1075)%Z with (-1 + -1074)%Z by lia. rewrite bpow_plus. simpl (bpow radix2 (-1)). reflexivity. }
  eapply Rle_trans; [ apply Rabs_triang |]. apply Rplus_le_compat; [| exact N ].
  rewrite Rabs_mult, Rmult_comm. apply Rmult_le_compat; [ apply Rabs_pos | apply Rabs_pos | exact E | exact H ].
Qed.
Lemma b64_range : forall x lo hi, b64 lo = lo -> b64 hi = hi -> lo <= x <= hi -> lo <= b64 x <= hi.
Proof. intros x lo hi L H [A B]. split; [ rewrite <- L | rewrite <- H ]; now apply b64_le. Qed.
Lemma b64_int : forall z, (Z.abs z < 2 ^ 53)%Z -> b64 (IZR z) = IZR z.
Proof. intros z H. rewrite <- (Rmult_1_r (IZR z)). change 1 with (bpow radix2 0). apply b64_float; [ exact H | lia ]. Qed.

Lemma mix_close : forall f a b h, 0 <= f <= 1 -> (0 <= a <= h)%Z -> (0 <= b <= h)%Z -> (1 <= h < 2 ^ 32)%Z ->
  0 <= mix_rnd b64 (b64 f) a b /\
  Rabs (mix_rnd b64 (b64 f) a b - ((1 - f) * IZR a + f * IZR b)) <= IZR h * bpow radix2 (-49).
Proof.
  intros f a b h F A B H.
  assert (A' : 0 <= IZR a <= IZR h) by (split; now apply IZR_le).
  assert (B' : 0 <= IZR b <= IZR h) by (split; now apply IZR_le).
  assert (H' : 1 <= IZR h) by (apply IZR_le; lia).
  set (A0 := IZR a) in *. set (B0 := IZR b) in *. set (H0 := IZR h) in *.
  pose proof (b64_range f 0 1 b64_0 b64_1 F) as F1.
  pose proof (b64_err f 1 ltac:(rewrite Rabs_pos_eq; lra)) as F2.
  set (f' := b64 f) in *.
  pose proof (b64_range (1 - f') 0 1 b64_0 b64_1 ltac:(lra)) as G1.
  pose proof (b64_err (1 - f') 1 ltac:(rewrite Rabs_pos_eq; lra)) as G2.
  unfold mix_rnd. fold A0 B0. set (g := b64 (1 - f')) in *.
  assert (GA : 0 <= g * A0 <= H0) by nra. assert (FB : 0 <= f' * B0 <= H0) by nra.
  pose proof (b64_pos _ (proj1 GA)) as P1. pose proof (b64_err (g * A0) H0 ltac:(rewrite Rabs_pos_eq; lra)) as P2.
  pose proof (b64_pos _ (proj1 FB)) as Q1. pose proof (b64_err (f' * B0) H0 ltac:(rewrite Rabs_pos_eq; lra)) as Q2.
  set (p := b64 (g * A0)) in *. set (q := b64 (f' * B0)) in *.
  pose proof u64_pos as U1. pose proof n64_pos as U2. pose proof n64_u64 as U3. pose proof u64_val as U4.
  apply Rabs_le_inv in F2. apply Rabs_le_inv in G2. apply Rabs_le_inv in P2. apply Rabs_le_inv in Q2.
  assert (N : n64 * H0 <= u64 * H0 / 1024).
  { replace (u64 * H0 / 1024) with (u64 / 1024 * H0) by field. apply Rmult_le_compat_r; lra. }
  assert (N1 : n64 <= n64 * H0) by (rewrite <- (Rmult_1_r n64) at 1; apply Rmult_le_compat_l; lra).
  assert (Uh : 0 < u64 * H0) by (apply Rmult_lt_0_compat; lra).
  assert (Uk : u64 * H0 <= / 100 * H0) by (apply Rmult_le_compat_r; lra).
  assert (S1 : 0 <= p + q <= 3 * H0) by lra.
  pose proof (b64_pos _ (proj1 S1)) as R1.
  pose proof (b64_err (p + q) (3 * H0) ltac:(rewrite Rabs_pos_eq; lra)) as R2. apply Rabs_le_inv in R2.
  split; [ exact R1 |].
  replace (bpow radix2 (-49)) with (16 * u64) by (unfold u64; simpl; lra).
  assert (X : Rabs ((g - (1 - f')) * A0) <= (u64 * 1 + n64) * H0).
  { rewrite Rabs_mult, (Rabs_pos_eq A0) by lra. apply Rmult_le_compat; try lra; [ apply Rabs_pos | apply Rabs_le; lra ]. }
  assert (Y : Rabs ((f - f') * A0) <= (u64 * 1 + n64) * H0).
  { rewrite Rabs_mult, (Rabs_pos_eq A0) by lra. apply Rmult_le_compat; try lra; [ apply Rabs_pos | apply Rabs_le; lra ]. }
  assert (Z : Rabs ((f' - f) * B0) <= (u64 * 1 + n64) * H0).
  { rewrite Rabs_mult, (Rabs_pos_eq B0) by lra. apply Rmult_le_compat; try lra; [ apply Rabs_pos | apply Rabs_le; lra ]. }
  apply Rabs_le_inv in X. apply Rabs_le_inv in Y. apply Rabs_le_inv in Z.
  apply Rabs_le.
  replace (b64 (p + q) - ((1 - f) * A0 + f * B0)) with
    ((b64 (p + q) - (p + q)) + (p - g * A0) + (q - f' * B0) + (g - (1 - f')) * A0 + (f - f') * A0 + (f' - f) * B0) by ring.
  set (w1 := b64 (p + q) - (p + q)) in *. set (w2 := p - g * A0) in *. set (w3 := q - f' * B0) in *.
  set (w4 := (g - (1 - f')) * A0) in *. set (w5 := (f - f') * A0) in *. set (w6 := (f' - f) * B0) in *.
  lra.
Qed.

(** * The position in the table *)
Definition pos_rnd (n : nat) (a b v : R) : R := b64 (b64 (b64 (v - a) / b) * IZR (Z.of_nat n - 1)).

Lemma pos_close : forall n a b v, (1 <= n)%nat -> (Z.of_nat n < 2 ^ 31)%Z -> b <> 0 -> b64 v = v -> b64 a = a ->
  let x := (v - a) / b * IZR (Z.of_nat n - 1) in
  Rabs (pos_rnd n a b v - x) <= Rabs x * bpow radix2 (-51) + bpow radix2 (-1000).
Proof.
  intros n a b v N1 N2 B V A x. unfold pos_rnd.
  assert (M : 0 <= IZR (Z.of_nat n - 1) <= bpow radix2 31).
  { split; [ apply IZR_le; lia |]. change (bpow radix2 31) with (IZR (2 ^ 31)). apply IZR_le. lia. }
  set (m := IZR (Z.of_nat n - 1)) in *.
  assert (Fa : generic_format radix2 (FLT_exp (-1074) 53) (- a)) by (apply generic_format_opp, fmt_of, A).
  destruct (FLT_plus_error_N_ex radix2 (-1074) 53 (fun x => negb (Z.even x)) v (- a) (fmt_of _ V) Fa) as (e1 & E1 & Q1).
  fold (b64 (v + - a)) in Q1. change (v + - a) with (v - a) in Q1. rewrite Q1. clear Q1.
  assert (E1' : Rabs e1 <= u64).
  { eapply Rle_trans; [ exact E1 |]. assert (V1 : u_ro radix2 53 = u64) by (unfold u_ro, u64; simpl; lra). rewrite V1.
    pose proof u64_pos. apply div_le; [ lra |]. nra. }
  clear E1.
  pose proof u64_pos as U1. pose proof u64_val as U4.
  destruct (error_N_FLT radix2 (-1074) 53 eq_refl (fun x => negb (Z.even x)) ((v - a) * (1 + e1) / b)) as (e2 & n2 & E2 & N2' & _ & Q2).
  fold (b64 ((v - a) * (1 + e1) / b)) in Q2. rewrite Q2. clear Q2.
  destruct (error_N_FLT radix2 (-1074) 53 eq_refl (fun x => negb (Z.even x)) (((v - a) * (1 + e1) / b * (1 + e2) + n2) * m)) as (e3 & n3 & E3 & N3' & _ & Q3).
  fold (b64 (((v - a) * (1 + e1) / b * (1 + e2) + n2) * m)) in Q3. rewrite Q3. clear Q3.
  assert (V1 : / 2 * bpow radix2 (- (53) + 1) = u64) by (unfold u64; simpl; lra). rewrite V1 in E2, E3. clear V1.
  assert (V2 : / 2 * bpow radix2 (-1074) = n64).
  { unfold n64. replace (-1075)%Z with (-1 + -1074)%Z by lia. rewrite bpow_plus. simpl (bpow radix2 (-1)). reflexivity. }
  rewrite V2 in N2', N3'. clear V2.
  replace ((((v - a) * (1 + e1) / b * (1 + e2) + n2) * m) * (1 + e3) + n3 - x) with
    (x * ((1 + e1) * (1 + e2) * (1 + e3) - 1) + (n2 * (m * (1 + e3)) + n3)) by (unfold x; field; exact B).
  apply Rabs_le_inv in E1'. apply Rabs_le_inv in E2. apply Rabs_le_inv in E3.
  eapply Rle_trans; [ apply Rabs_triang |]. apply Rplus_le_compat.
  - rewrite Rabs_mult. apply Rmult_le_compat_l; [ apply Rabs_pos |].
    replace (bpow radix2 (-51)) with (4 * u64) by (unfold u64; simpl; lra).
    assert (W : Rabs ((1 + e1) * (1 + e2) - 1) <= 2 * u64 + u64 * u64) by (apply Rabs_le; nra).
    replace ((1 + e1) * (1 + e2) * (1 + e3) - 1) with (((1 + e1) * (1 + e2) - 1) + ((1 + e1) * (1 + e2)) * e3) by ring.
    apply Rabs_le_inv in W.
    assert (W2 : Rabs ((1 + e1) * (1 + e2) * e3) <= (1 + 3 * u64) * u64).
    { rewrite Rabs_mult. apply Rmult_le_compat; try apply Rabs_pos; apply Rabs_le; nra. }
    apply Rabs_le_inv in W2. apply Rabs_le. nra.
  - eapply Rle_trans; [ apply Rabs_triang |].
    assert (W : Rabs (n2 * (m * (1 + e3))) <= n64 * bpow radix2 32).
    { rewrite Rabs_mult. apply Rmult_le_compat; try apply Rabs_pos; [ exact N2' |].
      rewrite Rabs_pos_eq by nra. replace (bpow radix2 32) with (bpow radix2 31 * 2) by (simpl; lra). apply Rmult_le_compat; lra. }
    apply Rle_trans with (n64 * bpow radix2 32 + n64 * bpow radix2 32).
    + apply Rplus_le_compat; [ exact W |]. eapply Rle_trans; [ exact N3' |]. pose proof n64_pos. simpl (bpow radix2 32). nra.
    + unfold n64. rewrite <- bpow_plus. apply Rle_trans with (bpow radix2 (-1000 - 1) + bpow radix2 (-1000 - 1)).
      * apply Rplus_le_compat; apply bpow_le; lia.
      * replace (-1000)%Z with (-1000 - 1 + 1)%Z at 3 by lia. rewrite (bpow_plus radix2 (-1000 - 1) 1). change (bpow radix2 1) with 2. lra.
Qed.

Lemma eval_rnd_ok : forall t a b v c, (1 <= length t)%nat -> (Z.of_nat (length t) < 2 ^ 31)%Z -> eval_rnd b64 t a b v = Ok c ->
  b <> 0 /\
  let i := pos_rnd (length t) a b v in
  ((Z.of_nat (length t) - 1 <= Zfloor i)%Z /\ nth_error t (length t - 1) = Some c \/
   (Zfloor i < Z.of_nat (length t) - 1)%Z /\ (Zfloor i < 0)%Z /\ nth_error t 0 = Some c \/
   (0 <= Zfloor i < Z.of_nat (length t) - 1)%Z /\
   exists p q, nth_error t (Z.to_nat (Zfloor i)) = Some p /\ nth_error t (Z.to_nat (Zfloor i) + 1) = Some q /\
     let f := b64 (i - IZR (Zfloor i)) in
     red c = Ztrunc (mix_rnd b64 f (red p) (red q)) /\ green c = Ztrunc (mix_rnd b64 f (green p) (green q)) /\
     blue c = Ztrunc (mix_rnd b64 f (blue p) (blue q))).
Proof.
  intros t a b v c N1 N2. unfold eval_rnd.
  destruct (Req_EM_T b 0) as [ E | E ]; [ discriminate |]. intros H. split; [ exact E |]. revert H.
  assert (U : u32 (Z.of_nat (length t)) = Z.of_nat (length t)) by (unfold u32; apply Z.mod_small; lia).
  rewrite U. assert (U' : u32 (Z.of_nat (length t) - 1) = (Z.of_nat (length t) - 1)%Z) by (unfold u32; apply Z.mod_small; lia).
  rewrite U'. assert (T : to_int (Z.of_nat (length t)) = Z.of_nat (length t)).
  { unfold to_int. destruct (Z.ltb_spec (Z.of_nat (length t)) (2 ^ 31)); [ reflexivity | lia ]. }
  rewrite T. unfold finite_result.
  destruct (Rlt_dec _ _); [| discriminate ]. cbn [obind].
  destruct (Rlt_dec _ _); [| discriminate ]. cbn [obind].
  destruct (Rlt_dec _ _); [| discriminate ]. cbn [obind].
  fold (pos_rnd (length t) a b v). cbv zeta. set (i := pos_rnd (length t) a b v).
  unfold double_to_int. destruct (_ && _)%bool eqn:D; [| discriminate ]. cbn [obind].
  destruct (Z.leb_spec (Z.of_nat (length t) - 1) (Zfloor i)) as [ L | L ].
  - unfold color_at. destruct (Z.ltb_spec (Z.of_nat (length t) - 1) 0); [ discriminate |].
    replace (Z.to_nat (Z.of_nat (length t) - 1)) with (length t - 1)%nat by lia.
    destruct (nth_error t (length t - 1)) eqn:Q; [| discriminate ]. intros H1. left. split; [ exact L | congruence ].
  - destruct (Z.ltb_spec (Zfloor i) 0) as [ M | M ].
    + unfold color_at. cbn [Z.ltb Z.compare Z.to_nat]. destruct (nth_error t 0) eqn:Q; [| discriminate ].
      intros H1. right; left. split; [ exact L | split; [ exact M | congruence ] ].
    + unfold color_at. destruct (Z.ltb_spec (Zfloor i) 0); [ lia |].
      destruct (nth_error t (Z.to_nat (Zfloor i))) as [ p |] eqn:P; [| discriminate ]. cbn [obind].
      destruct (Z.ltb_spec (Zfloor i + 1) 0); [ lia |].
      replace (Z.to_nat (Zfloor i + 1)) with (Z.to_nat (Zfloor i) + 1)%nat by lia.
      destruct (nth_error t (Z.to_nat (Zfloor i) + 1)) as [ q |] eqn:Q; [| discriminate ]. cbn [obind].
      unfold double_to_unsigned.
      do 3 (match goal with |- context [if ?x then Ok _ else UB] => destruct x; [| discriminate ]; cbn [obind] end).
      intros H1. injection H1 as <-. right; right. split; [ lia |]. exists p, q. cbn [red green blue]. auto.
Qed.

Lemma frac_range : forall i, 0 <= i - IZR (Zfloor i) < 1.
Proof. intros i. pose proof (Zfloor_lb i). pose proof (Zfloor_ub i). lra. Qed.
Lemma eps_small : forall h, (1 <= h < 2 ^ 32)%Z -> IZR h * bpow radix2 (-49) <= / 2.
Proof.
  intros h H. assert (IZR h <= bpow radix2 32) by (change (bpow radix2 32) with (IZR (2 ^ 32)); apply IZR_le; lia).
  apply Rle_trans with (bpow radix2 32 * bpow radix2 (-49)).
  - apply Rmult_le_compat_r; [ apply bpow_ge_0 | assumption ].
  - rewrite <- bpow_plus. change (/ 2) with (bpow radix2 (-1)). apply bpow_le. lia.
Qed.

Lemma mix_near : forall f a b h, 0 <= f <= 1 -> (0 <= a <= h)%Z -> (0 <= b <= h)%Z -> (1 <= h < 2 ^ 32)%Z ->
  near_mix (IZR h * bpow radix2 (-49)) f a b (Ztrunc (mix_rnd b64 (b64 f) a b)).
Proof.
  intros f a b h F A B H. destruct (mix_close f a b h F A B H) as [ P C ].
  exists (mix_rnd b64 (b64 f) a b). split; [ exact C |]. rewrite (Ztrunc_floor _ P).
  split; [ apply Zfloor_lb | apply Zfloor_ub ].
Qed.
Lemma near_range : forall eps f a b c lo hi, eps <= / 2 -> 0 <= f <= 1 -> (lo <= a <= hi)%Z -> (lo <= b <= hi)%Z ->
  near_mix eps f a b c -> (lo - 1 <= c <= hi)%Z.
Proof.
  intros eps f a b c lo hi E F [ A1 A2 ] [ B1 B2 ] (r & C & L & U). apply Rabs_le_inv in C.
  apply IZR_le in A1. apply IZR_le in A2. apply IZR_le in B1. apply IZR_le in B2.
  split.
  - assert (IZR (lo - 2) < IZR c); [ rewrite minus_IZR; nra |]. apply lt_IZR in H. lia.
  - assert (IZR c < IZR (hi + 1)); [ rewrite plus_IZR; nra |]. apply lt_IZR in H. lia.
Qed.
Lemma trunc_pos : forall f a b h, 0 <= f <= 1 -> (0 <= a <= h)%Z -> (0 <= b <= h)%Z -> (1 <= h < 2 ^ 32)%Z ->
  (0 <= Ztrunc (mix_rnd b64 (b64 f) a b) <= h)%Z.
Proof.
  intros f a b h F A B H. pose proof (mix_near f a b h F A B H) as N.
  pose proof (near_range _ _ _ _ _ _ _ (eps_small h H) F A B N). destruct (mix_close f a b h F A B H) as [ P _ ].
  rewrite (Ztrunc_floor _ P) in *. split; [| lia ]. apply Zfloor_lub. exact P.
Qed.

Definition in_table (lo hi : Z) (t : list color) : Prop := forall p, In p t -> components_in lo hi p.

Lemma close_proof : forall t a b v c hi, (1 <= length t)%nat -> (Z.of_nat (length t) < 2 ^ 31)%Z -> b64 v = v -> b64 a = a ->
  (1 <= hi < 2 ^ 32)%Z -> in_table 0 hi t -> eval_rnd b64 t a b v = Ok c ->
  let x := (v - a) / b * IZR (Z.of_nat (length t) - 1) in
  let i := pos_rnd (length t) a b v in Rabs (i - x) <= Rabs x * bpow radix2 (-51) + bpow radix2 (-1000) /\
    (IZR (Z.of_nat (length t) - 1) <= i -> nth_error t (length t - 1) = Some c) /\
    (i < 0 -> nth_error t 0 = Some c) /\
    (forall k p q, nth_error t k = Some p -> nth_error t (k + 1) = Some q -> INR k <= i < INR k + 1 ->
       near_blend (IZR hi * bpow radix2 (-49)) (i - INR k) p q c).
Proof.
  intros t a b v c hi N1 N2 V A H T E x. destruct (eval_rnd_ok t a b v c N1 N2 E) as [ B D ].
  intro i0. split; [ exact (pos_close (length t) a b v N1 N2 B V A) |]. subst i0.
  cbv zeta in D. set (i := pos_rnd (length t) a b v) in *. pose proof (Zfloor_lb i) as L. pose proof (Zfloor_ub i) as U.
  destruct D as [ [ D1 D2 ] | [ (D0 & D1 & D2) | (D1 & p & q & P & Q & R1 & R2 & R3) ] ].
  - apply IZR_le in D1. assert (0 <= IZR (Z.of_nat (length t) - 1)) by (apply IZR_le; lia).
    split; [ auto | split; [ intros; lra |] ]. intros k p q _ Q [ K1 K2 ]. exfalso.
    assert (K : (k + 1 < length t)%nat) by (apply nth_error_Some; congruence).
    assert (INR k + 1 <= IZR (Z.of_nat (length t) - 1)); [| lra ].
    rewrite INR_IZR_INZ. rewrite <- plus_IZR. apply IZR_le. lia.
  - assert (I0 : i < 0). { assert (IZR (Zfloor i) <= IZR (-1)) by (apply IZR_le; lia). lra. }
    assert (0 <= IZR (Z.of_nat (length t) - 1)) by (apply IZR_le; lia).
    split; [ intros; lra | split; [ auto |] ]. intros k p q _ Q [ K1 K2 ]. pose proof (pos_INR k). lra.
  - split; [ intros K | split; [ intros K |] ].
    + exfalso. assert (IZR (Zfloor i + 1) <= IZR (Z.of_nat (length t) - 1)) by (apply IZR_le; lia). rewrite plus_IZR in *. lra.
    + exfalso. assert (IZR 0 <= IZR (Zfloor i)) by (apply IZR_le; lia). lra.
    + intros k p' q' P' Q' [ K1 K2 ].
      assert (K : Zfloor i = Z.of_nat k).
      { apply Zfloor_imp. rewrite plus_IZR, <- INR_IZR_INZ. auto. }
      rewrite K, Nat2Z.id in *. rewrite P in P'. injection P' as ->. rewrite Q in Q'. injection Q' as ->.
      destruct (T _ (nth_error_In _ _ P)) as (P1 & P2 & P3). destruct (T _ (nth_error_In _ _ Q)) as (Q1 & Q2 & Q3).
      rewrite <- INR_IZR_INZ in *.
      assert (F : 0 <= i - INR k <= 1) by lra.
      unfold near_blend. rewrite R1, R2, R3. auto using mix_near.
Qed.

Lemma range_proof : forall t a b v c lo hi, (1 <= length t)%nat -> (Z.of_nat (length t) < 2 ^ 31)%Z ->
  (0 <= lo)%Z -> (1 <= hi < 2 ^ 32)%Z -> in_table lo hi t -> eval_rnd b64 t a b v = Ok c ->
  components_in (Z.max 0 (lo - 1)) hi c.
Proof.
  intros t a b v c lo hi N1 N2 Lo H T E. destruct (eval_rnd_ok t a b v c N1 N2 E) as [ _ D ]. cbv zeta in D.
  set (i := pos_rnd (length t) a b v) in *.
  assert (W : forall k, nth_error t k = Some c -> components_in (Z.max 0 (lo - 1)) hi c).
  { intros k K. destruct (T _ (nth_error_In _ _ K)) as (P1 & P2 & P3). unfold components_in. lia. }
  destruct D as [ [ D1 D2 ] | [ (D0 & D1 & D2) | (D1 & p & q & P & Q & R1 & R2 & R3) ] ]; eauto.
  destruct (T _ (nth_error_In _ _ P)) as (P1 & P2 & P3). destruct (T _ (nth_error_In _ _ Q)) as (Q1 & Q2 & Q3).
  assert (F : 0 <= i - IZR (Zfloor i) <= 1) by (pose proof (frac_range i); lra).
  assert (G : forall a b, (lo <= a <= hi)%Z -> (lo <= b <= hi)%Z ->
    (Z.max 0 (lo - 1) <= Ztrunc (mix_rnd b64 (b64 (i - IZR (Zfloor i))) a b) <= hi)%Z).
  { intros a0 b0 A0 B0. pose proof (trunc_pos _ a0 b0 hi F ltac:(lia) ltac:(lia) H).
    pose proof (near_range _ _ _ _ _ lo hi (eps_small hi H) F A0 B0 (mix_near _ a0 b0 hi F ltac:(lia) ltac:(lia) H)). lia. }
  unfold components_in. rewrite R1, R2, R3. auto.
Qed.

(** * Rounding a dyadic number *)
Lemma b64_shift : forall z e k, (2 ^ 52 * 2 ^ k <= z < 2 ^ 53 * 2 ^ k)%Z -> (0 < k)%Z -> (-1074 <= e + k)%Z ->
  b64 (IZR z * bpow radix2 e) =
  IZR (let q := z / 2 ^ k in let r := z mod 2 ^ k in
       if (2 * r <? 2 ^ k) then q else if (2 * r =? 2 ^ k) then (if Z.even q then q else q + 1) else q + 1)%Z * bpow radix2 (e + k).
Proof.
  intros z e k Hz K E.
  assert (K2 : (0 < 2 ^ k)%Z) by (apply Z.pow_pos_nonneg; lia).
  assert (BK : bpow radix2 k = IZR (2 ^ k)) by (rewrite <- (IZR_Zpower radix2) by lia; reflexivity).
  assert (B52 : bpow radix2 52 = IZR (2 ^ 52)) by (rewrite <- (IZR_Zpower radix2) by lia; reflexivity).
  assert (B53 : bpow radix2 53 = IZR (2 ^ 53)) by (rewrite <- (IZR_Zpower radix2) by lia; reflexivity).
  assert (M : (mag radix2 (IZR z * bpow radix2 e) = 53 + k + e :> Z)%Z).
  { apply mag_unique. rewrite Rabs_pos_eq.
    2:{ apply Rmult_le_pos; [ apply IZR_le; lia | apply bpow_ge_0 ]. }
    replace (53 + k + e - 1)%Z with (52 + k + e)%Z by lia. rewrite !bpow_plus, BK, B52, B53, <- !mult_IZR.
    split; [ apply Rmult_le_compat_r; [ apply bpow_ge_0 | apply IZR_le; lia ] | apply Rmult_lt_compat_r; [ apply bpow_gt_0 | apply IZR_lt; lia ] ]. }
  unfold b64, round, F2R. cbn [Fnum Fexp]. unfold scaled_mantissa, cexp. rewrite M.
  replace (FLT_exp (-1074) 53 (53 + k + e)) with (e + k)%Z by (unfold FLT_exp; lia). f_equal.
  rewrite Rmult_assoc, <- bpow_plus. replace (e + - (e + k))%Z with (- k)%Z by lia.
  rewrite bpow_opp, BK. change (IZR z * / IZR (2 ^ k)) with (IZR z / IZR (2 ^ k)).
  assert (K3 : 0 < IZR (2 ^ k)) by now apply IZR_lt.
  unfold Znearest. rewrite Zfloor_div by lia.
  assert (R1 : IZR z / IZR (2 ^ k) - IZR (z / 2 ^ k) = IZR (z mod 2 ^ k) / IZR (2 ^ k)).
  { rewrite Z.mod_eq by lia. rewrite minus_IZR, mult_IZR. field. lra. }
  rewrite R1. cbv zeta. pose proof (Z.mod_pos_bound z (2 ^ k) K2) as Mb.
  assert (C : Rcompare (IZR (z mod 2 ^ k) / IZR (2 ^ k)) (/ 2) = (2 * (z mod 2 ^ k) ?= 2 ^ k)%Z).
  { replace (IZR (z mod 2 ^ k) / IZR (2 ^ k)) with (IZR (2 * (z mod 2 ^ k)) * (/ (2 * IZR (2 ^ k)))).
    2:{ rewrite mult_IZR. field. lra. }
    assert (Hf : / 2 = IZR (2 ^ k) * / (2 * IZR (2 ^ k))) by (field; lra). rewrite Hf.
    rewrite Rcompare_mult_r; [ apply Rcompare_IZR |]. apply Rinv_0_lt_compat. lra. }
  rewrite C.
  assert (Ce : (z mod 2 ^ k <> 0)%Z -> Zceil (IZR z / IZR (2 ^ k)) = (z / 2 ^ k + 1)%Z).
  { intros N. apply Zceil_imp. replace (z / 2 ^ k + 1 - 1)%Z with (z / 2 ^ k)%Z by lia.
    assert (D0 : 0 < IZR (z mod 2 ^ k) / IZR (2 ^ k)) by (apply Rdiv_lt_0_compat; [ apply IZR_lt; lia | lra ]).
    assert (D1 : IZR (z mod 2 ^ k) / IZR (2 ^ k) < 1) by (apply div_lt; [ lra | rewrite Rmult_1_l; apply IZR_lt; lia ]).
    rewrite plus_IZR. lra. }
  destruct (Z.compare_spec (2 * (z mod 2 ^ k)) (2 ^ k)) as [ Q | Q | Q ].
  - rewrite Q, Z.ltb_irrefl, Z.eqb_refl. rewrite Ce by lia. destruct (Z.even (z / 2 ^ k)); reflexivity.
  - apply Z.ltb_lt in Q. rewrite Q. reflexivity.
  - rewrite Ce by lia. destruct (Z.ltb_spec (2 * (z mod 2 ^ k)) (2 ^ k)); [ lia |].
    destruct (Z.eqb_spec (2 * (z mod 2 ^ k)) (2 ^ k)); [ lia | reflexivity ].
Qed.

(** * Between two equal components *)
Lemma tie_up : forall c k, (0 <= k <= 31)%Z -> (2 ^ k < c < 2 ^ (k + 1))%Z -> b64 (IZR c - bpow radix2 (k - 53)) = IZR c.
Proof.
  intros c k K C. set (C2 := (c * 2 ^ (52 - k))%Z).
  assert (P : (0 < 2 ^ (52 - k))%Z) by (apply Z.pow_pos_nonneg; lia).
  assert (B : bpow radix2 (52 - k) = IZR (2 ^ (52 - k))) by (rewrite <- (IZR_Zpower radix2) by lia; reflexivity).
  assert (E1 : IZR c - bpow radix2 (k - 53) = IZR (2 * C2 - 1) * bpow radix2 (k - 53)).
  { rewrite minus_IZR, mult_IZR. unfold C2. rewrite mult_IZR, <- B.
    replace ((2 * (IZR c * bpow radix2 (52 - k)) - 1) * bpow radix2 (k - 53)) with
      (IZR c * (bpow radix2 1 * bpow radix2 (52 - k) * bpow radix2 (k - 53)) - bpow radix2 (k - 53)) by (change (bpow radix2 1) with 2; ring).
    rewrite <- !bpow_plus. replace (1 + (52 - k) + (k - 53))%Z with 0%Z by lia. change (bpow radix2 0) with 1. ring. }
  assert (S52 : (2 ^ 52 = 2 ^ k * 2 ^ (52 - k))%Z) by (rewrite <- Z.pow_add_r by lia; f_equal; lia).
  assert (S53 : (2 ^ 53 = 2 ^ (k + 1) * 2 ^ (52 - k))%Z) by (rewrite <- Z.pow_add_r by lia; f_equal; lia).
  rewrite E1, (b64_shift (2 * C2 - 1) (k - 53) 1); [| | lia | lia ].
  2:{ change (2 ^ 1)%Z with 2%Z. unfold C2. nia. }
  assert (Ev : exists d, C2 = (2 * d)%Z).
  { exists (c * 2 ^ (51 - k))%Z. unfold C2. replace (52 - k)%Z with (1 + (51 - k))%Z by lia. rewrite Z.pow_add_r by lia. ring. }
  destruct Ev as [ d D ].
  replace ((2 * C2 - 1) / 2 ^ 1)%Z with (C2 - 1)%Z by (change (2 ^ 1)%Z with 2%Z; apply Z.div_unique with 1%Z; lia).
  replace ((2 * C2 - 1) mod 2 ^ 1)%Z with 1%Z by (change (2 ^ 1)%Z with 2%Z; apply Z.mod_unique with (C2 - 1)%Z; lia).
  cbv zeta. change (2 * 1 <? 2 ^ 1)%Z with false. change (2 * 1 =? 2 ^ 1)%Z with true. cbv iota.
  assert (Od : Z.even (C2 - 1) = false).
  { rewrite D. replace (2 * d - 1)%Z with (1 + 2 * (d - 1))%Z by lia. rewrite Z.even_add_mul_2. reflexivity. }
  rewrite Od. replace (C2 - 1 + 1)%Z with C2 by lia. unfold C2. rewrite mult_IZR, <- B, Rmult_assoc, <- bpow_plus.
  replace (52 - k + (k - 53 + 1))%Z with 0%Z by lia. simpl. ring.
Qed.

Local Notation cx := (cexp radix2 (FLT_exp (-1074) 53)).
Lemma b64_parts : forall x, exists m, b64 x = IZR m * bpow radix2 (cx x) /\ Rabs (b64 x - x) <= / 2 * bpow radix2 (cx x).
Proof.
  intros x. exists (ZnearestE (scaled_mantissa radix2 (FLT_exp (-1074) 53) x)). split; [ reflexivity |].
  destruct (Req_dec x 0) as [ -> | N ].
  - rewrite b64_0, Rminus_0_r, Rabs_R0. pose proof (bpow_ge_0 radix2 (cx 0)). lra.
  - rewrite <- (ulp_neq_0 radix2 _ x N). apply error_le_half_ulp. apply FLT_exp_valid. reflexivity.
Qed.
Lemma cx_le : forall x y, 0 < x <= y -> (cx x <= cx y)%Z.
Proof. intros x y H. unfold cexp. pose proof (mag_le radix2 x y (proj1 H) (proj2 H)). unfold FLT_exp. lia. Qed.
Lemma cx_int : forall c k, (0 <= k <= 31)%Z -> (2 ^ k <= c < 2 ^ (k + 1))%Z -> cx (IZR c) = (k - 52)%Z.
Proof.
  intros c k K C. unfold cexp.
  assert (M : mag radix2 (IZR c) = (k + 1)%Z :> Z).
  { apply mag_unique. rewrite Rabs_pos_eq by (apply IZR_le; lia). replace (k + 1 - 1)%Z with k by lia.
    rewrite <- !(IZR_Zpower radix2) by lia. change (radix_val radix2) with 2%Z. split; [ apply IZR_le | apply IZR_lt ]; lia. }
  rewrite M. unfold FLT_exp. lia.
Qed.
Lemma cx_ge : forall x k, (0 <= k <= 31)%Z -> 0 < x -> cx x = (k - 52)%Z -> bpow radix2 k <= x.
Proof.
  intros x k K X H. unfold cexp, FLT_exp in H.
  assert (M : mag radix2 x = (k + 1)%Z :> Z) by lia.
  clear H. destruct (mag radix2 x) as [ e He ]. cbn in M. subst e. specialize (He ltac:(lra)).
  rewrite Rabs_pos_eq in He by lra. replace (k + 1 - 1)%Z with k in He by lia. lra.
Qed.

Lemma split_error : forall c k X Y, (0 <= k <= 31)%Z -> (2 ^ k <= c < 2 ^ (k + 1))%Z -> 0 < X -> 0 < Y -> X + Y = IZR c ->
  (cx X <= cx Y)%Z -> IZR c - bpow radix2 (k - 53) <= b64 X + b64 Y.
Proof.
  intros c k X Y K C HX HY S Le.
  pose proof (cx_int c k K C) as Ec.
  assert (LY : (cx Y <= k - 52)%Z) by (rewrite <- Ec; apply cx_le; lra).
  assert (LX : (cx X < k - 52)%Z).
  { destruct (Z.lt_ge_cases (cx X) (k - 52)) as [ L | L ]; [ exact L | exfalso ].
    pose proof (cx_ge X k K HX ltac:(lia)). pose proof (cx_ge Y k K HY ltac:(lia)).
    assert (IZR c < bpow radix2 (k + 1)) by (rewrite <- (IZR_Zpower radix2) by lia; apply IZR_lt; apply C).
    rewrite bpow_plus in *. change (bpow radix2 1) with 2 in *. lra. }
  destruct (b64_parts X) as (mx & Qx & Ex). destruct (b64_parts Y) as (my & Qy & Ey).
  apply Rabs_le_inv in Ex. apply Rabs_le_inv in Ey.
  set (ex := cx X) in *. set (ey := cx Y) in *.
  assert (Pw : forall d, (0 <= d)%Z -> bpow radix2 d = IZR (2 ^ d)) by (intros d D; rewrite <- (IZR_Zpower radix2) by lia; reflexivity).
  assert (Bx : 0 < bpow radix2 ex) by apply bpow_gt_0.
  assert (By : bpow radix2 ey = IZR (2 ^ (ey - ex)) * bpow radix2 ex) by (rewrite <- Pw, <- bpow_plus by lia; f_equal; lia).
  assert (Bc : bpow radix2 (k - 53) = IZR (2 ^ (k - 53 - ex)) * bpow radix2 ex) by (rewrite <- Pw, <- bpow_plus by lia; f_equal; lia).
  assert (ByU : bpow radix2 ey <= 2 * bpow radix2 (k - 53)).
  { change 2 with (bpow radix2 1). rewrite <- bpow_plus. apply bpow_le. lia. }
  assert (Cc : IZR c = IZR (c * 2 ^ (52 - k) * 2 ^ (k - 52 - ex)) * bpow radix2 ex).
  { rewrite !mult_IZR, <- !Pw by lia. rewrite !Rmult_assoc, <- !bpow_plus.
    replace (52 - k + (k - 52 - ex + ex))%Z with 0%Z by lia. simpl. ring. }
  set (N := (c * 2 ^ (52 - k) * 2 ^ (k - 52 - ex) - (mx + my * 2 ^ (ey - ex)))%Z).
  assert (D : IZR c - (b64 X + b64 Y) = IZR N * bpow radix2 ex).
  { unfold N. rewrite minus_IZR, plus_IZR, (mult_IZR my). rewrite Cc at 1. rewrite Qx, Qy, By. ring. }
  assert (HN : (N <= 2 ^ (k - 53 - ex))%Z).
  { assert (L : IZR N * bpow radix2 ex <= (IZR (2 ^ (k - 53 - ex)) + / 2) * bpow radix2 ex) by (rewrite <- D, Rmult_plus_distr_r, <- Bc; lra).
    apply Rmult_le_reg_r in L; [| exact Bx ].
    assert (IZR N < IZR (2 ^ (k - 53 - ex) + 1)) by (rewrite plus_IZR; lra). apply lt_IZR in H. lia. }
  apply IZR_le in HN. assert (IZR N * bpow radix2 ex <= bpow radix2 (k - 53)); [| lra ].
  rewrite Bc. apply Rmult_le_compat_r; lra.
Qed.

Lemma split_int : forall c F, (0 <= c < 2 ^ 32)%Z -> (0 <= F <= 2 ^ 52)%Z ->
  IZR c <= b64 (b64 (IZR (2 ^ 52 - F) * bpow radix2 (-52) * IZR c) + b64 (IZR F * bpow radix2 (-52) * IZR c)).
Proof.
  intros c F C HF.
  assert (Id : b64 (IZR c) = IZR c) by (apply b64_int; lia).
  assert (B52 : IZR (2 ^ 52) * bpow radix2 (-52) = 1).
  { change (IZR (2 ^ 52)) with (bpow radix2 52). rewrite <- bpow_plus. reflexivity. }
  destruct (Z.eq_dec F 0) as [ -> | F0 ].
  { rewrite Z.sub_0_r, B52, !Rmult_0_l, b64_0, Rmult_1_l, Rplus_0_r, !Id. lra. }
  destruct (Z.eq_dec F (2 ^ 52)) as [ -> | F1 ].
  { rewrite Z.sub_diag, B52, !Rmult_0_l, b64_0, Rmult_1_l, Rplus_0_l, !Id. lra. }
  destruct (Z.eq_dec c 0) as [ -> | C0 ]; [ rewrite !Rmult_0_r, b64_0, Rplus_0_r, b64_0; lra |].
  set (X := IZR (2 ^ 52 - F) * bpow radix2 (-52) * IZR c). set (Y := IZR F * bpow radix2 (-52) * IZR c).
  assert (S : X + Y = IZR c). { unfold X, Y. rewrite minus_IZR. transitivity (IZR (2 ^ 52) * bpow radix2 (-52) * IZR c); [ ring | rewrite B52; ring ]. }
  assert (HX : 0 < X) by (unfold X; repeat apply Rmult_lt_0_compat; try apply bpow_gt_0; apply IZR_lt; lia).
  assert (HY : 0 < Y) by (unfold Y; repeat apply Rmult_lt_0_compat; try apply bpow_gt_0; apply IZR_lt; lia).
  set (k := Z.log2 c). pose proof (Z.log2_spec c ltac:(lia)) as L. fold k in L.
  assert (K : (0 <= k <= 31)%Z).
  { split; [ apply Z.log2_nonneg |]. unfold k. assert (Z.log2 c < 32)%Z by (apply Z.log2_lt_pow2; lia). lia. }
  change (Z.succ k) with (k + 1)%Z in L.
  destruct (Z.eq_dec c (2 ^ k)) as [ Q | Q ].
  - assert (W : forall z, (0 <= z < 2 ^ 53)%Z -> b64 (IZR z * bpow radix2 (-52) * IZR c) = IZR z * bpow radix2 (-52) * IZR c).
    { intros z Z. rewrite Q. replace (IZR (2 ^ k)) with (bpow radix2 k) by (rewrite <- (IZR_Zpower radix2) by lia; reflexivity).
      rewrite Rmult_assoc, <- bpow_plus. apply b64_float; lia. }
    unfold X, Y. rewrite !W by lia. fold X Y. rewrite S, Id. lra.
  - assert (E : IZR c - bpow radix2 (k - 53) <= b64 X + b64 Y).
    { destruct (Z.le_ge_cases (cx X) (cx Y)) as [ Le | Le ]; [ now apply split_error |].
      rewrite (Rplus_comm (b64 X)). apply split_error; auto. rewrite Rplus_comm. exact S. }
    apply b64_le in E. rewrite tie_up in E by lia. exact E.
Qed.

Lemma dyadic_above_1 : forall i, b64 i = i -> 1 <= i -> exists m, i = IZR m * bpow radix2 (-52).
Proof.
  intros i I H. pose proof (fmt_of i I) as G. unfold generic_format, F2R in G. cbn [Fnum Fexp] in G.
  set (m := Ztrunc (scaled_mantissa radix2 (FLT_exp (-1074) 53) i)) in G.
  assert (E : (-52 <= cx i)%Z). { apply Z.le_trans with (cx 1); [| apply cx_le; lra ]. rewrite (cx_int 1 0) by lia. lia. }
  exists (m * 2 ^ (cx i + 52))%Z. rewrite G at 1. rewrite mult_IZR.
  replace (IZR (2 ^ (cx i + 52))) with (bpow radix2 (cx i + 52)) by (rewrite <- (IZR_Zpower radix2) by lia; reflexivity).
  rewrite Rmult_assoc, <- bpow_plus. do 2 f_equal. lia.
Qed.

Lemma mix_inner : forall i a b lo, b64 i = i -> 1 <= i -> (0 <= lo < 2 ^ 32)%Z -> (lo <= a)%Z -> (lo <= b)%Z ->
  IZR lo <= mix_rnd b64 (b64 (i - IZR (Zfloor i))) a b.
Proof.
  intros i a b lo I H Lo A B. destruct (dyadic_above_1 i I H) as [ m M ].
  pose proof (frac_range i) as Fr. set (F := (m - Zfloor i * 2 ^ 52)%Z).
  assert (B52 : IZR (2 ^ 52) * bpow radix2 (-52) = 1).
  { change (IZR (2 ^ 52)) with (bpow radix2 52). rewrite <- bpow_plus. reflexivity. }
  assert (FF : i - IZR (Zfloor i) = IZR F * bpow radix2 (-52)).
  { unfold F. rewrite minus_IZR, mult_IZR, Rmult_minus_distr_r, Rmult_assoc, B52, <- M. ring. }
  assert (Pb : 0 < bpow radix2 (-52)) by apply bpow_gt_0.
  assert (HF : (0 <= F < 2 ^ 52)%Z).
  { rewrite FF in Fr. split.
    - apply le_IZR. apply Rmult_le_reg_r with (bpow radix2 (-52)); lra.
    - apply lt_IZR. apply Rmult_lt_reg_r with (bpow radix2 (-52)); lra. }
  assert (Ef : b64 (i - IZR (Zfloor i)) = IZR F * bpow radix2 (-52)) by (rewrite FF; apply b64_float; lia).
  assert (Eg : b64 (1 - IZR F * bpow radix2 (-52)) = IZR (2 ^ 52 - F) * bpow radix2 (-52)).
  { replace (1 - IZR F * bpow radix2 (-52)) with (IZR (2 ^ 52 - F) * bpow radix2 (-52)); [ apply b64_float; lia |].
    rewrite minus_IZR, Rmult_minus_distr_r, B52. ring. }
  unfold mix_rnd. rewrite Ef, Eg.
  eapply Rle_trans; [ exact (split_int lo F Lo ltac:(lia)) |].
  apply b64_le. apply Rplus_le_compat; apply b64_le; apply Rmult_le_compat_l; try (now apply IZR_le);
    apply Rmult_le_pos; try lra; apply IZR_le; lia.
Qed.

Lemma inner_proof : forall t a b v c hi, (1 <= length t)%nat -> (Z.of_nat (length t) < 2 ^ 31)%Z ->
  (1 <= hi < 2 ^ 32)%Z -> in_table 0 hi t -> eval_rnd b64 t a b v = Ok c ->
  forall k p q, (1 <= k)%nat -> nth_error t k = Some p -> nth_error t (k + 1) = Some q ->
    INR k <= pos_rnd (length t) a b v < INR k + 1 -> between p q c.
Proof.
  intros t a b v c hi N1 N2 H T E k p q K P Q [ K1 K2 ].
  destruct (eval_rnd_ok t a b v c N1 N2 E) as [ B D ]. cbv zeta in D.
  assert (I : b64 (pos_rnd (length t) a b v) = pos_rnd (length t) a b v) by apply b64_idem.
  set (i := pos_rnd (length t) a b v) in *. pose proof (Zfloor_lb i) as L. pose proof (Zfloor_ub i) as U.
  assert (Kf : Zfloor i = Z.of_nat k) by (apply Zfloor_imp; rewrite plus_IZR, <- INR_IZR_INZ; auto).
  assert (Kl : (k + 1 < length t)%nat) by (apply nth_error_Some; congruence).
  destruct D as [ [ D1 D2 ] | [ (D0 & D1 & D2) | (D1 & p' & q' & P' & Q' & R1 & R2 & R3) ] ]; try lia.
  rewrite Kf, Nat2Z.id in *. rewrite P in P'. injection P' as <-. rewrite Q in Q'. injection Q' as <-.
  destruct (T _ (nth_error_In _ _ P)) as (P1 & P2 & P3). destruct (T _ (nth_error_In _ _ Q)) as (Q1 & Q2 & Q3).
  assert (F : 0 <= i - IZR (Zfloor i) <= 1) by (pose proof (frac_range i); lra).
  assert (I1 : 1 <= i). { apply Rle_trans with (INR k); [| lra ]. change 1 with (INR 1). now apply le_INR. }
  assert (G : forall a b, (0 <= a <= hi)%Z -> (0 <= b <= hi)%Z ->
    (Z.min a b <= Ztrunc (mix_rnd b64 (b64 (i - IZR (Z.of_nat k))) a b) <= Z.max a b)%Z).
  { intros a0 b0 A0 B0. rewrite <- Kf. split.
    - pose proof (mix_inner i a0 b0 (Z.min a0 b0) I I1 ltac:(lia) ltac:(lia) ltac:(lia)) as M.
      rewrite Ztrunc_floor; [ now apply Zfloor_lub |]. eapply Rle_trans; [| exact M ]. apply IZR_le. lia.
    - exact (proj2 (near_range _ _ a0 b0 _ (Z.min a0 b0) (Z.max a0 b0) (eps_small hi H) F ltac:(lia) ltac:(lia) (mix_near _ a0 b0 hi F A0 B0 H))). }
  unfold between. rewrite R1, R2, R3. auto.
Qed.

Lemma defined_proof : forall t a b v hi, (1 <= length t)%nat -> (Z.of_nat (length t) < 2 ^ 31)%Z ->
  (1 <= hi < 2 ^ 32)%Z -> in_table 0 hi t -> b64 v = v -> b64 a = a -> b <> 0 ->
  Rabs (v - a) <= bpow radix2 1023 -> Rabs ((v - a) / b) <= bpow radix2 1000 ->
  Rabs ((v - a) / b * IZR (Z.of_nat (length t) - 1)) <= bpow radix2 30 ->
  exists c, eval_rnd b64 t a b v = Ok c.
Proof.
  intros t a b v hi N1 N2 H T V A B D1 D2 D3. unfold eval_rnd.
  destruct (Req_EM_T b 0) as [ E | E ]; [ contradiction |].
  assert (U : u32 (Z.of_nat (length t)) = Z.of_nat (length t)) by (unfold u32; apply Z.mod_small; lia).
  rewrite U. assert (U' : u32 (Z.of_nat (length t) - 1) = (Z.of_nat (length t) - 1)%Z) by (unfold u32; apply Z.mod_small; lia).
  rewrite U'. assert (T' : to_int (Z.of_nat (length t)) = Z.of_nat (length t)).
  { unfold to_int. destruct (Z.ltb_spec (Z.of_nat (length t)) (2 ^ 31)); [ reflexivity | lia ]. }
  rewrite T'. unfold finite_result.
  assert (Bo : forall e, (-1074 <= e)%Z -> b64 (- bpow radix2 e) = - bpow radix2 e).
  { intros e L. apply b64_id, generic_format_opp, fmt_of, b64_bpow, L. }
  assert (Ab : forall x e, (-1074 <= e)%Z -> Rabs x <= bpow radix2 e -> Rabs (b64 x) <= bpow radix2 e).
  { intros x e L X. apply Rabs_le_inv in X. apply Rabs_le. apply b64_range; auto using b64_bpow. }
  pose proof (Ab _ 1023%Z ltac:(lia) D1) as F1.
  destruct (Rlt_dec _ _) as [ _ | X ].
  2:{ exfalso. apply X. eapply Rle_lt_trans; [ exact F1 | apply bpow_lt; lia ]. }
  cbn [obind].
  pose proof (pos_close 1 a b v ltac:(lia) ltac:(lia) B V A) as _.
  assert (Fa : generic_format radix2 (FLT_exp (-1074) 53) (- a)) by (apply generic_format_opp, fmt_of, A).
  destruct (FLT_plus_error_N_ex radix2 (-1074) 53 (fun x => negb (Z.even x)) v (- a) (fmt_of _ V) Fa) as (e1 & E1 & Q1).
  fold (b64 (v + - a)) in Q1. change (v + - a) with (v - a) in Q1.
  assert (E1' : Rabs (1 + e1) <= bpow radix2 1).
  { assert (V1 : u_ro radix2 53 = u64) by (unfold u_ro, u64; simpl; lra). rewrite V1 in E1.
    pose proof u64_pos. pose proof u64_val.
    assert (u64 / (1 + u64) <= 1) by (apply div_le; lra). apply Rabs_le_inv in E1. change (bpow radix2 1) with 2. apply Rabs_le. lra. }
  assert (F2 : Rabs (b64 (b64 (v - a) / b)) <= bpow radix2 1001).
  { apply Ab; [ lia |]. rewrite Q1. replace ((v - a) * (1 + e1) / b) with ((v - a) / b * (1 + e1)) by (field; exact B).
    rewrite Rabs_mult. change 1001%Z with (1000 + 1)%Z. rewrite bpow_plus. apply Rmult_le_compat; auto using Rabs_pos. }
  destruct (Rlt_dec _ _) as [ _ | X ].
  2:{ exfalso. apply X. eapply Rle_lt_trans; [ exact F2 | apply bpow_lt; lia ]. }
  cbn [obind]. fold (pos_rnd (length t) a b v).
  pose proof (pos_close (length t) a b v N1 N2 B V A) as C. cbv zeta in C. cbv zeta.
  set (x := (v - a) / b * IZR (Z.of_nat (length t) - 1)) in *. set (i := pos_rnd (length t) a b v) in *.
  assert (S : Rabs x * bpow radix2 (-51) + bpow radix2 (-1000) <= 1).
  { apply Rle_trans with (bpow radix2 30 * bpow radix2 (-51) + bpow radix2 (-1)).
    - apply Rplus_le_compat; [ apply Rmult_le_compat_r; [ apply bpow_ge_0 | exact D3 ] | apply bpow_le; lia ].
    - rewrite <- bpow_plus. simpl. lra. }
  apply Rabs_le_inv in C. apply Rabs_le_inv in D3. change (bpow radix2 30) with (IZR 1073741824) in D3.
  assert (I0 : -1073741825 <= i <= 1073741825) by lra.
  destruct (Rlt_dec _ _) as [ _ | X ].
  2:{ exfalso. apply X. apply Rle_lt_trans with (bpow radix2 31); [| apply bpow_lt; lia ]. change (bpow radix2 31) with (IZR 2147483648). apply Rabs_le. lra. }
  cbn [obind]. pose proof (Zfloor_lb i) as L. pose proof (Zfloor_ub i) as Ub.
  assert (I1 : (- 2 ^ 31 <= Zfloor i < 2 ^ 31)%Z).
  { change (- 2 ^ 31)%Z with (-2147483648)%Z. change (2 ^ 31)%Z with 2147483648%Z. split; [ apply Zfloor_lub; lra |]. apply lt_IZR. lra. }
  unfold double_to_int. destruct (Z.leb_spec (- 2 ^ 31) (Zfloor i)); [| lia ]. destruct (Z.ltb_spec (Zfloor i) (2 ^ 31)); [| lia ].
  cbn [andb obind].
  assert (Nth : forall k, (0 <= k < Z.of_nat (length t))%Z -> exists c, color_at t k = Ok c /\ nth_error t (Z.to_nat k) = Some c).
  { intros k K. unfold color_at. destruct (Z.ltb_spec k 0); [ lia |].
    destruct (nth_error t (Z.to_nat k)) eqn:Q; [ eauto |]. apply nth_error_None in Q. lia. }
  destruct (Z.leb_spec (Z.of_nat (length t) - 1) (Zfloor i)).
  { destruct (Nth (Z.of_nat (length t) - 1)%Z ltac:(lia)) as (c & -> & _). eauto. }
  destruct (Z.ltb_spec (Zfloor i) 0).
  { destruct (Nth 0%Z ltac:(lia)) as (c & -> & _). eauto. }
  destruct (Nth (Zfloor i) ltac:(lia)) as (p & -> & P). destruct (Nth (Zfloor i + 1)%Z ltac:(lia)) as (q & -> & Q).
  cbn [obind]. destruct (T _ (nth_error_In _ _ P)) as (P1 & P2 & P3). destruct (T _ (nth_error_In _ _ Q)) as (Q1' & Q2 & Q3).
  assert (F : 0 <= i - IZR (Zfloor i) <= 1) by (pose proof (frac_range i); lra).
  assert (W : forall a b, (0 <= a <= hi)%Z -> (0 <= b <= hi)%Z -> exists z, double_to_unsigned (mix_rnd b64 (b64 (i - IZR (Zfloor i))) a b) = Ok z).
  { intros a0 b0 A0 B0. pose proof (trunc_pos _ a0 b0 hi F A0 B0 H) as [ Z1 Z2 ]. unfold double_to_unsigned.
    destruct (Z.leb_spec 0 (Ztrunc (mix_rnd b64 (b64 (i - IZR (Zfloor i))) a0 b0))); [| lia ].
    destruct (Z.ltb_spec (Ztrunc (mix_rnd b64 (b64 (i - IZR (Zfloor i))) a0 b0)) (2 ^ 32)); [| lia ]. cbn. eauto. }
  destruct (W _ _ P1 Q1') as (z1 & ->). destruct (W _ _ P2 Q2) as (z2 & ->). destruct (W _ _ P3 Q3) as (z3 & ->). cbn. eauto.
Qed.

(** * The built-in maps *)
Lemma pos_exact : forall n v k, b64 v = v -> (Z.of_nat n - 1 = 2 ^ k)%Z -> (0 <= k)%Z -> pos_rnd n 0 1 v = v * bpow radix2 k.
Proof.
  intros n v k V N K. unfold pos_rnd. rewrite Rminus_0_r, V, div_1, V, N.
  replace (IZR (2 ^ k)) with (bpow radix2 k) by (rewrite <- (IZR_Zpower radix2) by lia; reflexivity).
  pose proof (fmt_of v V) as G. unfold generic_format, F2R in G. cbn [Fnum Fexp] in G.
  destruct (FLT_format_generic radix2 (-1074) 53 v (fmt_of v V)) as [ [ m e ] Q M E ]. cbn in M, E.
  rewrite Q. unfold F2R. cbn [Fnum Fexp]. rewrite Rmult_assoc, <- bpow_plus. apply b64_float; [ exact M | lia ].
Qed.
Lemma mix_from_0 : forall f b, (0 <= b < 2 ^ 32)%Z -> mix_rnd b64 f 0 b = b64 (f * IZR b).
Proof. intros f b B. unfold mix_rnd. rewrite Rmult_0_r, b64_0, Rplus_0_l, b64_idem. reflexivity. Qed.

Lemma gray_value : forall v c, b64 v = v -> eval_rnd b64 (cm_colors gray) 0 1 v = Ok c ->
  let k := if Rlt_dec v 0 then 0%Z else if Rlt_dec v 1 then Zfloor (b64 (v * 255)) else 255%Z in c = Color k k k.
Proof.
  intros v c V E. destruct (eval_rnd_ok (cm_colors gray) 0 1 v c ltac:(cbn; lia) ltac:(cbn; lia) E) as [ _ D ]. cbv zeta in *.
  change (length (cm_colors gray)) with 2%nat in D. rewrite (pos_exact 2 v 0 V) in D by (cbn; lia).
  change (bpow radix2 0) with 1 in D. rewrite Rmult_1_r in D. change (Z.of_nat 2 - 1)%Z with 1%Z in D.
  destruct D as [ [ D1 D2 ] | [ (D0 & D1 & D2) | (D1 & p & q & P & Q & R1 & R2 & R3) ] ].
  - cbn in D2. injection D2 as <-. apply IZR_le in D1. pose proof (Zfloor_lb v).
    destruct (Rlt_dec v 0); [ lra |]. destruct (Rlt_dec v 1); [ lra | reflexivity ].
  - cbn in D2. injection D2 as <-. destruct (Rlt_dec v 0) as [ L | L ]; [ reflexivity | exfalso ].
    assert (0 <= Zfloor v)%Z by (apply Zfloor_lub; lra). lia.
  - assert (Z0 : Zfloor v = 0%Z) by lia. rewrite Z0 in *. cbn in P, Q. injection P as <-. injection Q as <-.
    cbn [red green blue] in R1, R2, R3. rewrite mix_from_0, Rminus_0_r, V in R1, R2, R3 by lia.
    pose proof (Zfloor_lb v) as L. pose proof (Zfloor_ub v) as U. rewrite Z0 in L, U.
    destruct (Rlt_dec v 0); [ lra |]. destruct (Rlt_dec v 1); [| lra ].
    assert (Tr : Ztrunc (b64 (v * 255)) = Zfloor (b64 (v * 255))) by (apply Ztrunc_floor, b64_pos; lra).
    rewrite Tr in R1, R2, R3. destruct c as [ cr cg cb ]. cbn in R1, R2, R3. congruence.
Qed.
Lemma gray_monotone_proof : forall v w c d, b64 v = v -> b64 w = w -> v <= w ->
  eval_rnd b64 (cm_colors gray) 0 1 v = Ok c -> eval_rnd b64 (cm_colors gray) 0 1 w = Ok d ->
  (red c <= red d)%Z.
Proof.
  intros v w c d V W L E1 E2. pose proof (gray_value v c V E1) as ->. pose proof (gray_value w d W E2) as ->. cbn [red].
  assert (R : forall x, 0 <= x <= 1 -> 0 <= b64 (x * 255) <= 255).
  { intros x X. apply b64_range; [ exact b64_0 | apply b64_int; lia | lra ]. }
  destruct (Rlt_dec v 0); destruct (Rlt_dec w 0); try lra; try lia.
  - destruct (Rlt_dec w 1); [| lia ]. apply Zfloor_lub. apply R. lra.
  - destruct (Rlt_dec v 1); destruct (Rlt_dec w 1); try lra; try lia.
    + apply Zfloor_le, b64_le. lra.
    + apply le_IZR. eapply Rle_trans; [ apply Zfloor_lb |]. apply R. lra.
Qed.

(** * Two equal colours *)
Definition v37 : R := IZR 7720456504063707 * bpow radix2 (-54).
Lemma v37_ok : b64 v37 = v37. Proof. apply b64_float; lia. Qed.
Lemma v37_is : v37 = b64 (3 / 7).
Proof.
  unfold b64, round, F2R. cbn [Fnum Fexp]. unfold scaled_mantissa, cexp.
  assert (M : mag radix2 (3 / 7) = (-1)%Z :> Z).
  { apply mag_unique. rewrite Rabs_pos_eq by lra. simpl. lra. }
  rewrite M. change (FLT_exp (-1074) 53 (-1)) with (-54)%Z. unfold v37. do 2 f_equal.
  symmetry. apply Znearest_imp. simpl. apply Rabs_lt. lra.
Qed.
Lemma equal_refuted_proof : eval_rnd b64 [Color 29 29 29; Color 29 29 29] 0 1 v37 = Ok (Color 28 28 28).
Proof.
  assert (B54 : bpow radix2 (-54) = / 18014398509481984) by (simpl; lra).
  assert (V : 2/5 < v37 < 1/2) by (unfold v37; rewrite B54; lra).
  unfold eval_rnd. destruct (Req_EM_T 1 0); [ lra |]. rewrite Rminus_0_r, v37_ok.
  change (u32 (Z.of_nat (length [Color 29 29 29; Color 29 29 29]))) with 2%Z. cbv zeta.
  change (u32 (2 - 1)) with 1%Z.
  assert (Fi : forall A (k : R -> outcome A), obind (finite_result v37) k = k v37).
  { intros A k. unfold finite_result. destruct (Rlt_dec _ _) as [ _ | X ]; [ reflexivity |].
    exfalso. apply X. rewrite Rabs_pos_eq by lra. apply Rlt_trans with (bpow radix2 0); [ simpl; lra | apply bpow_lt; lia ]. }
  rewrite Fi, div_1, v37_ok, Fi, Rmult_1_r, v37_ok, Fi.
  assert (Z0 : Zfloor v37 = 0%Z) by (apply Zfloor_imp; simpl; lra). rewrite Z0.
  change (double_to_int 0) with (Ok 0%Z : outcome Z). cbn [obind]. change (to_int 2 - 1 <=? 0)%Z with false. change (0 <? 0)%Z with false. cbv iota.
  change (color_at [Color 29 29 29; Color 29 29 29] 0) with (Ok (Color 29 29 29)).
  change (color_at [Color 29 29 29; Color 29 29 29] (0 + 1)) with (Ok (Color 29 29 29)). cbn [obind red green blue].
  rewrite Rminus_0_r, v37_ok.
  assert (Mx : mix_rnd b64 v37 29 29 = IZR 8162774324609023 * bpow radix2 (-48)).
  { unfold mix_rnd.
    replace (1 - v37) with (IZR 10293942005418277 * bpow radix2 (-54)) by (unfold v37; rewrite B54; lra).
    rewrite (b64_shift 10293942005418277 (-54) 1) by lia. cbn -[bpow IZR].
    replace (IZR 5146971002709138 * bpow radix2 (-53) * IZR 29) with (IZR (5146971002709138 * 29) * bpow radix2 (-53)) by (rewrite mult_IZR; ring).
    rewrite (b64_shift (5146971002709138 * 29) (-53) 5) by lia. cbn -[bpow IZR].
    replace (v37 * IZR 29) with (IZR (7720456504063707 * 29) * bpow radix2 (-54)) by (rewrite mult_IZR; unfold v37; ring).
    rewrite (b64_shift (7720456504063707 * 29) (-54) 5) by lia. cbn -[bpow IZR].
    match goal with |- b64 ?x = _ => replace x with (IZR 8162774324609023 * bpow radix2 (-48)) end.
    - apply b64_float; lia.
    - simpl. lra. }
  rewrite Mx.
  assert (Tr : Ztrunc (IZR 8162774324609023 * bpow radix2 (-48)) = 28%Z).
  { rewrite Ztrunc_floor by (simpl; lra). apply Zfloor_imp. simpl. lra. }
  unfold double_to_unsigned. rewrite Tr. reflexivity.
Qed.

Lemma close_between_proof : forall t a b v c hi, (1 <= length t)%nat -> (Z.of_nat (length t) < 2 ^ 31)%Z -> b64 v = v -> b64 a = a ->
  (1 <= hi < 2 ^ 32)%Z -> in_table 0 hi t -> eval_rnd b64 t a b v = Ok c ->
  let x := (v - a) / b * IZR (Z.of_nat (length t) - 1) in
  exists i, Rabs (i - x) <= Rabs x * bpow radix2 (-51) + bpow radix2 (-1000) /\
    (IZR (Z.of_nat (length t) - 1) <= i -> nth_error t (length t - 1) = Some c) /\
    (i < 0 -> nth_error t 0 = Some c) /\
    (forall k p q, nth_error t k = Some p -> nth_error t (k + 1) = Some q -> INR k <= i < INR k + 1 ->
       near_blend (IZR hi * bpow radix2 (-49)) (i - INR k) p q c /\ ((1 <= k)%nat -> between p q c)).
Proof.
  intros t a b v c hi N1 N2 V A H T E x.
  destruct (close_proof t a b v c hi N1 N2 V A H T E) as (C1 & C2 & C3 & C4).
  exists (pos_rnd (length t) a b v). split; [ exact C1 |]. split; [ exact C2 |]. split; [ exact C3 |].
  intros k p q P Q I. split; [ exact (C4 k p q P Q I) |]. intros K. exact (inner_proof t a b v c hi N1 N2 H T E k p q K P Q I).
Qed.

Lemma limits_proof : forall t b v c, (2 <= length t)%nat -> (Z.of_nat (length t) < 2 ^ 31)%Z -> b64 v = v -> 0 < b ->
  eval_rnd b64 t 0 b v = Ok c -> (v < 0 -> bpow radix2 (-1000) <= - v / b -> nth_error t 0 = Some c) /\ (b <= v -> nth_error t (length t - 1) = Some c).
Proof.
  intros t b v c N1 N2 V B E. destruct (eval_rnd_ok t 0 b v c ltac:(lia) N2 E) as [ _ D ]. cbv zeta in D.
  assert (P : pos_rnd (length t) 0 b v = b64 (b64 (v / b) * IZR (Z.of_nat (length t) - 1))) by (unfold pos_rnd; rewrite Rminus_0_r, V; reflexivity).
  set (i := pos_rnd (length t) 0 b v) in *. set (m := (Z.of_nat (length t) - 1)%Z) in *.
  assert (M : 1 <= IZR m) by (apply IZR_le; unfold m; lia).
  assert (Mi : b64 (IZR m) = IZR m) by (apply b64_int; unfold m; lia).
  split; [ intros N S | intros N ].
  - assert (Y : b64 (v / b) <= - bpow radix2 (-1000)).
    { rewrite <- (b64_id (- bpow radix2 (-1000))) by (apply generic_format_opp, fmt_of, b64_bpow; lia). apply b64_le. unfold Rdiv in *. lra. }
    assert (I0 : i <= - bpow radix2 (-1000)).
    { rewrite P. rewrite <- (b64_id (- bpow radix2 (-1000))) by (apply generic_format_opp, fmt_of, b64_bpow; lia). apply b64_le.
      pose proof (bpow_gt_0 radix2 (-1000)). nra. }
    pose proof (bpow_gt_0 radix2 (-1000)). pose proof (Zfloor_lb i).
    assert (Zfloor i < 0)%Z by (apply lt_IZR; lra).
    destruct D as [ [ D1 D2 ] | [ (D0 & D1 & D2) | (D1 & _) ] ]; [ unfold m in *; lia | exact D2 | lia ].
  - assert (Y : 1 <= b64 (v / b)).
    { rewrite <- b64_1. apply b64_le. apply Rmult_le_reg_r with b; [ exact B |]. unfold Rdiv. rewrite Rmult_assoc, Rinv_l by lra. lra. }
    assert (I0 : IZR m <= i). { rewrite P, <- Mi. apply b64_le. rewrite Mi. nra. }
    assert (m <= Zfloor i)%Z by (now apply Zfloor_lub).
    destruct D as [ [ D1 D2 ] | [ (D0 & D1 & D2) | (D1 & _) ] ]; [ exact D2 | lia | lia ].
Qed.

Lemma gray_in : in_table 0 255 (cm_colors gray).
Proof. intros p [ <- | [ <- | [] ] ]; unfold components_in; cbn; lia. Qed.
Lemma gerimap_in : in_table 0 255 (cm_colors gerimap).
Proof. intros p H. cbn in H. repeat (destruct H as [ <- | H ]; [ unfold components_in; cbn; lia |]). contradiction. Qed.
Lemma builtin_defined : forall t v, in_table 0 255 t -> (2 <= length t <= 9)%nat -> b64 v = v -> Rabs v <= bpow radix2 27 ->
  exists c, eval_rnd b64 t 0 1 v = Ok c.
Proof.
  intros t v T L V A. apply (defined_proof t 0 1 v 255); try lia; try exact b64_0; try exact R1_neq_R0; try assumption.
  - rewrite Rminus_0_r. eapply Rle_trans; [ exact A | apply bpow_le; lia ].
  - rewrite Rminus_0_r, div_1. eapply Rle_trans; [ exact A | apply bpow_le; lia ].
  - rewrite Rminus_0_r, div_1, Rabs_mult. change 30%Z with (27 + 3)%Z. rewrite bpow_plus.
    apply Rmult_le_compat; try apply Rabs_pos; [ exact A |]. rewrite Rabs_pos_eq by (apply IZR_le; lia).
    change (bpow radix2 3) with (IZR 8). apply IZR_le. lia.
Qed.
Lemma builtin_proof : forall v, b64 v = v -> Rabs v <= bpow radix2 27 ->
  (exists c, eval_rnd b64 (cm_colors gray) 0 1 v = Ok c /\ components_in 0 255 c /\ red c = green c /\ red c = blue c) /\
  (exists c, eval_rnd b64 (cm_colors gerimap) 0 1 v = Ok c /\ components_in 0 255 c).
Proof.
  intros v V A. split.
  - destruct (builtin_defined (cm_colors gray) v gray_in ltac:(cbn; lia) V A) as [ c E ]. exists c. split; [ exact E |].
    split; [ exact (range_proof (cm_colors gray) 0 1 v c 0 255 ltac:(cbn; lia) ltac:(cbn; lia) ltac:(lia) ltac:(lia) gray_in E) |].
    pose proof (gray_value v c V E) as ->. split; reflexivity.
  - destruct (builtin_defined (cm_colors gerimap) v gerimap_in ltac:(cbn; lia) V A) as [ c E ]. exists c. split; [ exact E |].
    exact (range_proof (cm_colors gerimap) 0 1 v c 0 255 ltac:(cbn; lia) ltac:(cbn; lia) ltac:(lia) ltac:(lia) gerimap_in E).
Qed.
Lemma gerimap_example : exists c, eval_rnd b64 (cm_colors gerimap) 0 1 (11/16) = Ok c /\ red c = 230%Z /\ b64 (11/16) = 11/16.
Proof.
  assert (V : b64 (11/16) = 11/16).
  { replace (11/16) with (IZR 11 * bpow radix2 (-4)) by (simpl; lra). apply b64_float; lia. }
  destruct (builtin_defined (cm_colors gerimap) (11/16) gerimap_in ltac:(cbn; lia) V) as [ c E ].
  { rewrite Rabs_pos_eq by lra. apply Rle_trans with (bpow radix2 0); [ simpl; lra | apply bpow_le; lia ]. }
  exists c. split; [ exact E |]. split; [| exact V ].
  assert (P : pos_rnd (length (cm_colors gerimap)) 0 1 (11/16) = 11/2).
  { rewrite (pos_exact _ _ 3 V); [ simpl; lra | reflexivity | lia ]. }
  assert (B : between (Color 230 128 0) (Color 230 191 26) c).
  { apply (inner_proof (cm_colors gerimap) 0 1 (11/16) c 255 ltac:(cbn; lia) ltac:(cbn; lia) ltac:(lia) gerimap_in E 5); try reflexivity; try lia.
    rewrite P. simpl. lra. }
  destruct B as [ B _ ]. cbn in B. lia.
Qed.
