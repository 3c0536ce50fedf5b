(** The default text form of a double: six significant digits. *)
From Verif Require Import Base SettingsModel SettingsProofs SdtModel NumText.
From Coq Require Import ZArith QArith Qabs Qpower Lqa Qfield.
Local Open Scope Z_scope.

(** * Specification *)
(** [v] is [q] rounded to six significant decimal digits: with the exponent [e] for which
    [q] lies between 10^5 * 10^e and 10^6 * 10^e, [v] is a multiple of 10^e and differs
    from [q] by at most half of 10^e. *)
Definition six_digits (q v : Q) : Prop :=
  (q == 0 /\ v == 0)%Q \/
  exists m e : Z, (v == inject_Z m * (10 # 1) ^ e /\ Qabs (q - v) <= (1 # 2) * (10 # 1) ^ e /\
    inject_Z 100000 * (10 # 1) ^ e <= Qabs q /\ Qabs q < inject_Z 1000000 * (10 # 1) ^ e)%Q.

(** * Powers of ten *)
Lemma Qabs_inject : forall z, Qabs (inject_Z z) = inject_Z (Z.abs z).
Proof. reflexivity. Qed.

Local Notation p10 e := ((10 # 1) ^ e)%Q.
Lemma p10_pos : forall e, (0 < p10 e)%Q.
Proof. intro e. apply Qpower_0_lt. reflexivity. Qed.
Lemma p10_plus : forall a b, (p10 (a + b) == p10 a * p10 b)%Q.
Proof. intros a b. apply Qpower_plus. discriminate. Qed.
Lemma p10_nonneg : forall e, 0 <= e -> (p10 e == inject_Z (10 ^ e))%Q.
Proof. intros e H. rewrite Zpower_Qpower by exact H. reflexivity. Qed.

Lemma dec_value_eq : forall neg m e, (dec_value neg m e == inject_Z (if neg then - m else m) * p10 e)%Q.
Proof.
  intros neg m e. unfold dec_value. destruct (0 <=? e) eqn:E.
  - apply Z.leb_le in E. rewrite p10_nonneg, <- inject_Z_mult by exact E. reflexivity.
  - apply Z.leb_gt in E. set (x := if neg then - m else m).
    assert (P : 0 < 10 ^ (- e)) by (apply Z.pow_pos_nonneg; lia).
    assert (E1 : (p10 e * p10 (- e) == 1)%Q).
    { rewrite <- p10_plus. replace (e + - e) with 0 by lia. reflexivity. }
    rewrite (p10_nonneg (- e)) in E1 by lia.
    assert (E2 : ((x # Z.to_pos (10 ^ (- e))) == inject_Z x / inject_Z (10 ^ (- e)))%Q).
    { rewrite (Qmake_Qdiv x). rewrite Z2Pos.id by exact P. reflexivity. }
    rewrite E2. assert (N : ~ (inject_Z (10 ^ (- e)) == 0)%Q).
    { intro H. rewrite H in E1. rewrite Qmult_0_r in E1. discriminate. }
    assert (E3 : (p10 e == / inject_Z (10 ^ (- e)))%Q).
    { rewrite <- (Qmult_1_l (/ _)), <- E1. field. exact N. }
    rewrite E3. reflexivity.
Qed.

(** * Decimal exponent *)
Lemma ilog10_up_spec : forall f n d, 0 < d -> d <= n -> n < d * 10 ^ Z.of_nat f ->
  0 <= ilog10_up f n d /\ d * 10 ^ ilog10_up f n d <= n < d * 10 ^ (ilog10_up f n d + 1).
Proof.
  induction f as [|f IH]; intros n d Hd H1 H2.
  - change (10 ^ Z.of_nat 0) with 1 in H2. lia.
  - cbn [ilog10_up]. destruct (d * 10 <=? n) eqn:E.
    + apply Z.leb_le in E. rewrite Nat2Z.inj_succ, Z.pow_succ_r in H2 by lia.
      destruct (IH n (d * 10)) as (A & B & C); [lia|lia|lia|].
      set (k := ilog10_up f n (d * 10)) in *. split; [lia|].
      replace (1 + k + 1) with (Z.succ (k + 1)) by lia. replace (1 + k) with (Z.succ k) by lia.
      rewrite !Z.pow_succ_r by lia. lia.
    + apply Z.leb_gt in E. change (10 ^ 0) with 1. change (10 ^ (0 + 1)) with 10. lia.
Qed.

Lemma ilog10_down_spec : forall f n d, 0 < n -> d <= n * 10 ^ Z.of_nat f ->
  0 <= ilog10_down f n d /\ d <= n * 10 ^ ilog10_down f n d /\
  (n < d -> 1 <= ilog10_down f n d /\ n * 10 ^ (ilog10_down f n d - 1) < d).
Proof.
  induction f as [|f IH]; intros n d Hn H.
  - cbn [ilog10_down]. change (10 ^ Z.of_nat 0) with 1 in H. change (10 ^ 0) with 1. lia.
  - cbn [ilog10_down]. destruct (d <=? n) eqn:E.
    + apply Z.leb_le in E. change (10 ^ 0) with 1. lia.
    + apply Z.leb_gt in E. rewrite Nat2Z.inj_succ, Z.pow_succ_r in H by lia.
      destruct (IH (n * 10) d) as (A & B & C); [lia|lia|].
      set (k := ilog10_down f (n * 10) d) in *. split; [lia|].
      replace (1 + k) with (Z.succ k) by lia. rewrite Z.pow_succ_r by lia. split; [lia|].
      intros _. split; [lia|]. replace (Z.succ k - 1) with k by lia.
      destruct (Z_lt_dec (n * 10) d) as [Hl|Hl].
      * destruct (C Hl) as [C1 C2]. replace k with (Z.succ (k - 1)) by lia. rewrite Z.pow_succ_r by lia. lia.
      * replace k with 0; [change (10 ^ 0) with 1; lia|].
        unfold k. destruct f as [|f']; [reflexivity|]. cbn [ilog10_down].
        replace (d <=? n * 10) with true by (symmetry; apply Z.leb_le; lia). reflexivity.
Qed.

(** 10^X <= n/d < 10^(X+1). *)
Lemma ilog10_spec : forall n d, 0 < n -> 0 < d ->
  (inject_Z d * p10 (ilog10 n d) <= inject_Z n /\ inject_Z n < inject_Z d * p10 (ilog10 n d + 1))%Q.
Proof.
  intros n d Hn Hd. unfold ilog10. destruct (d <=? n) eqn:E.
  - apply Z.leb_le in E. assert (L := log2_fuel n ltac:(lia)).
    destruct (ilog10_up_spec (S (Z.to_nat (Z.log2 n))) n d Hd E) as (A & B & C).
    { apply Z.lt_le_trans with (1 := L). rewrite <- (Z.mul_1_l (10 ^ _)) at 1. apply Z.mul_le_mono_nonneg_r; [|lia].
      apply Z.pow_nonneg. lia. }
    set (k := ilog10_up _ n d) in *.
    rewrite !p10_nonneg by lia. rewrite <- !inject_Z_mult, <- Zle_Qle, <- Zlt_Qlt. lia.
  - apply Z.leb_gt in E. assert (L := log2_fuel d ltac:(lia)).
    destruct (ilog10_down_spec (S (Z.to_nat (Z.log2 d))) n d Hn) as (A & B & C).
    { apply Z.lt_le_incl. apply Z.lt_le_trans with (1 := L). rewrite <- (Z.mul_1_l (10 ^ _)) at 1.
      apply Z.mul_le_mono_nonneg_r; [|lia]. apply Z.pow_nonneg. lia. }
    set (k := ilog10_down _ n d) in *. destruct (C E) as [C1 C2].
    rewrite Zle_Qle in B. rewrite Zlt_Qlt in C2. rewrite inject_Z_mult, <- p10_nonneg in B, C2 by lia.
    assert (E1 : (p10 k * p10 (- k) == 1)%Q) by (rewrite <- p10_plus; replace (k + - k) with 0 by lia; reflexivity).
    assert (E2 : (p10 (k - 1) * p10 (- k + 1) == 1)%Q) by (rewrite <- p10_plus; replace (k - 1 + (- k + 1)) with 0 by lia; reflexivity).
    split.
    + assert (P := p10_pos (- k)). apply (Qmult_le_r _ _ _ P) in B.
      rewrite <- Qmult_assoc, E1, Qmult_1_r in B. exact B.
    + assert (P := p10_pos (- k + 1)). apply (Qmult_lt_r _ _ _ P) in C2.
      rewrite <- Qmult_assoc, E2, Qmult_1_r in C2. exact C2.
Qed.

Lemma div_even_spec : forall n d, 0 < d -> Z.abs (2 * (n - d * div_even n d)) <= d.
Proof.
  intros n d Hd. unfold div_even. assert (D := Z.div_mod n d ltac:(lia)). assert (M := Z.mod_pos_bound n d Hd).
  set (f := n / d) in *. set (r := n mod d) in *.
  destruct (2 * r <? d) eqn:E1; [apply Z.ltb_lt in E1; lia|]. apply Z.ltb_ge in E1.
  destruct (d <? 2 * r) eqn:E2; [apply Z.ltb_lt in E2; lia|]. apply Z.ltb_ge in E2.
  destruct (Z.even f); lia.
Qed.
Lemma div_even_bounds : forall n d a b, 0 < d -> d * a <= n -> n < d * b -> a <= div_even n d <= b.
Proof.
  intros n d a b Hd H1 H2. unfold div_even. assert (D := Z.div_mod n d ltac:(lia)). assert (M := Z.mod_pos_bound n d Hd).
  assert (A : a <= n / d) by (apply Z.div_le_lower_bound; lia).
  assert (B : n / d < b) by (apply Z.div_lt_upper_bound; lia).
  destruct (2 * (n mod d) <? d); [lia|]. destruct (d <? 2 * (n mod d)); [lia|]. destruct (Z.even (n / d)); lia.
Qed.

(** * The six digits *)
Lemma Qabs_le_scale : forall n d M E : Q, (0 < d)%Q -> (0 < E)%Q ->
  (Qabs (2 * (n * E - d * M)) <= d -> Qabs (n / d - M / E) <= (1 # 2) * / E)%Q.
Proof.
  intros n d M E Hd He H.
  assert (N1 : ~ (d == 0)%Q) by lra. assert (N2 : ~ (E == 0)%Q) by lra.
  apply Qabs_Qle_condition in H. apply Qabs_Qle_condition.
  assert (I1 : (0 < / (2 * d * E))%Q).
  { apply Qinv_lt_0_compat. apply Qmult_lt_0_compat; [lra|exact He]. }
  assert (X : (n / d - M / E == (2 * (n * E - d * M)) * / (2 * d * E))%Q) by (field; split; assumption).
  assert (Y : ((1 # 2) * / E == d * / (2 * d * E))%Q).
  { setoid_replace (1 # 2)%Q with (/ 2)%Q by reflexivity. field. split; assumption. }
  rewrite X, Y. destruct H as [H1 H2].
  apply (Qmult_le_r _ _ _ I1) in H1. apply (Qmult_le_r _ _ _ I1) in H2. split; [|exact H2].
  setoid_replace (- (d * / (2 * d * E)))%Q with (- d * / (2 * d * E))%Q by ring. exact H1.
Qed.

Lemma sig6_spec : forall n d, 0 < n -> 0 < d ->
  let '(M, X) := sig6 n d in
  100000 <= M < 1000000 /\
  exists m e, (inject_Z M * p10 (X - 5) == inject_Z m * p10 e /\
    Qabs (inject_Z n / inject_Z d - inject_Z m * p10 e) <= (1 # 2) * p10 e /\
    inject_Z 100000 * p10 e <= inject_Z n / inject_Z d /\
    inject_Z n / inject_Z d < inject_Z 1000000 * p10 e)%Q.
Proof.
  intros n d Hn Hd. unfold sig6. destruct (ilog10_spec n d Hn Hd) as [L1 L2]. set (X := ilog10 n d) in *.
  set (M := if X <=? 5 then div_even (n * 10 ^ (5 - X)) d else div_even n (d * 10 ^ (X - 5))).
  assert (Qd : (0 < inject_Z d)%Q) by (change 0%Q with (inject_Z 0); rewrite <- Zlt_Qlt; exact Hd).
  assert (P1 : (p10 X == inject_Z 100000 * p10 (X - 5))%Q).
  { replace X with (5 + (X - 5)) at 1 by lia. rewrite p10_plus. reflexivity. }
  assert (P2 : (p10 (X + 1) == inject_Z 1000000 * p10 (X - 5))%Q).
  { replace (X + 1) with (6 + (X - 5)) at 1 by lia. rewrite p10_plus. reflexivity. }
  assert (K : 100000 <= M <= 1000000 /\ (Qabs (inject_Z n / inject_Z d - inject_Z M * p10 (X - 5)) <= (1 # 2) * p10 (X - 5))%Q).
  { unfold M. destruct (X <=? 5) eqn:E.
    - apply Z.leb_le in E. assert (I : (p10 (X - 5) == / inject_Z (10 ^ (5 - X)))%Q).
      { rewrite <- p10_nonneg by lia. replace (X - 5) with (- (5 - X)) by lia. apply Qpower_opp. }
      assert (Pp : 0 < 10 ^ (5 - X)) by (apply Z.pow_pos_nonneg; lia).
      assert (Qp : (0 < inject_Z (10 ^ (5 - X)))%Q) by (change 0%Q with (inject_Z 0); rewrite <- Zlt_Qlt; exact Pp).
      split.
      + apply div_even_bounds; [exact Hd| |].
        * rewrite P1, I in L1.
          apply (Qmult_le_r _ _ _ Qp) in L1.
          setoid_replace (inject_Z d * (inject_Z 100000 * / inject_Z (10 ^ (5 - X))) * inject_Z (10 ^ (5 - X)))%Q
            with (inject_Z d * inject_Z 100000)%Q in L1 by (field; lra).
          rewrite <- !inject_Z_mult, <- Zle_Qle in L1. exact L1.
        * rewrite P2, I in L2.
          apply (Qmult_lt_r _ _ _ Qp) in L2.
          setoid_replace (inject_Z d * (inject_Z 1000000 * / inject_Z (10 ^ (5 - X))) * inject_Z (10 ^ (5 - X)))%Q
            with (inject_Z d * inject_Z 1000000)%Q in L2 by (field; lra).
          rewrite <- !inject_Z_mult, <- Zlt_Qlt in L2. exact L2.
      + assert (S := div_even_spec (n * 10 ^ (5 - X)) d Hd). set (m := div_even _ _) in *.
        rewrite I. apply (Qabs_le_scale _ _ _ _ Qd Qp).
        change 2%Q with (inject_Z 2). unfold Qminus. rewrite <- !inject_Z_mult, <- inject_Z_opp, <- inject_Z_plus, <- inject_Z_mult.
        rewrite Qabs_inject, <- Zle_Qle. replace (n * 10 ^ (5 - X) + - (d * m)) with (n * 10 ^ (5 - X) - d * m) by ring. exact S.
    - apply Z.leb_gt in E. assert (I : (p10 (X - 5) == inject_Z (10 ^ (X - 5)))%Q) by (apply p10_nonneg; lia).
      assert (Pp : 0 < 10 ^ (X - 5)) by (apply Z.pow_pos_nonneg; lia).
      assert (Qp : (0 < inject_Z (10 ^ (X - 5)))%Q) by (change 0%Q with (inject_Z 0); rewrite <- Zlt_Qlt; exact Pp).
      assert (Dp : 0 < d * 10 ^ (X - 5)) by (apply Z.mul_pos_pos; assumption).
      split.
      + apply div_even_bounds; [exact Dp| |].
        * rewrite P1, I, <- !inject_Z_mult, <- Zle_Qle in L1. lia.
        * rewrite P2, I, <- !inject_Z_mult, <- Zlt_Qlt in L2. lia.
      + assert (S := div_even_spec n (d * 10 ^ (X - 5)) Dp). set (m := div_even _ _) in *.
        rewrite I. assert (Qq : (0 < / inject_Z (10 ^ (X - 5)))%Q) by (apply Qinv_lt_0_compat; exact Qp).
        setoid_replace (inject_Z m * inject_Z (10 ^ (X - 5)))%Q with (inject_Z m / (/ inject_Z (10 ^ (X - 5))))%Q by (field; lra).
        setoid_replace ((1 # 2) * inject_Z (10 ^ (X - 5)))%Q with ((1 # 2) * / / inject_Z (10 ^ (X - 5)))%Q
          by (rewrite Qinv_involutive; reflexivity).
        apply (Qabs_le_scale _ _ _ _ Qd Qq).
        apply Qabs_Qle_condition.
        assert (S' : - (d * 10 ^ (X - 5)) <= 2 * (n - d * 10 ^ (X - 5) * m) <= d * 10 ^ (X - 5)) by lia.
        destruct S' as [S1 S2]. rewrite Zle_Qle in S1. rewrite Zle_Qle in S2.
        unfold Zminus in S1, S2. rewrite inject_Z_opp, !inject_Z_mult, inject_Z_plus, inject_Z_opp, !inject_Z_mult in S1.
        rewrite !inject_Z_mult, inject_Z_plus, inject_Z_opp, !inject_Z_mult in S2. change (inject_Z 2) with 2%Q in S1, S2.
        apply (Qmult_le_r _ _ _ Qq) in S1. apply (Qmult_le_r _ _ _ Qq) in S2.
        change (10 ^ (X + -5)) with (10 ^ (X - 5)) in S1, S2.
        set (T := inject_Z (10 ^ (X - 5))) in *.
        assert (NT : ~ (T == 0)%Q) by (clearbody T; lra).
        setoid_replace (2 * (inject_Z n * / T - inject_Z d * inject_Z m))%Q
          with (2 * (inject_Z n + - (inject_Z d * T * inject_Z m)) * / T)%Q by (field; exact NT).
        split.
        * setoid_replace (- inject_Z d)%Q with (- (inject_Z d * T) * / T)%Q by (field; exact NT). exact S1.
        * apply Qle_trans with (inject_Z d * T * / T)%Q; [exact S2|].
          setoid_replace (inject_Z d * T * / T)%Q with (inject_Z d) by (field; exact NT). apply Qle_refl. }
  destruct K as [K1 K2].
  assert (R1 : (inject_Z 100000 * p10 (X - 5) <= inject_Z n / inject_Z d)%Q).
  { apply Qle_shift_div_l; [exact Qd|]. rewrite <- P1. rewrite Qmult_comm. exact L1. }
  assert (R2 : (inject_Z n / inject_Z d < inject_Z 1000000 * p10 (X - 5))%Q).
  { apply Qlt_shift_div_r; [exact Qd|]. rewrite <- P2. rewrite Qmult_comm. exact L2. }
  destruct (M =? 1000000) eqn:E; cbv iota beta.
  - apply Z.eqb_eq in E. split; [lia|]. exists M, (X - 5). split; [|repeat split; assumption].
    replace (X + 1 - 5) with (1 + (X - 5)) by lia. rewrite p10_plus, E. change (p10 1) with (inject_Z 10).
    rewrite Qmult_assoc, <- inject_Z_mult. reflexivity.
  - apply Z.eqb_neq in E. split; [lia|]. exists M, (X - 5). split; [reflexivity|repeat split; assumption].
Qed.

(** * The text *)
Lemma strip_zeros_split : forall rs, exists k, rs = repeat "0"%char k ++ strip_zeros rs.
Proof.
  induction rs as [|c r [k E]]; [exists O; reflexivity|].
  cbn [strip_zeros]. destruct (Ascii.eqb c "0") eqn:Ec.
  - apply Ascii.eqb_eq in Ec. subst c. exists (S k). cbn [repeat app]. rewrite <- E. reflexivity.
  - exists O. reflexivity.
Qed.
Lemma rev_repeat : forall (A : Type) (x : A) k, rev (repeat x k) = repeat x k.
Proof.
  induction k as [|k IH]; [reflexivity|]. cbn [repeat rev]. rewrite IH.
  clear IH. induction k as [|k IH]; [reflexivity|]. cbn [repeat app]. rewrite IH. reflexivity.
Qed.
Lemma drop_trailing_split : forall s, exists k, s = drop_trailing_zeros s ++ repeat "0"%char k.
Proof.
  intro s. destruct (strip_zeros_split (rev s)) as [k E]. exists k. unfold drop_trailing_zeros.
  rewrite <- (rev_involutive s), E at 1. rewrite rev_app_distr, rev_repeat. reflexivity.
Qed.
Lemma dec_zeros : forall k x, dec_from x (repeat "0"%char k) = x * 10 ^ Z.of_nat k.
Proof.
  induction k as [|k IH]; intro x; [simpl; unfold dec_from; simpl; lia|].
  cbn [repeat]. change (dec_from x ("0"%char :: repeat "0"%char k)) with (dec_from (10 * x + (48 - 48)) (repeat "0"%char k)).
  rewrite IH, Nat2Z.inj_succ, Z.pow_succ_r by lia. ring.
Qed.

(** [ip . fp e ex] without its trailing zeros. *)
Lemma parse_with_point : forall ws neg ip fp ex rest, (forall c, In c ws -> white c) -> ends rest ->
  ip <> [] -> (forall c, In c ip -> digit c) -> (forall c, In c fp -> digit c) ->
  (forall neg ds, ex = Some (neg, ds) -> ds <> [] /\ forall c, In c ds -> digit c) ->
  exists q, parse_double (ws ++ sign_chars neg ++ with_point ip fp ++ exp_chars ex ++ rest) = Some (q, rest) /\
    (q == inject_Z (if neg then - decimal (ip ++ fp) else decimal (ip ++ fp)) *
          p10 (exp_value ex - Z.of_nat (length fp)))%Q.
Proof.
  intros ws neg ip fp ex rest Hw He Hne Hip Hfp Hex.
  destruct (drop_trailing_split fp) as [k E]. set (f := drop_trailing_zeros fp) in *.
  assert (Hf : forall c, In c f -> digit c) by (intros c Hc; apply Hfp; rewrite E; apply in_or_app; left; exact Hc).
  assert (V : forall fo, frac_digits fo = f ->
    (dec_value neg (decimal (ip ++ frac_digits fo)) (exp_value ex - Z.of_nat (length (frac_digits fo))) ==
     inject_Z (if neg then - decimal (ip ++ fp) else decimal (ip ++ fp)) * p10 (exp_value ex - Z.of_nat (length fp)))%Q).
  { intros fo Ef. rewrite Ef, dec_value_eq, E.
    replace (decimal (ip ++ f ++ repeat "0"%char k)) with (decimal (ip ++ f) * 10 ^ Z.of_nat k).
    2:{ change (decimal (ip ++ f) * 10 ^ Z.of_nat k = dec_from 0 (ip ++ f ++ repeat "0"%char k)).
        rewrite app_assoc, dec_from_app, dec_zeros. reflexivity. }
    rewrite app_length, repeat_length, Nat2Z.inj_add.
    replace (exp_value ex - Z.of_nat (length f)) with (Z.of_nat k + (exp_value ex - (Z.of_nat (length f) + Z.of_nat k))) by lia.
    rewrite p10_plus, (p10_nonneg (Z.of_nat k)) by lia. rewrite Qmult_assoc, <- inject_Z_mult.
    destruct neg; [rewrite Z.mul_opp_l|]; reflexivity. }
  unfold with_point. fold f. destruct f as [|c0 f0] eqn:Ef0.
  - eexists. split.
    + exact (parse_double_chars ws neg ip None ex rest Hw He Hne Hip (fun c H => match H with end) Hex).
    + apply V. reflexivity.
  - eexists. split.
    + rewrite <- (app_assoc ip). exact (parse_double_chars ws neg ip (Some (c0 :: f0)) ex rest Hw He Hne Hip Hf Hex).
    + apply V. reflexivity.
Qed.

Lemma show_nat_len6 : forall M, 100000 <= M < 1000000 -> length (show_nat M) = 6%nat.
Proof.
  intros M H. destruct (show_nat_spec M ltac:(lia)) as (_ & _ & N & C & L). specialize (C ltac:(lia)).
  assert (Hl : 5 < Z.of_nat (length (show_nat M))).
  { apply (Z.pow_lt_mono_r_iff 10); [lia|lia|]. change (10 ^ 5) with 100000. lia. }
  assert (Hu : Z.of_nat (length (show_nat M)) - 1 < 6).
  { apply (Z.pow_lt_mono_r_iff 10); [lia|lia|]. change (10 ^ 6) with 1000000. lia. }
  lia.
Qed.

Lemma digits_zero : forall c k, In c (repeat "0"%char k) -> digit c.
Proof. intros c k H. apply repeat_spec in H. subst c. unfold digit. vm_compute. lia. Qed.

Lemma parse_show_pos : forall ws neg n d rest, (forall c, In c ws -> white c) -> ends rest -> 0 < n -> 0 < d ->
  exists q, parse_double (ws ++ sign_chars neg ++ show_pos n d ++ rest) = Some (q, rest) /\
    (q == inject_Z (if neg then - fst (sig6 n d) else fst (sig6 n d)) * p10 (snd (sig6 n d) - 5))%Q.
Proof.
  intros ws neg n d rest Hw He Hn Hd. unfold show_pos. assert (S := sig6_spec n d Hn Hd).
  destruct (sig6 n d) as [M X]. cbn [fst snd]. destruct S as [HM _].
  destruct (show_nat_spec M ltac:(lia)) as (A & B & N & _). assert (L := show_nat_len6 M HM).
  set (ds := show_nat M) in *.
  assert (Sp : forall k, (1 <= k)%nat -> firstn k ds <> [] /\ (forall c, In c (firstn k ds) -> digit c) /\
    (forall c, In c (skipn k ds) -> digit c) /\ decimal (firstn k ds ++ skipn k ds) = M).
  { intros k Hk. split; [|split; [|split]].
    - intro E. apply (f_equal (@length ascii)) in E. rewrite firstn_length, L in E. cbn [length] in E. lia.
    - intros c H. apply A. rewrite <- (firstn_skipn k ds). apply in_or_app. left. exact H.
    - intros c H. apply A. rewrite <- (firstn_skipn k ds). apply in_or_app. right. exact H.
    - rewrite firstn_skipn. exact B. }
  destruct ((X <? -4) || (6 <=? X))%bool eqn:E1.
  - destruct (Sp 1%nat ltac:(lia)) as (S1 & S2 & S3 & S4).
    set (es := if Z.abs X <? 10 then "0"%char :: show_nat (Z.abs X) else show_nat (Z.abs X)).
    assert (Hes : es <> [] /\ (forall c, In c es -> digit c) /\ decimal es = Z.abs X).
    { destruct (show_nat_spec (Z.abs X) ltac:(lia)) as (A' & B' & N' & _). unfold es. destruct (Z.abs X <? 10).
      - split; [discriminate|]. split; [|exact B']. intros c [H|H]; [|apply A'; exact H]. subst c. unfold digit. vm_compute. lia.
      - auto. }
    destruct Hes as (N1 & N2 & N3).
    destruct (parse_with_point ws neg (firstn 1 ds) (skipn 1 ds) (Some (X <? 0, es)) rest Hw He S1 S2 S3) as [q [P V]].
    { intros ng ds' Eq. injection Eq as E2 E3. rewrite <- E3. auto. }
    exists q. split.
    + rewrite <- P. f_equal. f_equal. f_equal. rewrite <- app_assoc. reflexivity.
    + rewrite V, S4, skipn_length, L. cbn [exp_value]. rewrite N3.
      replace ((if X <? 0 then - Z.abs X else Z.abs X) - Z.of_nat (6 - 1)) with (X - 5); [reflexivity|].
      change (Z.of_nat (6 - 1)) with 5. destruct (X <? 0) eqn:E2; [apply Z.ltb_lt in E2|apply Z.ltb_ge in E2]; lia.
  - apply orb_false_iff in E1. destruct E1 as [E1 E2]. apply Z.ltb_ge in E1. apply Z.leb_gt in E2.
    destruct (0 <=? X) eqn:E3.
    + apply Z.leb_le in E3. destruct (Sp (Z.to_nat X + 1)%nat ltac:(lia)) as (S1 & S2 & S3 & S4).
      destruct (parse_with_point ws neg _ _ None rest Hw He S1 S2 S3) as [q [P V]]; [discriminate|].
      exists q. split; [exact P|]. rewrite V, S4, skipn_length, L. cbn [exp_value].
      replace (0 - Z.of_nat (6 - (Z.to_nat X + 1))) with (X - 5) by lia. reflexivity.
    + apply Z.leb_gt in E3.
      destruct (parse_with_point ws neg ["0"%char] (repeat "0"%char (Z.to_nat (- X) - 1) ++ ds) None rest Hw He) as [q [P V]].
      * discriminate.
      * intros c H. apply (digits_zero c 1). exact H.
      * intros c H. apply in_app_or in H. destruct H as [H|H]; [apply (digits_zero c _ H)|apply A; exact H].
      * discriminate.
      * exists q. split; [exact P|]. rewrite V. cbn [exp_value].
        replace (decimal (["0"%char] ++ repeat "0"%char (Z.to_nat (- X) - 1) ++ ds)) with M.
        2:{ change (["0"%char] ++ repeat "0"%char (Z.to_nat (- X) - 1) ++ ds)
              with (repeat "0"%char (S (Z.to_nat (- X) - 1)) ++ ds).
            change (M = dec_from 0 (repeat "0"%char (S (Z.to_nat (- X) - 1)) ++ ds)).
            rewrite dec_from_app, dec_zeros. symmetry. exact B. }
        rewrite app_length, repeat_length, L.
        replace (0 - Z.of_nat (Z.to_nat (- X) - 1 + 6)) with (X - 5) by lia. reflexivity.
Qed.

Lemma Qmake_div : forall q, (q == inject_Z (Qnum q) / inject_Z (Zpos (Qden q)))%Q.
Proof. intros [n d]. apply (Qmake_Qdiv n d). Qed.

Lemma parse_show_double : forall ws q rest, (forall c, In c ws -> white c) -> ends rest ->
  exists v, parse_double (ws ++ show_double q ++ rest) = Some (v, rest) /\ six_digits q v.
Proof.
  intros ws q rest Hw He. unfold show_double.
  destruct (Qnum q =? 0) eqn:E0.
  - apply Z.eqb_eq in E0. exists (inject_Z 0). split.
    + exact (parse_show_int ws 0 rest Hw He).
    + left. split; [|reflexivity]. rewrite Qmake_div, E0. unfold Qdiv. apply Qmult_0_l.
  - apply Z.eqb_neq in E0.
    assert (Main : forall (neg : bool) (n : Z), 0 < n -> Qnum q = (if neg then - n else n) ->
      exists v, parse_double (ws ++ sign_chars neg ++ show_pos n (Zpos (Qden q)) ++ rest) = Some (v, rest) /\ six_digits q v).
    { intros neg n Hn Eq. assert (Hd : 0 < Zpos (Qden q)) by reflexivity.
      assert (S := sig6_spec n _ Hn Hd). destruct (parse_show_pos ws neg n _ rest Hw He Hn Hd) as [v [P V]].
      destruct (sig6 n (Zpos (Qden q))) as [M X]. cbn [fst snd] in V.
      destruct S as [_ (m & e & Em & S1 & S2 & S3)].
      exists v. split; [exact P|]. right.
      exists (if neg then - m else m), e.
      assert (Eq' := Qmake_div q). rewrite Eq in Eq'.
      assert (Pa : (0 < inject_Z n / inject_Z (Zpos (Qden q)))%Q).
      { apply Qlt_shift_div_l; [reflexivity|]. rewrite Qmult_0_l. change 0%Q with (inject_Z 0). rewrite <- Zlt_Qlt. exact Hn. }
      set (a := (inject_Z n / inject_Z (Zpos (Qden q)))%Q) in *.
      assert (Ev : (v == inject_Z (if neg then - m else m) * p10 e)%Q).
      { destruct neg; rewrite V; [|exact Em].
        rewrite !inject_Z_opp. setoid_replace (- inject_Z M * p10 (X - 5))%Q with (- (inject_Z M * p10 (X - 5)))%Q by ring.
        rewrite Em. ring. }
      assert (Ea : (Qabs q == a)%Q).
      { rewrite Eq'. destruct neg.
        - rewrite inject_Z_opp. setoid_replace (- inject_Z n / inject_Z (Zpos (Qden q)))%Q with (- a)%Q
            by (unfold a, Qdiv; ring). rewrite Qabs_opp. apply Qabs_pos. lra.
        - apply Qabs_pos. lra. }
      split; [exact Ev|]. split; [|rewrite Ea; split; assumption].
      rewrite Ev, Eq'. destruct neg.
      - rewrite !inject_Z_opp.
        setoid_replace (- inject_Z n / inject_Z (Zpos (Qden q)) - - inject_Z m * p10 e)%Q with (- (a - inject_Z m * p10 e))%Q
          by (unfold a, Qdiv; ring).
        rewrite Qabs_opp. exact S1.
      - exact S1. }
    destruct (Qnum q <? 0) eqn:E1.
    + apply Z.ltb_lt in E1. apply (Main true (- Qnum q)); lia.
    + apply Z.ltb_ge in E1. apply (Main false (Qnum q)); lia.
Qed.

(** * Consequences of the specification *)
(** At most six significant digits: nothing is lost. *)
Lemma Qint_small : forall (z : Z) (E : Q), (0 < E)%Q -> (Qabs (inject_Z z * E) <= (1 # 2) * E)%Q -> z = 0.
Proof.
  intros z E HE H. rewrite Qabs_Qmult, (Qabs_pos E) in H by lra. apply (proj1 (Qmult_le_r _ _ _ HE)) in H.
  rewrite Qabs_inject in H. change (Z.abs z * 2 <= 1 * 1) in H. lia.
Qed.

Lemma six_digits_exact : forall q v, six_digits q v ->
  (exists m e, Z.abs m < 1000000 /\ (q == inject_Z m * p10 e)%Q) -> (v == q)%Q.
Proof.
  intros q v [[H1 H2]|(m & e & E & R & B1 & B2)] (m0 & e0 & Hm0 & E0); [rewrite H1, H2; reflexivity|].
  assert (P := p10_pos e).
  destruct (Z_lt_dec e0 e) as [Hlt|Hge].
  - exfalso. assert (Q1 : (Qabs q == inject_Z (Z.abs m0) * p10 e0)%Q).
    { rewrite E0, Qabs_Qmult, (Qabs_pos (p10 e0)) by (apply Qlt_le_weak, p10_pos). rewrite Qabs_inject. reflexivity. }
    assert (Q2 : (p10 e == p10 e0 * inject_Z (10 ^ (e - e0)))%Q).
    { rewrite <- p10_nonneg, <- p10_plus by lia. replace (e0 + (e - e0)) with e by lia. reflexivity. }
    rewrite Q1, Q2 in B1.
    setoid_replace (inject_Z 100000 * (p10 e0 * inject_Z (10 ^ (e - e0))))%Q
      with ((inject_Z 100000 * inject_Z (10 ^ (e - e0))) * p10 e0)%Q in B1 by ring.
    apply (proj1 (Qmult_le_r _ _ _ (p10_pos e0))) in B1. rewrite <- inject_Z_mult, <- Zle_Qle in B1.
    assert (10 <= 10 ^ (e - e0)).
    { change 10 with (10 ^ 1) at 1. apply Z.pow_le_mono_r; lia. }
    lia.
  - assert (Q2 : (p10 e0 == inject_Z (10 ^ (e0 - e)) * p10 e)%Q).
    { rewrite <- p10_nonneg, <- p10_plus by lia. replace (e0 - e + e) with e0 by lia. reflexivity. }
    assert (D : (q - v == inject_Z (m0 * 10 ^ (e0 - e) - m) * p10 e)%Q).
    { rewrite E0, E, Q2. unfold Zminus. rewrite inject_Z_plus, inject_Z_mult, inject_Z_opp. ring. }
    rewrite D in R. apply Qint_small in R; [|exact P]. rewrite R in D. rewrite Qmult_0_l in D. lra.
Qed.

(** The relative error is at most 5/10^6. *)
Lemma six_digits_close : forall q v, six_digits q v -> (Qabs (q - v) <= (5 # 1000000) * Qabs q)%Q.
Proof.
  intros q v [[H1 H2]|(m & e & E & R & B1 & B2)].
  - rewrite H1, H2. discriminate.
  - apply Qle_trans with (1 := R). change (inject_Z 100000) with (100000 # 1)%Q in B1. set (t := p10 e) in *. set (a := Qabs q) in *. lra.
Qed.
