(** Lemmas about numbers written as text and read back. *)
From Verif Require Import Base SettingsModel SettingsProofs SdtModel.
From Coq Require Import ZArith QArith Qabs Qpower Lqa Zquot.
Local Open Scope Z_scope.

(** * Decimal digits *)
Lemma dec_from_app : forall a b x, dec_from x (a ++ b) = dec_from (dec_from x a) b.
Proof. intros a b x. unfold dec_from. apply fold_left_app. Qed.

Lemma dec_from_shift : forall ds x, dec_from x ds = x * 10 ^ Z.of_nat (length ds) + dec_from 0 ds.
Proof.
  induction ds as [|c ds IH]; intro x.
  - simpl. unfold dec_from. simpl. lia.
  - change (dec_from x (c :: ds)) with (dec_from (10 * x + (Z.of_nat (nat_of_ascii c) - 48)) ds).
    change (dec_from 0 (c :: ds)) with (dec_from (10 * 0 + (Z.of_nat (nat_of_ascii c) - 48)) ds).
    rewrite IH. rewrite (IH (10 * 0 + _)). cbn [length]. rewrite Nat2Z.inj_succ, Z.pow_succ_r by lia. ring.
Qed.

Lemma digit_char : forall z, 0 <= z < 10 -> nat_of_ascii (ascii_of_nat (Z.to_nat z + 48)) = (Z.to_nat z + 48)%nat.
Proof. intros z H. apply nat_ascii_embedding. lia. Qed.

Lemma digits_rev_S : forall f z, digits_rev (S f) z =
  ascii_of_nat (Z.to_nat (z mod 10) + 48) :: (if z <? 10 then [] else digits_rev f (z / 10)).
Proof. reflexivity. Qed.

Lemma digits_rev_spec : forall f z, 0 <= z < 10 ^ Z.of_nat f -> 0 < z \/ f <> O ->
  (forall c, In c (digits_rev f z) -> digit c) /\
  dec_from 0 (rev (digits_rev f z)) = z /\
  (10 <= z -> 10 ^ (Z.of_nat (length (digits_rev f z)) - 1) <= z) /\
  (z < 10 ^ Z.of_nat (length (digits_rev f z))) /\ digits_rev f z <> [].
Proof.
  induction f as [|f IH]; intros z Hz Hf.
  - change (10 ^ Z.of_nat 0) with 1 in Hz. exfalso. destruct Hf; [lia|contradiction].
  - rewrite digits_rev_S. assert (Hm := Z.mod_pos_bound z 10 ltac:(lia)).
    assert (Hd := digit_char (z mod 10) Hm).
    rewrite Nat2Z.inj_succ, Z.pow_succ_r in Hz by lia.
    destruct (z <? 10) eqn:E.
    + apply Z.ltb_lt in E. assert (E2 : z mod 10 = z) by (apply Z.mod_small; lia).
      split; [|split; [|split; [|split]]].
      * intros c [H|[]]. subst c. unfold digit. rewrite Hd. lia.
      * change (10 * 0 + (Z.of_nat (nat_of_ascii (ascii_of_nat (Z.to_nat (z mod 10) + 48))) - 48) = z).
        rewrite Hd. lia.
      * lia.
      * cbn [length]. change (10 ^ Z.of_nat 1) with 10. lia.
      * discriminate.
    + apply Z.ltb_ge in E. assert (D := Z.div_mod z 10 ltac:(lia)).
      assert (D1 : 1 <= z / 10) by (apply Z.div_le_lower_bound; lia).
      assert (D2 : z / 10 < 10 ^ Z.of_nat f) by (apply Z.div_lt_upper_bound; lia).
      destruct (IH (z / 10) ltac:(lia) ltac:(lia)) as (A & B & C & L & N).
      split; [|split; [|split; [|split]]].
      * intros c [H|H]; [|apply A; exact H]. subst c. unfold digit. rewrite Hd. lia.
      * cbn [rev]. rewrite dec_from_app, B.
        change (10 * (z / 10) + (Z.of_nat (nat_of_ascii (ascii_of_nat (Z.to_nat (z mod 10) + 48))) - 48) = z).
        rewrite Hd. lia.
      * intros _. cbn [length]. rewrite Nat2Z.inj_succ.
        replace (Z.succ (Z.of_nat (length (digits_rev f (z / 10)))) - 1) with (Z.of_nat (length (digits_rev f (z / 10)))) by lia.
        destruct (Z_lt_dec (z / 10) 10) as [Hs|Hs].
        -- destruct f as [|f']; [contradiction|].
           rewrite digits_rev_S. rewrite (proj2 (Z.ltb_lt (z / 10) 10) Hs). cbn [length]. change (10 ^ Z.of_nat 1) with 10. lia.
        -- assert (C' := C ltac:(lia)).
           destruct (digits_rev f (z / 10)) as [|c l]; [contradiction|].
           cbn [length] in C' |- *. rewrite Nat2Z.inj_succ in *. rewrite Z.pow_succ_r by lia.
           replace (Z.succ (Z.of_nat (length l)) - 1) with (Z.of_nat (length l)) in C' by lia. lia.
      * cbn [length]. rewrite Nat2Z.inj_succ, Z.pow_succ_r by lia. lia.
      * discriminate.
Qed.

Lemma log2_fuel : forall z, 0 <= z -> z < 10 ^ Z.of_nat (S (Z.to_nat (Z.log2 z))).
Proof.
  intros z Hz. rewrite Nat2Z.inj_succ, Z2Nat.id by apply Z.log2_nonneg.
  destruct (Z.eq_dec z 0) as [E|E]; [subst; reflexivity|].
  assert (H := Z.log2_spec z ltac:(lia)).
  apply Z.lt_le_trans with (2 ^ Z.succ (Z.log2 z)); [lia|].
  apply Z.pow_le_mono_l. assert (H2 := Z.log2_nonneg z). lia.
Qed.

Lemma show_nat_spec : forall z, 0 <= z ->
  (forall c, In c (show_nat z) -> digit c) /\ decimal (show_nat z) = z /\ show_nat z <> [] /\
  (10 <= z -> 10 ^ (Z.of_nat (length (show_nat z)) - 1) <= z) /\ z < 10 ^ Z.of_nat (length (show_nat z)).
Proof.
  intros z Hz. unfold show_nat.
  destruct (digits_rev_spec (S (Z.to_nat (Z.log2 z))) z (conj Hz (log2_fuel z Hz))) as (A & B & C & L & N); [right; discriminate|].
  rewrite rev_length. split; [intros c H; apply A; apply in_rev; exact H|]. split; [exact B|].
  split; [intro E; apply N; rewrite <- (rev_involutive (digits_rev _ _)), E; reflexivity|].
  split; assumption.
Qed.

(** * Reading integers *)

(** What may follow a number or a word: the end or white space. *)
Definition ends (rest : str) : Prop := forall c r, rest = c :: r -> white c.
Lemma ends_nil : ends []. Proof. intros c r H. discriminate. Qed.
Lemma ends_sp : forall r, ends (cSP :: r).
Proof. intros r c r' H. inversion H; subst. left. reflexivity. Qed.
Lemma ends_not_digit : forall rest, ends rest -> forall c r, rest = c :: r -> ~ digit c.
Proof. intros rest H c r E D. apply (white_not_digit c (H c r E) D). Qed.

Lemma white_sp : forall c, In c [cSP] -> white c.
Proof. intros c [H|[]]. subst c. left. reflexivity. Qed.

Lemma strto_show_int : forall ws z rest, (forall c, In c ws -> white c) -> ends rest ->
  strto (ws ++ show_int z ++ rest) = Some (z <? 0, Z.abs z, rest).
Proof.
  intros ws z rest Hw He. unfold show_int.
  destruct (z <? 0) eqn:E.
  - apply Z.ltb_lt in E. destruct (show_nat_spec (- z) ltac:(lia)) as (A & B & N & _).
    refine (eq_trans (strto_numeral ws ["-"%char] true (show_nat (- z)) rest Hw sg_minus N A (ends_not_digit rest He)) _).
    rewrite B. repeat f_equal. lia.
  - apply Z.ltb_ge in E. destruct (show_nat_spec z E) as (A & B & N & _).
    refine (eq_trans (strto_numeral ws [] false (show_nat z) rest Hw sg_none N A (ends_not_digit rest He)) _).
    rewrite B. repeat f_equal. lia.
Qed.

Lemma get_u64_show : forall ws z rest, (forall c, In c ws -> white c) -> ends rest -> 0 <= z < 2 ^ 64 ->
  get_u64 (ws ++ show_int z ++ rest) = Some (z, rest).
Proof.
  intros ws z rest Hw He Hz. unfold get_u64, sto_unsigned64. rewrite strto_show_int by assumption.
  replace (z <? 0) with false by (symmetry; apply Z.ltb_ge; lia).
  replace (Z.abs z) with z by lia. replace (z <? 2 ^ 64) with true by (symmetry; apply Z.ltb_lt; lia). reflexivity.
Qed.

Lemma get_i32_show : forall ws z rest, (forall c, In c ws -> white c) -> ends rest -> - 2 ^ 31 <= z < 2 ^ 31 ->
  get_i32 (ws ++ show_int z ++ rest) = Some (z, rest).
Proof.
  intros ws z rest Hw He Hz. unfold get_i32, sto_signed. rewrite strto_show_int by assumption.
  change (32 - 1) with 31.
  replace (if z <? 0 then - Z.abs z else Z.abs z) with z.
  2:{ destruct (z <? 0) eqn:E; [apply Z.ltb_lt in E|apply Z.ltb_ge in E]; lia. }
  replace (- 2 ^ 31 <=? z) with true by (symmetry; apply Z.leb_le; lia).
  replace (z <? 2 ^ 31) with true by (symmetry; apply Z.ltb_lt; lia). reflexivity.
Qed.

(** * Reading floating-point texts *)

(** Sign, digits, optional fraction, optional exponent. *)
Definition sign_chars (neg : bool) : str := if neg then ["-"%char] else [].
Definition frac_chars (fp : option str) : str := match fp with None => [] | Some f => "."%char :: f end.
Definition exp_chars (ex : option (bool * str)) : str :=
  match ex with None => [] | Some (neg, ds) => "e"%char :: (if neg then "-"%char else "+"%char) :: ds end.
Definition frac_digits (fp : option str) : str := match fp with None => [] | Some f => f end.
Definition exp_value (ex : option (bool * str)) : Z :=
  match ex with None => 0 | Some (neg, ds) => if neg then - decimal ds else decimal ds end.

Lemma digit_not : forall c d, digit c -> ~ digit d -> Ascii.eqb c d = false.
Proof. intros c d H1 H2. apply Ascii.eqb_neq. intro E. subst. contradiction. Qed.

Lemma not_digit_minus : ~ digit "-"%char. Proof. unfold digit. vm_compute. lia. Qed.
Lemma not_digit_plus : ~ digit "+"%char. Proof. unfold digit. vm_compute. lia. Qed.
Lemma not_digit_dot : ~ digit "."%char. Proof. unfold digit. vm_compute. lia. Qed.
Lemma not_digit_e : ~ digit "e"%char. Proof. unfold digit. vm_compute. lia. Qed.
Lemma white_not_e : forall c, white c -> Ascii.eqb c "e"%char = false /\ Ascii.eqb c "E"%char = false /\ Ascii.eqb c "."%char = false.
Proof.
  intros c H. repeat split; apply Ascii.eqb_neq; intro E; subst c; unfold white in H; vm_compute in H; lia.
Qed.

Lemma parse_exponent_chars : forall ex rest, ends rest ->
  (forall neg ds, ex = Some (neg, ds) -> ds <> [] /\ forall c, In c ds -> digit c) ->
  parse_exponent (exp_chars ex ++ rest) = Some (exp_value ex, rest).
Proof.
  intros ex rest He H. destruct ex as [[neg ds]|]; simpl exp_chars.
  - destruct (H neg ds eq_refl) as [N D]. unfold parse_exponent. cbn [app].
    change (Ascii.eqb "e" "e" || Ascii.eqb "e" "E")%bool with true. cbv iota.
    assert (E : take_sign ((if neg then "-"%char else "+"%char) :: ds ++ rest) = (neg, ds ++ rest)) by (destruct neg; reflexivity).
    rewrite E. rewrite (take_digits_app ds 0 false rest D (ends_not_digit rest He)).
    destruct ds as [|d dd]; [contradiction|]. reflexivity.
  - cbn [app]. unfold parse_exponent. destruct rest as [|c r]; [reflexivity|].
    destruct (white_not_e c (He c r eq_refl)) as [E1 [E2 _]]. rewrite E1, E2. reflexivity.
Qed.

Lemma parse_double_chars : forall ws neg ip fp ex rest, (forall c, In c ws -> white c) -> ends rest ->
  ip <> [] -> (forall c, In c ip -> digit c) -> (forall c, In c (frac_digits fp) -> digit c) ->
  (forall neg ds, ex = Some (neg, ds) -> ds <> [] /\ forall c, In c ds -> digit c) ->
  parse_double (ws ++ sign_chars neg ++ ip ++ frac_chars fp ++ exp_chars ex ++ rest) =
  Some (dec_value neg (decimal (ip ++ frac_digits fp)) (exp_value ex - Z.of_nat (length (frac_digits fp))), rest).
Proof.
  intros ws neg ip fp ex rest Hw He Hne Hip Hfp Hex. unfold parse_double.
  destruct ip as [|d dd]; [contradiction|].
  assert (Hd : digit d) by (apply Hip; left; reflexivity).
  rewrite skip_spaces_app; [|exact Hw|].
  2:{ intros c r E Hc. destruct neg; inversion E; subst.
      - unfold white in Hc. vm_compute in Hc. lia.
      - apply (white_not_digit c Hc Hd). }
  assert (Es : take_sign (sign_chars neg ++ (d :: dd) ++ frac_chars fp ++ exp_chars ex ++ rest) =
               (neg, (d :: dd) ++ frac_chars fp ++ exp_chars ex ++ rest)).
  { destruct neg; [reflexivity|]. cbn [sign_chars app take_sign].
    rewrite (digit_not d "-" Hd not_digit_minus), (digit_not d "+" Hd not_digit_plus). reflexivity. }
  rewrite Es. clear Es.
  assert (Hexp : forall c r, exp_chars ex ++ rest = c :: r -> ~ digit c /\ Ascii.eqb c "."%char = false).
  { intros c r E. destruct ex as [[ng ds]|]; simpl in E.
    - inversion E; subst. split; [exact not_digit_e|reflexivity].
    - split; [apply (ends_not_digit rest He c r E)|]. apply (white_not_e c (He c r E)). }
  rewrite (take_digits_app (d :: dd) 0 false _ Hip).
  2:{ intros c r E. destruct fp as [f|]; simpl in E.
      - inversion E; subst. exact not_digit_dot.
      - apply (Hexp c r E). }
  destruct fp as [f|]; cbn [frac_chars frac_digits app] in *.
  - change (Ascii.eqb "." ".") with true. cbv iota.
    rewrite (take_digits_app f (dec_from 0 (d :: dd)) true (exp_chars ex ++ rest) Hfp) by (intros c r E; apply (Hexp c r E)).
    replace (match f with [] => true | _ => true end) with true by (destruct f; reflexivity).
    cbv iota beta. rewrite parse_exponent_chars by assumption.
    replace (Z.of_nat (length (f ++ exp_chars ex ++ rest)) - Z.of_nat (length (exp_chars ex ++ rest)))
      with (Z.of_nat (length f)) by (rewrite app_length; lia).
    f_equal. f_equal. f_equal.
    change (decimal (d :: dd ++ f)) with (dec_from 0 ((d :: dd) ++ f)). rewrite dec_from_app. reflexivity.
  - assert (P := parse_exponent_chars ex rest He Hex).
    destruct (exp_chars ex ++ rest) as [|c r] eqn:E.
    + rewrite P, app_nil_r. cbn [length]. change (Z.of_nat 0) with 0. rewrite !Z.sub_0_r. reflexivity.
    + destruct (Hexp c r eq_refl) as [_ Edot]. rewrite Edot, P, app_nil_r. cbn [length]. change (Z.of_nat 0) with 0. rewrite !Z.sub_0_r. reflexivity.
Qed.

Lemma parse_show_int : forall ws z rest, (forall c, In c ws -> white c) -> ends rest ->
  parse_double (ws ++ show_int z ++ rest) = Some (inject_Z z, rest).
Proof.
  intros ws z rest Hw He.
  assert (E : show_int z = sign_chars (z <? 0) ++ show_nat (Z.abs z) ++ frac_chars None ++ exp_chars None).
  { unfold show_int. cbn [frac_chars exp_chars]. rewrite !app_nil_r.
    destruct (z <? 0) eqn:E; [apply Z.ltb_lt in E|apply Z.ltb_ge in E].
    - replace (Z.abs z) with (- z) by lia. reflexivity.
    - replace (Z.abs z) with z by lia. reflexivity. }
  destruct (show_nat_spec (Z.abs z) ltac:(lia)) as (A & B & N & _).
  assert (P := parse_double_chars ws (z <? 0) (show_nat (Z.abs z)) None None rest Hw He N A).
  rewrite E. rewrite <- !app_assoc. etransitivity; [apply P|].
  - intros c [].
  - discriminate.
  - f_equal. f_equal. cbn [frac_digits exp_value length]. rewrite app_nil_r, B.
    unfold dec_value. change (0 - Z.of_nat 0) with 0. cbn [Z.leb]. change (0 <=? 0) with true. cbv iota.
    change (10 ^ 0) with 1. rewrite Z.mul_1_r. f_equal.
    destruct (z <? 0) eqn:E2; [apply Z.ltb_lt in E2|apply Z.ltb_ge in E2]; lia.
Qed.
