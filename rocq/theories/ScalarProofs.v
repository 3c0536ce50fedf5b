(** Lemmas about the floating-point readers of script settings. *)
From Verif Require Import Base SettingsModel SettingsProofs SdtModel ScalarModel ScalarSpec.
From Coq Require Import ZArith QArith Qpower Qfield.
Local Open Scope Z_scope.

(** * Characters *)
Lemma is_hex_iff : forall c, is_hex c = true <-> hex c.
Proof.
  intro c. unfold is_hex, hex. rewrite !orb_true_iff, is_digit_iff, !andb_true_iff, !Nat.leb_le. tauto.
Qed.
Lemma is_nchar_iff : forall c, is_nchar c = true <-> nan_char c.
Proof.
  intro c. unfold is_nchar, nan_char.
  rewrite !orb_true_iff, is_digit_iff, !andb_true_iff, !Nat.leb_le, Ascii.eqb_eq. tauto.
Qed.
Lemma eqb_false : forall c d, c <> d -> Ascii.eqb c d = false.
Proof. intros c d H. destruct (Ascii.eqb_spec c d); [contradiction|reflexivity]. Qed.

Lemma lower_eq : forall c a, lower c = a -> c = a \/ (nat_of_ascii c + 32 = nat_of_ascii a /\ 65 <= nat_of_ascii c <= 90)%nat.
Proof.
  intros c a. unfold lower. destruct (_ && _)%bool eqn:E; intro H; [right|left; exact H].
  apply andb_true_iff in E. rewrite !Nat.leb_le in E. subst a. rewrite nat_ascii_embedding by lia. lia.
Qed.
Definition not_upper (a : ascii) : Prop := ~ (65 <= nat_of_ascii a <= 90)%nat.
Lemma eq_lower : forall c a, not_upper a -> c = a \/ (nat_of_ascii c + 32 = nat_of_ascii a /\ 65 <= nat_of_ascii c <= 90)%nat ->
  lower c = a.
Proof.
  intros c a N H. unfold lower. destruct H as [H|[H1 H2]].
  - subst c. destruct (_ && _)%bool eqn:E; [|reflexivity].
    apply andb_true_iff in E. rewrite !Nat.leb_le in E. contradiction.
  - assert (E : (Nat.leb 65 (nat_of_ascii c) && Nat.leb (nat_of_ascii c) 90)%bool = true).
    { apply andb_true_iff. rewrite !Nat.leb_le. exact H2. }
    rewrite E, H1. apply ascii_nat_embedding.
Qed.

(** * Collecting characters *)
Lemma span_cons : forall p c r, span p (c :: r) = if p c then (c :: fst (span p r), snd (span p r)) else ([], c :: r).
Proof. intros p c r. cbn [span]. destruct (p c); [|reflexivity]. destruct (span p r); reflexivity. Qed.

Lemma span_split : forall p s, s = fst (span p s) ++ snd (span p s) /\ (forall c, In c (fst (span p s)) -> p c = true).
Proof.
  intro p. induction s as [|c r IH]; [split; [reflexivity|intros c []]|].
  rewrite span_cons. destruct (p c) eqn:E; cbn [fst snd].
  - destruct IH as [IH1 IH2]. split; [cbn [app]; rewrite <- IH1; reflexivity|].
    intros d [H|H]; [subst d; exact E|exact (IH2 d H)].
  - split; [reflexivity|intros d []].
Qed.

Lemma span_app : forall p a b, (forall c, In c a -> p c = true) ->
  span p (a ++ b) = (a ++ fst (span p b), snd (span p b)).
Proof.
  intros p a b. induction a as [|c r IH]; intro H; cbn [app].
  - destruct (span p b); reflexivity.
  - rewrite span_cons, (H c (or_introl eq_refl)), IH; [reflexivity|intros d Hd; exact (H d (or_intror Hd))].
Qed.

Lemma span_stop : forall p c r, p c = false -> span p (c :: r) = ([], c :: r).
Proof. intros p c r H. rewrite span_cons, H. reflexivity. Qed.

Lemma span_len : forall p s, (length (snd (span p s)) <= length s)%nat.
Proof.
  intros p s. destruct (span_split p s) as [H _]. rewrite H at 2. rewrite app_length. lia.
Qed.

(** * Signs *)
Definition sign_free (s : str) : Prop := forall c r, s = c :: r -> c <> "-"%char /\ c <> "+"%char.
Lemma take_sign_app : forall sg neg s, sign_text sg neg -> sign_free s -> take_sign (sg ++ s) = (neg, s).
Proof.
  intros sg neg s H F. destruct H; cbn [app].
  - destruct s as [|c r]; [reflexivity|]. destruct (F c r eq_refl) as [F1 F2]. cbn [take_sign].
    rewrite (eqb_false _ _ F1), (eqb_false _ _ F2). reflexivity.
  - reflexivity.
  - reflexivity.
Qed.
Lemma take_sign_split : forall s neg r, take_sign s = (neg, r) -> exists sg, s = sg ++ r /\ sign_text sg neg.
Proof.
  intros s neg r H. unfold take_sign in H. destruct s as [|c t].
  - inversion H; subst. exists []. split; [reflexivity|constructor].
  - destruct (Ascii.eqb_spec c "-"%char) as [E|E].
    + inversion H; subst. exists ["-"%char]. split; [reflexivity|constructor].
    + destruct (Ascii.eqb_spec c "+"%char) as [E'|E'].
      * inversion H; subst. exists ["+"%char]. split; [reflexivity|constructor].
      * inversion H; subst. exists []. split; [reflexivity|constructor].
Qed.
Lemma take_sign_len : forall s, (length (snd (take_sign s)) <= length s)%nat.
Proof.
  intro s. destruct (take_sign s) as [neg r] eqn:E. destruct (take_sign_split s neg r E) as [sg [H _]].
  subst s. cbn [snd]. rewrite app_length. lia.
Qed.

(** * Values *)
Lemma dig_val_eq : forall c, dig_val c = digit_value c.
Proof. intro c. unfold dig_val, digit_value. destruct (_ <=? _); [reflexivity|]. destruct (_ <=? _); lia. Qed.
Lemma dig_num_from : forall base ds a, 0 < base ->
  fold_left (fun a c => a * base + dig_val c) ds a = a * base ^ Z.of_nat (length ds) + positional base ds.
Proof.
  intros base ds. induction ds as [|c r IH]; intros a Hb.
  - change (a = a * base ^ 0 + 0). rewrite Z.pow_0_r. lia.
  - cbn [fold_left length positional]. rewrite IH by exact Hb. rewrite Nat2Z.inj_succ, Z.pow_succ_r by lia.
    rewrite dig_val_eq. ring.
Qed.
Lemma dig_num_eq : forall base ds, 0 < base -> dig_num base ds = positional base ds.
Proof. intros base ds H. unfold dig_num. rewrite dig_num_from by exact H. lia. Qed.

Lemma inject_pow : forall b e, 0 <= e -> (inject_Z (b ^ e) == Qpower (inject_Z b) e)%Q.
Proof.
  intros b e He. pattern e. apply natlike_ind; [|intros x Hx IH|exact He].
  - reflexivity.
  - unfold Z.succ. rewrite Z.pow_add_r by lia. rewrite Z.pow_1_r, inject_Z_mult, IH.
    destruct (Z.eq_dec b 0) as [->|Hb].
    + rewrite Qmult_0_r. change (inject_Z 0) with 0%Q. rewrite Qpower_0 by lia. reflexivity.
    + rewrite Qpower_plus. rewrite Qpower_1_r || change (Qpower (inject_Z b) 1) with (inject_Z b). reflexivity.
      intro C. apply Hb. apply inject_Z_injective. rewrite C. reflexivity.
Qed.

Lemma pow_value_eq : forall b neg m e, 0 < b ->
  (pow_value b neg m e == inject_Z (signed neg m) * Qpower (inject_Z b) e)%Q.
Proof.
  intros b neg m e Hb. unfold pow_value, signed. set (m' := if neg then - m else m).
  destruct (Z.leb_spec 0 e) as [H|H].
  - rewrite inject_Z_mult, inject_pow by exact H. reflexivity.
  - assert (P : 0 < b ^ (- e)) by (apply Z.pow_pos_nonneg; lia).
    assert (Q1 : (Qpower (inject_Z b) e == / inject_Z (b ^ (- e)))%Q).
    { rewrite inject_pow by lia. rewrite Qpower_opp. rewrite Qinv_involutive. reflexivity. }
    rewrite Q1, Qmake_Qdiv. unfold Qdiv. rewrite Z2Pos.id by exact P. reflexivity.
Qed.

(** * Numbers with a point and an exponent *)
Section Generic.
  Variables (p : ascii -> bool) (P : ascii -> Prop) (lo up : ascii).
  Hypothesis pP : forall c, p c = true <-> P c.
  Hypothesis pdot : p "."%char = false.
  Hypothesis plo : p lo = false.
  Hypothesis pup : p up = false.
  Hypothesis lodot : lo <> "."%char.
  Hypothesis updot : up <> "."%char.

  Lemma mantissa_sound : forall s ip fp r, mantissa p s = Some (ip, fp, r) ->
    exists t, s = t ++ r /\ digits_text P t ip fp.
  Proof.
    intros s ip fp r H. unfold mantissa in H. destruct (span_split p s) as [E A].
    destruct (span p s) as [ip' s1]. cbn [fst snd] in E, A. subst s.
    destruct s1 as [|c s1].
    - rewrite app_nil_r in H. destruct ip' as [|d ip'']; [discriminate|]. inversion H; subst.
      exists (d :: ip''). split; [reflexivity|]. constructor; [discriminate|]. intros x Hx. apply pP, A, Hx.
    - destruct (Ascii.eqb_spec c "."%char) as [Ec|Ec].
      + subst c. destruct (span_split p s1) as [E1 A1]. destruct (span p s1) as [fp' s2].
        cbn [fst snd] in E1, A1. subst s1.
        destruct (ip' ++ fp') as [|d l] eqn:El; [discriminate|]. inversion H; subst.
        exists (ip ++ "."%char :: fp). split; [rewrite <- app_assoc; reflexivity|].
        constructor; [rewrite El; discriminate|]. intros x Hx. apply in_app_iff in Hx. apply pP.
        destruct Hx as [Hx|Hx]; [apply A, Hx|apply A1, Hx].
      + rewrite app_nil_r in H. destruct ip' as [|d ip'']; [discriminate|]. inversion H; subst.
        exists (d :: ip''). split; [reflexivity|]. constructor; [discriminate|]. intros x Hx. apply pP, A, Hx.
  Qed.

  Lemma exponent_sound : forall s e r, exponent lo up s = (e, r) ->
    exists x e', s = x ++ r /\ exponent_text lo up x e' /\ e = e'.
  Proof.
    intros s e r H. unfold exponent in H.
    assert (N : (0, s) = (e, r) -> exists x e', s = x ++ r /\ exponent_text lo up x e' /\ e = e').
    { intro E. inversion E; subst. exists [], 0. repeat split. constructor. }
    destruct s as [|c t]; [exact (N H)|]. destruct (_ || _)%bool eqn:L; [|exact (N H)].
    destruct (take_sign t) as [neg r1] eqn:S. destruct (take_sign_split t neg r1 S) as [sg [E G]].
    destruct (span_split is_digit r1) as [E1 A1]. destruct (span is_digit r1) as [ds r2]. cbn [fst snd] in E1, A1.
    destruct ds as [|d ds]; [exact (N H)|]. inversion H; subst.
    exists (c :: sg ++ d :: ds), (signed neg (positional 10 (d :: ds))). split; [|split].
    - cbn [app]. rewrite <- app_assoc. reflexivity.
    - constructor; [|exact G|discriminate|intros x Hx; apply is_digit_iff, A1, Hx].
      apply orb_true_iff in L. rewrite !Ascii.eqb_eq in L. exact L.
    - unfold signed. rewrite (dig_num_eq 10 (d :: ds)) by lia. reflexivity.
  Qed.

  Lemma exponent_len : forall s, (length (snd (exponent lo up s)) <= length s)%nat.
  Proof.
    intro s. destruct (exponent lo up s) as [e r] eqn:E. destruct (exponent_sound s e r E) as [x [e' [H _]]].
    subst s. cbn [snd]. rewrite app_length. lia.
  Qed.

  Lemma exponent_complete : forall x e r, exponent_text lo up x e ->
    (length (snd (exponent lo up (x ++ r))) <= length r)%nat.
  Proof.
    intros x e r H. destruct H as [|c sg neg ds Hc Hs Hd Ad].
    - apply exponent_len.
    - cbn [app]. rewrite <- app_assoc. unfold exponent.
      assert (L : (Ascii.eqb c lo || Ascii.eqb c up)%bool = true).
      { apply orb_true_iff. rewrite !Ascii.eqb_eq. exact Hc. }
      rewrite L. rewrite (take_sign_app sg neg (ds ++ r) Hs).
      + rewrite span_app by (intros d Hx; apply is_digit_iff, Ad, Hx).
        destruct ds as [|d ds]; [contradiction|]. cbn [app snd]. apply span_len.
      + intros d t E. destruct ds as [|d' ds]; [contradiction|]. inversion E; subst.
        specialize (Ad d (or_introl eq_refl)). unfold digit in Ad.
        split; intro C; subst d; vm_compute in Ad; lia.
  Qed.

  (** A number at the front is found, and read at least to its end. *)
  Lemma number_complete : forall s ip fp x e r, digits_text P s ip fp -> exponent_text lo up x e ->
    exists ip' fp' s1, mantissa p (s ++ x ++ r) = Some (ip', fp', s1) /\
      (length (snd (exponent lo up s1)) <= length r)%nat.
  Proof.
    intros s ip fp x e r Hd Hx.
    assert (X : forall q, exists more s1, span p (x ++ q) = (more, s1) /\
      ((more = [] /\ s1 = x ++ q) \/ (length s1 <= length q)%nat) /\ (x = [] \/ more = [])).
    { intro q. destruct Hx as [|c sg neg ds Hc Hs Hds Ad].
      - destruct (span p q) as [m s1] eqn:E. exists m, s1. split; [exact E|]. split; [right|left; reflexivity].
        pose proof (span_len p q) as L. rewrite E in L. exact L.
      - exists [], ((c :: sg ++ ds) ++ q). split; [|split; [left; split; reflexivity|right; reflexivity]].
        cbn [app]. apply span_stop. destruct Hc; subst c; assumption. }
    assert (XE : forall s1, s1 = x ++ r \/ (length s1 <= length r)%nat -> (length (snd (exponent lo up s1)) <= length r)%nat).
    { intros s1 [H|H]; [subst s1; exact (exponent_complete x e r Hx)|].
      pose proof (exponent_len s1). lia. }
    destruct Hd as [ip Hn Ha|ip fp Hn Ha].
    - unfold mantissa. rewrite span_app by (intros c Hc; apply pP, Ha, Hc).
      destruct (X r) as [more [s1 [E [D D']]]]. rewrite E. cbn [fst snd].
      assert (NE : ip ++ more <> []) by (destruct ip; [contradiction|discriminate]).
      assert (T : forall fp' s2, (length s2 <= length s1)%nat -> (s2 = s1 \/ (length s1 <= length r)%nat) ->
        exists ip' fp'' s3, (match (ip ++ more) ++ fp' with [] => None | _ => Some (ip ++ more, fp', s2) end) = Some (ip', fp'', s3) /\
          (length (snd (exponent lo up s3)) <= length r)%nat).
      { intros fp' s2 L2 D2. destruct ((ip ++ more) ++ fp') eqn:El.
        - apply app_eq_nil in El. destruct El. contradiction.
        - exists (ip ++ more), fp', s2. split; [reflexivity|]. apply XE.
          destruct D as [[D1 D3]|D]; [|right; lia]. destruct D2 as [->|D2]; [left; exact D3|right; lia]. }
      destruct s1 as [|c s1'].
      + apply T; [apply Nat.le_refl|left; reflexivity].
      + destruct (Ascii.eqb_spec c "."%char) as [Ec|Ec].
        * assert (Dx : (length (c :: s1') <= length r)%nat).
          { destruct D as [[D1 D3]|D]; [|exact D]. destruct Hx as [|d sg neg ds Hc Hs Hds Ad].
            - rewrite D3. apply Nat.le_refl.
            - cbn [app] in D3. inversion D3; subst. destruct Hc; congruence. }
          destruct (span p s1') as [fp' s2] eqn:E2. apply T.
          -- pose proof (span_len p s1') as L. rewrite E2 in L. cbn [snd length] in *. lia.
          -- right. exact Dx.
        * apply T; [apply Nat.le_refl|left; reflexivity].
    - unfold mantissa. rewrite <- app_assoc.
      rewrite span_app by (intros c Hc; apply pP, Ha, in_app_iff; left; exact Hc).
      cbn [app]. rewrite (span_stop p "."%char) by exact pdot. cbn [fst snd]. rewrite app_nil_r, Ascii.eqb_refl.
      rewrite span_app by (intros c Hc; apply pP, Ha, in_app_iff; right; exact Hc).
      destruct (X r) as [more [s1 [E [D D']]]]. rewrite E. cbn [fst snd].
      destruct (ip ++ fp ++ more) eqn:El.
      + apply app_eq_nil in El. destruct El as [El1 El2]. apply app_eq_nil in El2. destruct El2. subst. contradiction.
      + exists ip, (fp ++ more), s1. split; [reflexivity|]. apply XE. destruct D as [[_ D]|D]; [left; exact D|right; exact D].
  Qed.

  Lemma exponent_exact : forall x e, exponent_text lo up x e -> exponent lo up x = (e, []).
  Proof.
    intros x e H. destruct H as [|c sg neg ds Hc Hs Hd Ad]; [reflexivity|]. unfold exponent.
    assert (L : (Ascii.eqb c lo || Ascii.eqb c up)%bool = true).
    { apply orb_true_iff. rewrite !Ascii.eqb_eq. exact Hc. }
    rewrite L. rewrite (take_sign_app sg neg ds Hs).
    - rewrite <- (app_nil_r ds) at 1. rewrite span_app by (intros d Hx; apply is_digit_iff, Ad, Hx).
      cbn [span fst snd]. rewrite app_nil_r. destruct ds as [|d ds]; [contradiction|].
      rewrite dig_num_eq by lia. reflexivity.
    - intros d t E. subst ds. specialize (Ad d (or_introl eq_refl)). unfold digit in Ad.
      split; intro C; subst d; vm_compute in Ad; lia.
  Qed.

  Lemma number_exact : forall s ip fp x e, digits_text P s ip fp -> exponent_text lo up x e ->
    mantissa p (s ++ x) = Some (ip, fp, x).
  Proof.
    intros s ip fp x e Hd Hx.
    assert (X : span p x = ([], x) /\ (forall c r, x = c :: r -> Ascii.eqb c "."%char = false)).
    { destruct Hx as [|c sg neg ds Hc Hs Hds Ad]; [split; [reflexivity|discriminate]|]. split.
      - apply span_stop. destruct Hc; subst c; assumption.
      - intros d r E. inversion E; subst. apply eqb_false. destruct Hc; subst d; assumption. }
    destruct X as [X1 X2]. unfold mantissa. destruct Hd as [ip N A|ip fp N A].
    - rewrite span_app by (intros c Hc; apply pP, A, Hc). rewrite X1. cbn [fst snd]. rewrite app_nil_r.
      destruct x as [|c r].
      + rewrite app_nil_r. destruct ip; [contradiction|reflexivity].
      + rewrite (X2 c r eq_refl), app_nil_r. destruct ip; [contradiction|reflexivity].
    - rewrite <- app_assoc.
      rewrite span_app by (intros c Hc; apply pP, A, in_app_iff; left; exact Hc).
      cbn [app]. rewrite (span_stop p "."%char) by exact pdot. cbn [fst snd]. rewrite app_nil_r, Ascii.eqb_refl.
      rewrite span_app by (intros c Hc; apply pP, A, in_app_iff; right; exact Hc). rewrite X1. cbn [fst snd]. rewrite app_nil_r.
      destruct (ip ++ fp); [contradiction|reflexivity].
  Qed.
End Generic.

Definition of_dtext (d : dtext) : meaning :=
  match d with DNum q => MNum q | DInf n => MInf n | DNan => MNan end.

Lemma dec_number_sound : forall sg neg s d r, sign_text sg neg -> dec_number neg s = Some (d, r) ->
  exists t m, s = t ++ r /\ literal (sg ++ t) m /\ same_meaning (of_dtext d) m.
Proof.
  intros sg neg s d r Hs H. unfold dec_number in H.
  destruct (mantissa is_digit s) as [[[ip fp] s1]|] eqn:M; [|discriminate].
  destruct (mantissa_sound is_digit digit is_digit_iff s ip fp s1 M) as [t [E D]].
  destruct (exponent _ _ s1) as [e s2] eqn:X.
  destruct (exponent_sound _ _ s1 e s2 X) as [x [e' [E1 [T ->]]]]. inversion H; subst.
  exists (t ++ x), (MNum (inject_Z (signed neg (positional 10 (ip ++ fp))) * Qpower 10 (e' - Z.of_nat (length fp)))).
  split; [rewrite <- app_assoc; reflexivity|]. split.
  - apply lit_dec; assumption.
  - cbn [of_dtext same_meaning]. rewrite pow_value_eq by lia. rewrite dig_num_eq by lia. reflexivity.
Qed.

Lemma hex_number_sound : forall sg neg z s d r, sign_text sg neg -> same_word z (str_of "0x") -> hex_number neg s = Some (d, r) ->
  exists t m, s = t ++ r /\ literal (sg ++ z ++ t) m /\ same_meaning (of_dtext d) m.
Proof.
  intros sg neg z s d r Hs Hz H. unfold hex_number in H.
  destruct (mantissa is_hex s) as [[[ip fp] s1]|] eqn:M; [|discriminate].
  destruct (mantissa_sound is_hex hex is_hex_iff s ip fp s1 M) as [t [E D]].
  destruct (exponent _ _ s1) as [e s2] eqn:X.
  destruct (exponent_sound _ _ s1 e s2 X) as [x [e' [E1 [T ->]]]]. inversion H; subst.
  exists (t ++ x), (MNum (inject_Z (signed neg (positional 16 (ip ++ fp))) * Qpower 2 (e' - 4 * Z.of_nat (length fp)))).
  split; [rewrite <- app_assoc; reflexivity|]. split.
  - apply lit_hex; assumption.
  - cbn [of_dtext same_meaning]. rewrite pow_value_eq by lia. rewrite dig_num_eq by lia. reflexivity.
Qed.

(** * Words *)
Lemma strip_sound : forall w s r, strip w s = Some r -> exists t, s = t ++ r /\ same_word t w.
Proof.
  induction w as [|a w IH]; intros s r H.
  - inversion H; subst. exists []. split; [reflexivity|constructor].
  - destruct s as [|c s]; [discriminate|]. cbn [strip] in H.
    destruct (Ascii.eqb_spec (lower c) a) as [E|E]; [|discriminate].
    destruct (IH s r H) as [t [E1 S]]. subst s. exists (c :: t). split; [reflexivity|].
    constructor; [apply lower_eq, E|exact S].
Qed.
Lemma strip_complete : forall w t r, (forall a, In a w -> not_upper a) -> same_word t w -> strip w (t ++ r) = Some r.
Proof.
  intros w t r N H. induction H as [|c a s w Hc Hw IH]; [reflexivity|].
  cbn [app strip]. rewrite (eq_lower c a (N a (or_introl eq_refl)) Hc), Ascii.eqb_refl.
  apply IH. intros b Hb. apply N. right. exact Hb.
Qed.
Lemma words_lower : forall w, In w [str_of "inf"; str_of "infinity"; str_of "nan"; str_of "0x"] ->
  forall a, In a w -> not_upper a.
Proof.
  intros w H a Ha. unfold not_upper. cbn in H.
  repeat (destruct H as [H|H]; [subst w; cbn in Ha; repeat (destruct Ha as [Ha|Ha]; [subst a; vm_compute; lia|]); contradiction|]).
  contradiction.
Qed.

Lemma wl_inf : forall a, In a (str_of "inf") -> not_upper a.
Proof. apply words_lower. cbn. tauto. Qed.
Lemma wl_infinity : forall a, In a (str_of "infinity") -> not_upper a.
Proof. apply words_lower. cbn. tauto. Qed.
Lemma wl_nan : forall a, In a (str_of "nan") -> not_upper a.
Proof. apply words_lower. cbn. tauto. Qed.
Lemma nan_tail_sound : forall s, exists t, s = t ++ nan_tail s /\
  (t = [] \/ exists u, t = "("%char :: u ++ [")"%char] /\ forall c, In c u -> nan_char c).
Proof.
  intro s. assert (N : exists t, s = t ++ s /\ (t = [] \/ exists u, t = "("%char :: u ++ [")"%char] /\ forall c, In c u -> nan_char c)).
  { exists []. split; [reflexivity|left; reflexivity]. }
  unfold nan_tail. destruct s as [|c r]; [exact N|].
  destruct (Ascii.eqb_spec c "("%char) as [E|E]; [|exact N]. subst c.
  destruct (span_split is_nchar r) as [E1 A1]. destruct (span is_nchar r) as [u q]. cbn [fst snd] in *.
  destruct q as [|d q]; [exact N|]. destruct (Ascii.eqb_spec d ")"%char) as [E|E]; [|exact N]. subst d.
  exists ("("%char :: u ++ [")"%char]). split.
  - rewrite E1. cbn [app]. rewrite <- app_assoc. reflexivity.
  - right. exists u. split; [reflexivity|]. intros c Hc. apply is_nchar_iff, A1, Hc.
Qed.
Lemma nan_tail_len : forall s, (length (nan_tail s) <= length s)%nat.
Proof. intro s. destruct (nan_tail_sound s) as [t [E _]]. rewrite E at 2. rewrite app_length. lia. Qed.
Lemma nan_tail_complete : forall t r, (forall c, In c t -> nan_char c) -> nan_tail ("("%char :: t ++ ")"%char :: r) = r.
Proof.
  intros t r H. unfold nan_tail. rewrite Ascii.eqb_refl.
  rewrite span_app by (intros c Hc; apply is_nchar_iff, H, Hc).
  rewrite (span_stop is_nchar ")"%char) by reflexivity. cbn [fst snd]. rewrite Ascii.eqb_refl. reflexivity.
Qed.

(** * strtod *)
Lemma strtod_sound : forall s d r, strtod s = Some (d, r) ->
  exists ws t m, s = ws ++ t ++ r /\ (forall c, In c ws -> white c) /\ literal t m /\ same_meaning (of_dtext d) m.
Proof.
  intros s d r H. unfold strtod in H. destruct (skip_spaces_split s) as [ws [E W]].
  destruct (take_sign (skip_spaces s)) as [neg s1] eqn:S.
  destruct (take_sign_split _ _ _ S) as [sg [E1 G]].
  assert (K : forall t m, s1 = t ++ r -> literal (sg ++ t) m -> same_meaning (of_dtext d) m ->
     exists ws t m, s = ws ++ t ++ r /\ (forall c, In c ws -> white c) /\ literal t m /\ same_meaning (of_dtext d) m).
  { intros t m Et L M. exists ws, (sg ++ t), m. split; [|tauto]. rewrite E, E1, Et, <- !app_assoc. reflexivity. }
  clear E1 E.
  destruct (strip (str_of "infinity") s1) as [q|] eqn:I1.
  { inversion H; subst. destruct (strip_sound _ _ _ I1) as [t [Et St]].
    apply (K t (MInf neg) Et); [apply lit_inf; [exact G|right; exact St]|reflexivity]. }
  destruct (strip (str_of "inf") s1) as [q|] eqn:I2.
  { inversion H; subst. destruct (strip_sound _ _ _ I2) as [t [Et St]].
    apply (K t (MInf neg) Et); [apply lit_inf; [exact G|left; exact St]|reflexivity]. }
  destruct (strip (str_of "nan") s1) as [q|] eqn:I3.
  { inversion H; subst. destruct (strip_sound _ _ _ I3) as [t [Et St]].
    destruct (nan_tail_sound q) as [u [Eu [Hu|[v [Hu Av]]]]].
    - subst u. apply (K t MNan); [rewrite Et; rewrite Eu at 1; reflexivity| apply (lit_nan sg neg); assumption|exact I].
    - apply (K (t ++ "("%char :: v ++ [")"%char]) MNan).
      + rewrite Et, Eu at 1. rewrite Hu, <- !app_assoc. reflexivity.
      + apply (lit_nan_tag sg neg); assumption.
      + exact I. }
  destruct (strip (str_of "0x") s1) as [q|] eqn:I4.
  - destruct (strip_sound _ _ _ I4) as [z [Ez Sz]].
    destruct (hex_number neg q) as [[d' r']|] eqn:Hx.
    + inversion H; subst. destruct (hex_number_sound sg neg z q d r G Sz Hx) as [t [m [Et [L M]]]].
      apply (K (z ++ t) m); [rewrite Et, <- app_assoc; reflexivity|exact L|exact M].
    + destruct (dec_number_sound sg neg s1 d r G H) as [t [m [Et [L M]]]]. exact (K t m Et L M).
  - destruct (dec_number_sound sg neg s1 d r G H) as [t [m [Et [L M]]]]. exact (K t m Et L M).
Qed.

Definition first_in (l : list nat) (s : str) : Prop := exists c r, s = c :: r /\ In (nat_of_ascii c) l.

Lemma same_word_head : forall t a w, same_word t (a :: w) -> exists c t', t = c :: t' /\ same_word t' w /\
  (nat_of_ascii c = nat_of_ascii a \/ nat_of_ascii c + 32 = nat_of_ascii a)%nat.
Proof.
  intros t a w H. inversion H as [|c a' s w' Hc Hw]; subst. exists c, s. split; [reflexivity|]. split; [exact Hw|].
  destruct Hc as [->|[Hc _]]; auto.
Qed.
Lemma zero_head : forall t w, same_word t ("0"%char :: w) -> exists t', t = "0"%char :: t' /\ same_word t' w.
Proof.
  intros t w H. inversion H as [|c a' s w' Hc Hw]; subst. exists s. split; [|exact Hw].
  destruct Hc as [->|[Hc Hc2]]; [reflexivity|]. change (nat_of_ascii "0"%char) with 48%nat in Hc. lia.
Qed.
Lemma hex_number_len : forall neg s d r, hex_number neg s = Some (d, r) -> (length r <= length s)%nat.
Proof.
  intros neg s d r H. unfold hex_number in H.
  destruct (mantissa is_hex s) as [[[ip fp] s1]|] eqn:M; [|discriminate].
  destruct (mantissa_sound is_hex hex is_hex_iff s ip fp s1 M) as [t [E D]].
  destruct (exponent _ _ s1) as [e s2] eqn:X.
  destruct (exponent_sound _ _ s1 e s2 X) as [x [e' [E1 _]]]. inversion H; subst. rewrite !app_length. lia.
Qed.

Lemma strip_head : forall a w c s, (nat_of_ascii c <> nat_of_ascii a)%nat -> (nat_of_ascii c + 32 <> nat_of_ascii a)%nat ->
  strip (a :: w) (c :: s) = None.
Proof.
  intros a w c s H1 H2. cbn [strip]. destruct (Ascii.eqb_spec (lower c) a) as [E|E]; [|reflexivity].
  destruct (lower_eq c a E) as [->|[H _]]; contradiction.
Qed.

Lemma digits_head : forall P s ip fp, digits_text P s ip fp -> exists c r, s = c :: r /\ (P c \/ c = "."%char).
Proof.
  intros P s ip fp H. destruct H as [ip N A|ip fp N A].
  - destruct ip as [|c r]; [contradiction|]. exists c, r. split; [reflexivity|left; apply A; left; reflexivity].
  - destruct ip as [|c r].
    + exists "."%char, fp. split; [reflexivity|right; reflexivity].
    + exists c, (r ++ "."%char :: fp). split; [reflexivity|]. left. apply A. left. reflexivity.
Qed.

(** The front of a text that starts with a digit or a point. *)
Lemma no_words : forall c r, digit c \/ c = "."%char ->
  strip (str_of "infinity") (c :: r) = None /\ strip (str_of "inf") (c :: r) = None /\ strip (str_of "nan") (c :: r) = None.
Proof.
  intros c r H. assert (N : (46 <= nat_of_ascii c <= 57)%nat).
  { destruct H as [H| ->]; [unfold digit in H; lia|vm_compute; lia]. }
  change (str_of "infinity") with ("i"%char :: str_of "nfinity").
  change (str_of "inf") with ("i"%char :: str_of "nf"). change (str_of "nan") with ("n"%char :: str_of "an").
  assert (I : nat_of_ascii "i"%char = 105%nat) by reflexivity. assert (J : nat_of_ascii "n"%char = 110%nat) by reflexivity.
  repeat split; apply strip_head; rewrite ?I, ?J; lia.
Qed.

(** A decimal number that is followed by "x" behind its first digit ends there. *)
Lemma dec_before_x : forall s ip fp x e r c t, digits_text digit s ip fp -> exponent_text "e"%char "E"%char x e ->
  s ++ x ++ r = c :: t -> same_word (firstn 1 t) ["x"%char] -> digit c -> (length t <= length r)%nat.
Proof.
  intros s ip fp x e r c t Hd Hx E W Hc.
  assert (A : exists y t', t = y :: t' /\ ~ digit y /\ y <> "."%char /\ y <> "e"%char /\ y <> "E"%char).
  { destruct t as [|y t']; [inversion W|]. exists y, t'. split; [reflexivity|].
    cbn [firstn] in W. inversion W; subst. assert (N : nat_of_ascii "x"%char = 120%nat) by reflexivity.
    unfold digit. destruct H2 as [->|[H2 _]].
    - rewrite N. repeat split; try lia; discriminate.
    - rewrite N in H2. repeat split; [lia| | |]; intros ->; vm_compute in H2; discriminate. }
  destruct A as [y [t' [-> [Y1 [Y2 [Y3 Y4]]]]]].
  assert (X : forall q, x ++ r = y :: q -> x = []).
  { intros q Eq. destruct Hx as [|d sg neg ds Hcc]; [reflexivity|]. cbn [app] in Eq. inversion Eq; subst. destruct Hcc; contradiction. }
  destruct Hd as [ip N A|ip fp N A].
  - destruct ip as [|a [|b ip]]; [contradiction| |].
    + cbn [app] in E. injection E as Ea Eb. pose proof (X t' Eb) as Ex. subst x. cbn [app] in Eb. rewrite <- Eb. apply Nat.le_refl.
    + cbn [app] in E. inversion E; subst. exfalso. apply Y1, A. right. left. reflexivity.
  - destruct ip as [|a [|b ip]].
    + cbn [app] in E. inversion E; subst. unfold digit in Hc. vm_compute in Hc. lia.
    + cbn [app] in E. inversion E; subst. contradiction.
    + cbn [app] in E. inversion E; subst. exfalso. apply Y1, A. right. left. reflexivity.
Qed.

Lemma digit_not_white : forall c, digit c \/ c = "."%char -> ~ white c /\ c <> "-"%char /\ c <> "+"%char.
Proof.
  intros c H. assert (N : (46 <= nat_of_ascii c <= 57)%nat).
  { destruct H as [H| ->]; [unfold digit in H; lia|vm_compute; lia]. }
  unfold white. repeat split; [lia| |]; intros ->; vm_compute in N; lia.
Qed.

Lemma letter_head : forall c a n, nat_of_ascii a = n -> (97 <= n <= 122)%nat ->
  (nat_of_ascii c = nat_of_ascii a \/ nat_of_ascii c + 32 = nat_of_ascii a)%nat -> ~ white c /\ c <> "-"%char /\ c <> "+"%char.
Proof.
  intros c a n Ha Hn H. unfold white. repeat split; [lia| |]; intros ->.
  - change (nat_of_ascii "-"%char) with 45%nat in H. lia.
  - change (nat_of_ascii "+"%char) with 43%nat in H. lia.
Qed.

(** The body of a literal, without its sign. *)
Lemma literal_body : forall p m, literal p m -> exists sg neg t, p = sg ++ t /\ sign_text sg neg /\
  (exists c u, t = c :: u /\ ~ white c /\ c <> "-"%char /\ c <> "+"%char) /\
  forall r, exists d rest,
    match strip (str_of "infinity") (t ++ r) with
    | Some r => Some (DInf neg, r)
    | None =>
    match strip (str_of "inf") (t ++ r) with
    | Some r => Some (DInf neg, r)
    | None =>
    match strip (str_of "nan") (t ++ r) with
    | Some r => Some (DNan, nan_tail r)
    | None =>
    match (match strip (str_of "0x") (t ++ r) with Some r => hex_number neg r | None => None end) with
    | Some x => Some x
    | None => dec_number neg (t ++ r)
    end end end end = Some (d, rest) /\ (length rest <= length r)%nat.
Proof.
  intros p m H. destruct H as [sg neg s ip fp x e Hs Hd Hx|sg neg z s ip fp x e Hs Hz Hd Hx|sg neg w Hs Hw|sg neg w Hs Hw|sg neg w t Hs Hw Ht].
  - exists sg, neg, (s ++ x). split; [reflexivity|]. split; [exact Hs|].
    destruct (digits_head digit s ip fp Hd) as [c [u [Es Hc]]].
    split; [exists c, (u ++ x); split; [rewrite Es; reflexivity|exact (digit_not_white c Hc)]|].
    intro r. rewrite <- app_assoc.
    assert (Et : s ++ x ++ r = c :: u ++ x ++ r) by (rewrite Es; reflexivity).
    destruct (no_words c (u ++ x ++ r) Hc) as [N1 [N2 N3]]. rewrite <- Et in N1, N2, N3. rewrite N1, N2, N3.
    destruct (number_complete is_digit digit "e"%char "E"%char is_digit_iff eq_refl eq_refl eq_refl ltac:(discriminate) ltac:(discriminate)
      s ip fp x e r Hd Hx) as [ip' [fp' [s1 [M L]]]].
    assert (D : exists d rest, dec_number neg (s ++ x ++ r) = Some (d, rest) /\ (length rest <= length r)%nat).
    { unfold dec_number. rewrite M. destruct (exponent _ _ s1) as [e' s2]. cbn [snd] in L. eexists _, _. split; [reflexivity|exact L]. }
    destruct (strip (str_of "0x") (s ++ x ++ r)) as [q|] eqn:I4; [|exact D].
    destruct (hex_number neg q) as [[d' r']|] eqn:Hh; [|exact D].
    exists d', r'. split; [reflexivity|].
    pose proof (hex_number_len neg q d' r' Hh) as L1.
    destruct (strip_sound _ _ _ I4) as [z [Ez Sz]].
    destruct (same_word_head z "0"%char ["x"%char] Sz) as [c0 [z' [-> [Sz' H0]]]].
    destruct (same_word_head z' "x"%char [] Sz') as [c1 [z2 [-> [Sz2 H1]]]]. inversion Sz2; subst z2.
    assert (C0 : c0 = c) by (rewrite Et in Ez; cbn [app] in Ez; inversion Ez; reflexivity). subst c0.
    assert (Dc : digit c).
    { destruct Hc as [Hc| ->]; [exact Hc|]. vm_compute in H0. destruct H0; discriminate. }
    pose proof (dec_before_x s ip fp x e r c (c1 :: q) Hd Hx Ez) as L2. cbn [firstn length] in L2.
    specialize (L2 Sz' Dc). lia.
  - exists sg, neg, (z ++ s ++ x). split; [reflexivity|]. split; [exact Hs|].
    destruct (zero_head z ["x"%char] Hz) as [z' [Ez Sz']].
    assert (Dz : digit "0"%char) by (unfold digit; vm_compute; lia).
    split; [exists "0"%char, (z' ++ s ++ x); split; [rewrite Ez; reflexivity|apply digit_not_white; left; exact Dz]|].
    intro r. rewrite <- !app_assoc.
    assert (Et : z ++ s ++ x ++ r = "0"%char :: z' ++ s ++ x ++ r) by (rewrite Ez; reflexivity).
    destruct (no_words "0"%char (z' ++ s ++ x ++ r) (or_introl Dz)) as [N1 [N2 N3]]. rewrite <- Et in N1, N2, N3. rewrite N1, N2, N3.
    rewrite (strip_complete (str_of "0x") z (s ++ x ++ r)); [|apply words_lower; cbn; tauto|exact Hz].
    destruct (number_complete is_hex hex "p"%char "P"%char is_hex_iff eq_refl eq_refl eq_refl ltac:(discriminate) ltac:(discriminate)
      s ip fp x e r Hd Hx) as [ip' [fp' [s1 [M L]]]].
    unfold hex_number. rewrite M. destruct (exponent _ _ s1) as [e' s2]. cbn [snd] in L. eexists _, _. split; [reflexivity|exact L].
  - exists sg, neg, w. split; [reflexivity|]. split; [exact Hs|]. split.
    + destruct Hw as [Hw|Hw]; destruct (same_word_head _ _ _ Hw) as [c [t [-> [_ Hc]]]]; exists c, t;
        (split; [reflexivity|]; apply (letter_head c "i"%char 105); [reflexivity|lia|exact Hc]).
    + intro r. destruct (strip (str_of "infinity") (w ++ r)) as [q|] eqn:I1.
      * exists (DInf neg), q. split; [reflexivity|]. destruct Hw as [Hw|Hw].
        -- pose proof (strip_complete (str_of "inf") w r wl_inf Hw) as I2.
           destruct (strip_sound _ _ _ I1) as [t [Et St]]. destruct (strip_sound _ _ _ I2) as [t2 [Et2 St2]].
           assert (Lt : length t = 8%nat /\ length t2 = 3%nat).
           { clear - St St2. split.
             - do 8 (destruct (same_word_head _ _ _ St) as [? [? [-> [St' _]]]]; clear St; rename St' into St). inversion St. reflexivity.
             - do 3 (destruct (same_word_head _ _ _ St2) as [? [? [-> [St' _]]]]; clear St2; rename St' into St2). inversion St2. reflexivity. }
           assert (LE : length (t ++ q) = length (t2 ++ r)) by congruence. rewrite !app_length in LE. lia.
        -- rewrite (strip_complete (str_of "infinity") w r wl_infinity Hw) in I1. inversion I1; subst. apply Nat.le_refl.
      * destruct Hw as [Hw|Hw].
        -- rewrite (strip_complete (str_of "inf") w r wl_inf Hw). eexists _, _. split; [reflexivity|apply Nat.le_refl].
        -- rewrite (strip_complete (str_of "infinity") w r wl_infinity Hw) in I1. discriminate.
  - assert (NW : forall q, strip (str_of "infinity") (w ++ q) = None /\ strip (str_of "inf") (w ++ q) = None).
    { intro q. destruct (same_word_head _ _ _ Hw) as [c [t [-> [_ Hc]]]]. cbn [app].
      assert (N0 : nat_of_ascii "n"%char = 110%nat) by reflexivity. assert (N1 : nat_of_ascii "i"%char = 105%nat) by reflexivity.
      rewrite N0 in Hc. split; apply strip_head; rewrite N1; lia. }
    exists sg, neg, w. split; [reflexivity|]. split; [exact Hs|]. split.
    + destruct (same_word_head _ _ _ Hw) as [c [t [-> [_ Hc]]]]. exists c, t. split; [reflexivity|].
      apply (letter_head c "n"%char 110); [reflexivity|lia|exact Hc].
    + intro r. destruct (NW r) as [-> ->].
      rewrite (strip_complete (str_of "nan") w r wl_nan Hw).
      eexists _, _. split; [reflexivity|apply nan_tail_len].
  - assert (NW : forall q, strip (str_of "infinity") (w ++ q) = None /\ strip (str_of "inf") (w ++ q) = None).
    { intro q. destruct (same_word_head _ _ _ Hw) as [c [t' [-> [_ Hc]]]]. cbn [app].
      assert (N0 : nat_of_ascii "n"%char = 110%nat) by reflexivity. assert (N1 : nat_of_ascii "i"%char = 105%nat) by reflexivity.
      rewrite N0 in Hc. split; apply strip_head; rewrite N1; lia. }
    exists sg, neg, (w ++ "("%char :: t ++ [")"%char]). split; [reflexivity|]. split; [exact Hs|]. split.
    + destruct (same_word_head _ _ _ Hw) as [c [t' [-> [_ Hc]]]]. exists c, (t' ++ "("%char :: t ++ [")"%char]). split; [reflexivity|].
      apply (letter_head c "n"%char 110); [reflexivity|lia|exact Hc].
    + intro r. rewrite <- app_assoc. cbn [app]. rewrite <- app_assoc. cbn [app].
      destruct (NW ("("%char :: t ++ ")"%char :: r)) as [-> ->].
      rewrite (strip_complete (str_of "nan") w _ wl_nan Hw).
      rewrite nan_tail_complete by exact Ht. eexists _, _. split; [reflexivity|apply Nat.le_refl].
Qed.

Lemma strtod_complete : forall ws p r m, literal p m -> (forall c, In c ws -> white c) ->
  exists d rest, strtod (ws ++ p ++ r) = Some (d, rest) /\ (length rest <= length r)%nat.
Proof.
  intros ws p r m H W. destruct (literal_body p m H) as [sg [neg [t [-> [Hs [[c [u [Et [C1 [C2 C3]]]]] B]]]]]].
  unfold strtod. rewrite skip_spaces_app; [|exact W|].
  - rewrite <- app_assoc. rewrite (take_sign_app sg neg (t ++ r) Hs); [exact (B r)|].
    intros d q E. rewrite Et in E. cbn [app] in E. inversion E; subst. split; assumption.
  - intros d q E. rewrite <- app_assoc, Et in E. destruct Hs; cbn [app] in E; inversion E; subst.
    + exact C1.
    + intros [X|X]; vm_compute in X; [discriminate|lia].
    + intros [X|X]; vm_compute in X; [discriminate|lia].
Qed.

(** The number at the front of the text is the longest one. *)
Lemma strtod_longest : forall s d r, strtod s = Some (d, r) ->
  exists p m, reads_as s p m /\ same_meaning (of_dtext d) m /\ exists ws, s = ws ++ p ++ r.
Proof.
  intros s d r H. destruct (strtod_sound s d r H) as [ws [p [m [E [W [L M]]]]]].
  exists p, m. split; [|split; [exact M|exists ws; exact E]].
  exists ws, r. split; [exact E|]. split; [exact W|]. split; [exact L|].
  intros p' r' m' E' L'. destruct (strtod_complete ws p' r' m' L' W) as [d' [rest [H' LR]]].
  rewrite <- E', <- E, H in H'. inversion H'; subst.
  assert (LE : length (p ++ rest) = length (p' ++ r')) by congruence. rewrite !app_length in LE. lia.
Qed.

Lemma strtod_none : forall s, strtod s = None -> no_number s.
Proof.
  intros s H ws p r m E W L. destruct (strtod_complete ws p r m L W) as [d [rest [H' _]]].
  rewrite <- E, H in H'. discriminate.
Qed.

(** White space in front is not part of the number, so the number is unique. *)
Lemma literal_head : forall p m, literal p m -> exists c u, p = c :: u /\ ~ white c.
Proof.
  intros p m H. destruct (literal_body p m H) as [sg [neg [t [-> [Hs [[c [u [Et [C1 _]]]] _]]]]]].
  destruct Hs; cbn [app].
  - exists c, u. split; [exact Et|exact C1].
  - eexists _, _. split; [reflexivity|]. intros [X|X]; vm_compute in X; [discriminate|lia].
  - eexists _, _. split; [reflexivity|]. intros [X|X]; vm_compute in X; [discriminate|lia].
Qed.

Lemma reads_as_text : forall s p m p' m', reads_as s p m -> reads_as s p' m' -> p = p'.
Proof.
  intros s p m p' m' [ws [r [E [W [L M]]]]] [ws' [r' [E' [W' [L' M']]]]].
  assert (K : p ++ r = p' ++ r').
  { rewrite <- (skip_spaces_app ws (p ++ r)), <- (skip_spaces_app ws' (p' ++ r')), <- E, <- E'; [reflexivity|exact W'| |exact W|].
    - destruct (literal_head p' m' L') as [c [u [-> N]]]. intros d q Eq. cbn [app] in Eq. inversion Eq; subst. exact N.
    - destruct (literal_head p m L) as [c [u [-> N]]]. intros d q Eq. cbn [app] in Eq. inversion Eq; subst. exact N. }
  assert (Len : length p = length p').
  { apply Nat.le_antisymm; [apply (M' p r m (eq_sym K) L)|apply (M p' r' m' K L')]. }
  clear - K Len. revert p' Len K. induction p as [|c p IH]; intros [|c' p'] Len K; try discriminate; [reflexivity|].
  cbn [app length] in *. inversion K; subst. f_equal. apply IH; [lia|assumption].
Qed.

Lemma same_word_length : forall t w, same_word t w -> length t = length w.
Proof. intros t w H. induction H as [|c a s w _ _ IH]; [reflexivity|cbn [length]; rewrite IH; reflexivity]. Qed.
Lemma strip_long : forall w t, (length t < length w)%nat -> strip w t = None.
Proof.
  induction w as [|a w IH]; intros t H; [cbn in H; lia|]. destruct t as [|c t]; [reflexivity|].
  cbn [strip]. destruct (Ascii.eqb (lower c) a); [|reflexivity]. apply IH. cbn [length] in H. lia.
Qed.

(** A literal has one meaning. *)
Lemma literal_value : forall p m, literal p m -> exists d, strtod p = Some (d, []) /\ same_meaning (of_dtext d) m.
Proof.
  intros p m H. destruct (literal_head p m H) as [c0 [u0 [Ep NW]]].
  assert (SK : skip_spaces p = p).
  { apply (skip_spaces_app [] p); [intros c []|]. intros c r E. rewrite Ep in E. inversion E; subst. exact NW. }
  unfold strtod. rewrite SK. clear SK Ep NW.
  destruct H as [sg neg s ip fp x e Hs Hd Hx|sg neg z s ip fp x e Hs Hz Hd Hx|sg neg w Hs Hw|sg neg w Hs Hw|sg neg w t Hs Hw Ht].
  - destruct (digits_head digit s ip fp Hd) as [c [u [Es Hc]]].
    rewrite (take_sign_app sg neg (s ++ x) Hs).
    2:{ intros d q E. rewrite Es in E. cbn [app] in E. inversion E; subst. exact (proj2 (digit_not_white _ Hc)). }
    assert (Et : s ++ x = c :: u ++ x) by (rewrite Es; reflexivity).
    destruct (no_words c (u ++ x) Hc) as [N1 [N2 N3]]. rewrite <- Et in N1, N2, N3. rewrite N1, N2, N3.
    assert (Z : strip (str_of "0x") (s ++ x) = None).
    { destruct (strip (str_of "0x") (s ++ x)) as [q|] eqn:I4; [|reflexivity]. exfalso.
      destruct (strip_sound _ _ _ I4) as [z [Ez Sz]].
      destruct (same_word_head z "0"%char ["x"%char] Sz) as [d0 [z' [-> [Sz' H0]]]].
      destruct (same_word_head z' "x"%char [] Sz') as [c1 [z2 [-> [Sz2 H1]]]]. inversion Sz2; subst z2.
      assert (C0 : d0 = c) by (rewrite Et in Ez; cbn [app] in Ez; inversion Ez; reflexivity). subst d0.
      assert (Dc : digit c).
      { destruct Hc as [Hc| ->]; [exact Hc|]. vm_compute in H0. destruct H0; discriminate. }
      pose proof (dec_before_x s ip fp x e [] c (c1 :: q) Hd Hx) as L2. rewrite app_nil_r in L2.
      cbn [firstn length] in L2. specialize (L2 Ez Sz' Dc). lia. }
    rewrite Z. unfold dec_number.
    rewrite (number_exact is_digit digit "e"%char "E"%char is_digit_iff eq_refl eq_refl eq_refl ltac:(discriminate) ltac:(discriminate) s ip fp x e Hd Hx).
    rewrite (exponent_exact _ _ x e Hx). eexists. split; [reflexivity|].
    cbn [of_dtext same_meaning]. rewrite pow_value_eq by lia. rewrite dig_num_eq by lia. reflexivity.
  - destruct (zero_head z ["x"%char] Hz) as [z' [Ez Sz']].
    assert (Dz : digit "0"%char) by (unfold digit; vm_compute; lia).
    rewrite (take_sign_app sg neg (z ++ s ++ x) Hs).
    2:{ intros d q E. rewrite Ez in E. cbn [app] in E. inversion E; subst. split; discriminate. }
    assert (Et : z ++ s ++ x = "0"%char :: z' ++ s ++ x) by (rewrite Ez; reflexivity).
    destruct (no_words "0"%char (z' ++ s ++ x) (or_introl Dz)) as [N1 [N2 N3]]. rewrite <- Et in N1, N2, N3. rewrite N1, N2, N3.
    rewrite (strip_complete (str_of "0x") z (s ++ x)); [|apply words_lower; cbn; tauto|exact Hz].
    unfold hex_number.
    rewrite (number_exact is_hex hex "p"%char "P"%char is_hex_iff eq_refl eq_refl eq_refl ltac:(discriminate) ltac:(discriminate) s ip fp x e Hd Hx).
    rewrite (exponent_exact _ _ x e Hx). eexists. split; [reflexivity|].
    cbn [of_dtext same_meaning]. rewrite pow_value_eq by lia. rewrite dig_num_eq by lia. reflexivity.
  - rewrite (take_sign_app sg neg w Hs).
    2:{ intros d q E. destruct Hw as [Hw|Hw]; rewrite E in Hw; destruct (same_word_head _ _ _ Hw) as [c [t [Eq [_ Hc]]]];
        inversion Eq; subst; apply (letter_head c "i"%char 105); try reflexivity; try lia; exact Hc. }
    exists (DInf neg). split; [|reflexivity]. rewrite <- (app_nil_r w). destruct Hw as [Hw|Hw].
    + rewrite (strip_long (str_of "infinity") (w ++ [])).
      2:{ rewrite app_nil_r, (same_word_length _ _ Hw). cbn. lia. }
      rewrite (strip_complete (str_of "inf") w [] wl_inf Hw). reflexivity.
    + rewrite (strip_complete (str_of "infinity") w [] wl_infinity Hw). reflexivity.
  - rewrite (take_sign_app sg neg w Hs).
    2:{ intros d q E. rewrite E in Hw; destruct (same_word_head _ _ _ Hw) as [c [t [Eq [_ Hc]]]];
        inversion Eq; subst; apply (letter_head c "n"%char 110); try reflexivity; try lia; exact Hc. }
    assert (NW : strip (str_of "infinity") w = None /\ strip (str_of "inf") w = None).
    { destruct (same_word_head _ _ _ Hw) as [c [t [-> [_ Hc]]]].
      assert (N0 : nat_of_ascii "n"%char = 110%nat) by reflexivity. assert (N1 : nat_of_ascii "i"%char = 105%nat) by reflexivity.
      rewrite N0 in Hc. split; apply strip_head; rewrite N1; lia. }
    destruct NW as [-> ->]. exists DNan. split; [|exact I].
    pose proof (strip_complete (str_of "nan") w [] wl_nan Hw) as K. rewrite app_nil_r in K.
    rewrite K. reflexivity.
  - assert (F : sign_free (w ++ "("%char :: t ++ [")"%char])).
    { intros d q E. destruct (same_word_head _ _ _ Hw) as [c [t' [-> [_ Hc]]]]. cbn [app] in E. inversion E; subst.
      apply (letter_head d "n"%char 110); try reflexivity; try lia; exact Hc. }
    rewrite (take_sign_app sg neg _ Hs F).
    assert (NW : forall q, strip (str_of "infinity") (w ++ q) = None /\ strip (str_of "inf") (w ++ q) = None).
    { intro q. destruct (same_word_head _ _ _ Hw) as [c [t' [-> [_ Hc]]]]. cbn [app].
      assert (N0 : nat_of_ascii "n"%char = 110%nat) by reflexivity. assert (N1 : nat_of_ascii "i"%char = 105%nat) by reflexivity.
      rewrite N0 in Hc. split; apply strip_head; rewrite N1; lia. }
    destruct (NW ("("%char :: t ++ [")"%char])) as [-> ->]. exists DNan. split; [|exact I].
    rewrite (strip_complete (str_of "nan") w _ wl_nan Hw).
    rewrite nan_tail_complete by exact Ht. reflexivity.
Qed.

Lemma same_meaning_trans : forall a b c, same_meaning a b -> same_meaning a c -> same_meaning b c.
Proof.
  intros [q|n|] [q1|n1|] [q2|n2|]; cbn [same_meaning]; intros H1 H2; try contradiction; try exact I.
  - rewrite <- H1. exact H2.
  - congruence.
Qed.
Lemma literal_unique : forall p m m', literal p m -> literal p m' -> same_meaning m m'.
Proof.
  intros p m m' H H'. destruct (literal_value p m H) as [d [E S]]. destruct (literal_value p m' H') as [d' [E' S']].
  rewrite E in E'. inversion E'; subst. exact (same_meaning_trans _ _ _ S S').
Qed.

(** What the reader does with a text is determined by the number at its front. *)
Lemma strtod_reads : forall s p m, reads_as s p m -> exists d r, strtod s = Some (d, r) /\ same_meaning (of_dtext d) m.
Proof.
  intros s p m H. assert (H0 := H). destruct H as [ws [r [E [W [L M]]]]].
  destruct (strtod_complete ws p r m L W) as [d [rest [H1 _]]]. rewrite <- E in H1.
  exists d, rest. split; [exact H1|]. destruct (strtod_longest s d rest H1) as [p' [m' [H2 [S _]]]].
  pose proof (reads_as_text s p' m' p m H2 H0) as Ep. subst p'. destruct H2 as [_ [_ [_ [_ [L' _]]]]].
  pose proof (literal_unique p m' m L' L) as U.
  destruct (of_dtext d), m', m; cbn [same_meaning] in *; try contradiction; try exact I; try congruence.
  rewrite S. exact U.
Qed.

Lemma number_or_not : forall s, (exists p m, reads_as s p m) \/ no_number s.
Proof.
  intro s. destruct (strtod s) as [[d r]|] eqn:E.
  - left. destruct (strtod_longest s d r E) as [p [m [H _]]]. exists p, m. exact H.
  - right. exact (strtod_none s E).
Qed.
Lemma strtod_no_number : forall s, no_number s -> strtod s = None.
Proof.
  intros s H. destruct (strtod s) as [[d r]|] eqn:E; [|reflexivity]. exfalso.
  destruct (strtod_longest s d r E) as [p [m [[ws [r' [E' [W [L _]]]]] _]]]. exact (H ws p r' m E' W L).
Qed.
