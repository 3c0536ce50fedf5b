(** The loader of SDT files accepts exactly the language of SdtTextSpec. *)
From Verif Require Import Base SettingsModel SettingsProofs SdtModel NumText DoubleText SdtSpec SdtProofs SdtReadProofs SdtUseProofs SdtTextSpec.
From Coq Require Import ZArith QArith.
Local Open Scope Z_scope.

(** * Lines *)
Lemma newline_eq : newline = cNL. Proof. reflexivity. Qed.
Lemma one_line_no_nl : forall l, one_line l <-> no_nl l.
Proof.
  intro l. unfold one_line, no_nl. rewrite newline_eq. split.
  - intros H c Hc E. subst c. exact (H Hc).
  - intros H Hc. exact (H cNL Hc eq_refl).
Qed.
Lemma lines_acc_end : forall l cur, no_nl l -> lines_acc cur l = match rev l ++ cur with [] => [] | _ => [rev cur ++ l] end.
Proof.
  induction l as [|c l IH]; intros cur H.
  - cbn [lines_acc rev app]. destruct cur; [reflexivity|]. rewrite app_nil_r. reflexivity.
  - cbn [lines_acc]. destruct (Ascii.eqb c cNL) eqn:E; [apply Ascii.eqb_eq in E; exfalso; exact (H c (or_introl eq_refl) E)|].
    rewrite IH by (intros x Hx; apply H; right; exact Hx). cbn [rev]. rewrite <- !app_assoc. cbn [app].
    destruct (rev l ++ c :: cur) eqn:X; [destruct (rev l); discriminate|reflexivity].
Qed.
Lemma lines_of_flat : forall ls rest, (forall l, In l ls -> no_nl l) ->
  lines_of (flat_map (fun l => l ++ [newline]) ls ++ rest) = ls ++ lines_of rest.
Proof.
  induction ls as [|l ls IH]; intros rest H; [reflexivity|]. cbn [flat_map]. rewrite <- !app_assoc. cbn [app].
  rewrite newline_eq, lines_of_app by (apply H; left; reflexivity). rewrite <- newline_eq, IH; [reflexivity|].
  intros x Hx. apply H. right. exact Hx.
Qed.
Lemma lines_of_last : forall l, no_nl l -> l <> [] -> lines_of l = [l].
Proof.
  intros l H Hn. unfold lines_of. rewrite lines_acc_end by exact H. rewrite app_nil_r. cbn [rev app].
  destruct (rev l) eqn:E; [|reflexivity]. apply (f_equal (@rev ascii)) in E. rewrite rev_involutive in E. contradiction.
Qed.
Lemma lines_are_of : forall text lines, lines_are text lines -> lines_of text = lines.
Proof.
  intros text lines (H & [E|(first & last & E1 & Hn & E)]).
  - rewrite E, <- (app_nil_r (flat_map _ lines)), lines_of_flat; [apply app_nil_r|].
    intros l Hl. apply one_line_no_nl, H, Hl.
  - rewrite E, lines_of_flat.
    + rewrite lines_of_last; [symmetry; exact E1| |exact Hn]. apply one_line_no_nl, H. rewrite E1. apply in_or_app. right. left. reflexivity.
    + intros l Hl. apply one_line_no_nl, H. rewrite E1. apply in_or_app. left. exact Hl.
Qed.
Lemma lines_acc_are : forall text cur, no_nl (rev cur) -> lines_are (rev cur ++ text) (lines_acc cur text).
Proof.
  induction text as [|c text IH]; intros cur H.
  - cbn [lines_acc]. rewrite app_nil_r. destruct cur as [|x cur].
    + split; [intros l []|left; reflexivity].
    + split.
      * intros l [E|[]]. subst l. apply one_line_no_nl. exact H.
      * right. exists [], (rev (x :: cur)). split; [reflexivity|]. split; [|reflexivity].
        cbn [rev]. destruct (rev cur); discriminate.
  - cbn [lines_acc]. destruct (Ascii.eqb c cNL) eqn:E.
    + apply Ascii.eqb_eq in E. subst c. destruct (IH [] no_nl_nil) as (A & B). cbn [rev app] in B. split.
      * intros l [El|Hl]; [subst l; apply one_line_no_nl; exact H|apply A; exact Hl].
      * destruct B as [B|(first & last & B1 & B2 & B3)].
        -- left. cbn [flat_map]. rewrite <- app_assoc. cbn [app]. rewrite <- B. reflexivity.
        -- right. exists (rev cur :: first), last. split; [rewrite B1; reflexivity|]. split; [exact B2|].
           cbn [flat_map]. rewrite <- !app_assoc. cbn [app]. rewrite <- B3. reflexivity.
    + assert (N : no_nl (rev (c :: cur))).
      { cbn [rev]. intros x Hx. apply in_app_or in Hx. destruct Hx as [Hx|[Hx|[]]]; [apply H; exact Hx|subst x].
        apply Ascii.eqb_neq. exact E. }
      assert (B := IH (c :: cur) N). cbn [rev] in B. rewrite <- app_assoc in B. exact B.
Qed.
Lemma lines_of_are : forall text, lines_are text (lines_of text).
Proof. intro text. exact (lines_acc_are text [] no_nl_nil). Qed.

(** * Words and integers *)
Lemma take_word_inv : forall t w rest, take_word t = (w, rest) -> t = w ++ rest /\ (forall c, In c w -> ~ white c) /\ ends rest.
Proof.
  induction t as [|c t IH]; intros w rest H.
  - injection H as E1 E2. subst. split; [reflexivity|]. split; [intros c []|apply ends_nil].
  - cbn [take_word] in H. destruct (is_space c) eqn:E.
    + injection H as E1 E2. subst. split; [reflexivity|]. split; [intros x []|].
      intros x r Ex. injection Ex as Ex _. subst x. apply is_space_iff. exact E.
    + destruct (take_word t) as [w' r'] eqn:T. injection H as E1 E2. subst w r'. destruct (IH w' rest eq_refl) as (A & B & C).
      split; [rewrite A; reflexivity|]. split; [|exact C]. intros x [Ex|Hx]; [|apply B; exact Hx].
      subst x. intro W. apply is_space_iff in W. congruence.
Qed.
Lemma get_word_iff : forall t w rest, get_word t = Some (w, rest) <-> next_word t w rest.
Proof.
  intros t w rest. split.
  - intro H. unfold get_word in H. destruct (take_word (skip_spaces t)) as [w' r'] eqn:T.
    destruct (skip_spaces_split t) as (ws & Et & Hw). destruct (take_word_inv _ _ _ T) as (A & B & C).
    destruct w' as [|c w']; [discriminate|]. injection H as E1 E2. subst w r'. exists ws. split; [rewrite <- A; exact Et|].
    split; [exact Hw|]. split; [|exact C]. split; [discriminate|exact B].
  - intros (ws & E & Hw & P & He). subst t. apply get_word_app; assumption.
Qed.
Lemma strto_iff : forall t neg m rest, strto t = Some (neg, m, rest) <-> next_integer t neg m rest.
Proof.
  intros t neg m rest. split; [apply strto_inv|].
  intros (ws & sg & ds & E & A & B & C & D & F & G). subst t m. apply strto_numeral; assumption.
Qed.
Lemma get_u64_iff : forall t z rest, get_u64 t = Some (z, rest) <-> next_size t z rest.
Proof.
  intros t z rest. unfold get_u64, sto_unsigned64. split.
  - intro H. destruct (strto t) as [[[neg m] r]|] eqn:E; [|discriminate]. destruct (m <? 2 ^ 64) eqn:L; [|discriminate].
    apply Z.ltb_lt in L. injection H as E1 E2. subst z r. exists neg, m. split; [apply strto_iff; exact E|]. split; [exact L|reflexivity].
  - intros (neg & m & H & L & Ez). apply strto_iff in H. rewrite H. apply Z.ltb_lt in L. rewrite L, Ez. reflexivity.
Qed.
Lemma declares_iff : forall line name a b, declares_by line name a b <-> declares line name a b.
Proof.
  intros line name a b. split; intros (s1 & s2 & s3 & s4 & A & B & C & D); exists s1, s2, s3, s4;
    (split; [apply get_word_iff; exact A|]); (split; [apply get_word_iff; exact B|]);
    (split; [apply get_u64_iff; exact C|apply get_u64_iff; exact D]).
Qed.
Lemma get_i32_iff : forall t z rest, get_i32 t = Some (z, rest) <->
  exists neg m, next_integer t neg m rest /\ z = signed neg m /\ int32 z.
Proof.
  intros t z rest. unfold get_i32, sto_signed, int32. change (32 - 1) with 31. split.
  - intro H. destruct (strto t) as [[[neg m] r]|] eqn:E; [|discriminate]. cbv zeta in H.
    destruct ((- 2 ^ 31 <=? (if neg then - m else m)) && ((if neg then - m else m) <? 2 ^ 31))%bool eqn:L; [|discriminate].
    apply Bool.andb_true_iff in L. destruct L as [L1 L2]. apply Z.leb_le in L1. apply Z.ltb_lt in L2.
    injection H as E1 E2. subst r. exists neg, m. split; [apply strto_iff; exact E|]. unfold signed. split; [symmetry; exact E1|lia].
  - intros (neg & m & H & Ez & L1 & L2). apply strto_iff in H. rewrite H. cbv zeta. unfold signed in Ez. rewrite <- Ez.
    apply Z.leb_le in L1. apply Z.ltb_lt in L2. rewrite L1, L2. reflexivity.
Qed.

(** * Decimal numbers *)
Lemma take_sign_iff : forall t neg r, (forall c x, t = c :: x -> c <> "+"%char -> c <> "-"%char -> True) ->
  take_sign t = (neg, r) -> exists sg, t = sg ++ r /\ sign_text sg neg.
Proof.
  intros t neg r _ H. unfold take_sign in H. destruct t as [|c t].
  - injection H as E1 E2. subst. exists []. split; [reflexivity|constructor].
  - destruct (Ascii.eqb c "-") eqn:E1; [|destruct (Ascii.eqb c "+") eqn:E2]; injection H as X1 X2; subst.
    + apply Ascii.eqb_eq in E1. subst c. exists ["-"%char]. split; [reflexivity|constructor].
    + apply Ascii.eqb_eq in E2. subst c. exists ["+"%char]. split; [reflexivity|constructor].
    + exists []. split; [reflexivity|constructor].
Qed.
Lemma take_sign_text : forall sg neg r, sign_text sg neg -> (forall c x, r = c :: x -> c <> "+"%char /\ c <> "-"%char) ->
  take_sign (sg ++ r) = (neg, r).
Proof.
  intros sg neg r H Hr. destruct H; cbn [app]; [|reflexivity|reflexivity].
  unfold take_sign. destruct r as [|c x]; [reflexivity|]. destruct (Hr c x eq_refl) as [A B].
  apply Ascii.eqb_neq in A. apply Ascii.eqb_neq in B. rewrite A, B. reflexivity.
Qed.
Lemma digit_no_sign : forall c, digit c -> c <> "+"%char /\ c <> "-"%char.
Proof. intros c H. split; intro E; subst c; unfold digit in H; vm_compute in H; lia. Qed.
Lemma decimal_app : forall a b, dec_from (decimal a) b = decimal (a ++ b).
Proof. intros a b. symmetry. exact (dec_from_app a b 0). Qed.

(** The exponent. *)
Lemma parse_exponent_inv : forall t e rest, parse_exponent t = Some (e, rest) ->
  exists ex, t = ex ++ rest /\ exponent_text ex e /\
    (ex <> [] -> forall c r, rest = c :: r -> ~ digit c) /\ (ex = [] -> forall c r, rest = c :: r -> c <> "e"%char /\ c <> "E"%char).
Proof.
  intros t e rest H. unfold parse_exponent in H. destruct t as [|c t].
  - injection H as E1 E2. subst. exists []. split; [reflexivity|]. split; [constructor|]. split; [intro X; contradiction|discriminate].
  - destruct (Ascii.eqb c "e" || Ascii.eqb c "E")%bool eqn:E.
    + destruct (take_sign t) as [neg r1] eqn:S. destruct (take_sign_iff t neg r1 (fun _ _ _ _ _ => I) S) as (sg & Et & Hs).
      destruct (take_digits_split r1) as (ds & r2 & Ed & Hd & Hr). rewrite Ed, (take_digits_app ds 0 false r2 Hd Hr) in H.
      destruct ds as [|d ds]; [discriminate|]. injection H as E1 E2. subst rest.
      exists (c :: sg ++ d :: ds). split; [rewrite Et, Ed; cbn [app]; rewrite <- app_assoc; reflexivity|].
      split; [|split; [intros _; exact Hr|discriminate]]. subst e.
      assert (Hc : c = "e"%char \/ c = "E"%char).
      { apply Bool.orb_true_iff in E. destruct E as [E|E]; apply Ascii.eqb_eq in E; [left|right]; exact E. }
      exact (et_some c sg neg (d :: ds) Hc Hs ltac:(discriminate) Hd).
    + injection H as E1 E2. subst. exists []. split; [reflexivity|]. split; [constructor|]. split; [intro X; contradiction|].
      intros _ x r Ex. injection Ex as Ex _. subst x. apply Bool.orb_false_iff in E. destruct E as [A B].
      split; apply Ascii.eqb_neq; assumption.
Qed.
Lemma parse_exponent_text : forall ex e rest, exponent_text ex e ->
  (forall c r, rest = c :: r -> ~ digit c /\ (ex = [] -> c <> "e"%char /\ c <> "E"%char)) ->
  parse_exponent (ex ++ rest) = Some (e, rest).
Proof.
  intros ex e rest H Hr. destruct H as [|c sg neg ds Hc Hs Hn Hd].
  - cbn [app]. unfold parse_exponent. destruct rest as [|c r]; [reflexivity|].
    destruct (Hr c r eq_refl) as [_ X]. destruct (X eq_refl) as [A B]. apply Ascii.eqb_neq in A. apply Ascii.eqb_neq in B.
    rewrite A, B. reflexivity.
  - cbn [app]. unfold parse_exponent.
    replace (Ascii.eqb c "e" || Ascii.eqb c "E")%bool with true by (destruct Hc; subst c; reflexivity).
    rewrite <- app_assoc, (take_sign_text sg neg (ds ++ rest) Hs).
    + rewrite (take_digits_app ds 0 false rest Hd (fun c r E => proj1 (Hr c r E))).
      destruct ds as [|d ds]; [contradiction|reflexivity].
    + intros x r E. destruct ds as [|d ds]; [contradiction|]. injection E as E _. subst x. apply digit_no_sign, Hd. left. reflexivity.
Qed.

(** The value of the model's number text. *)
Lemma parse_double_inv : forall t q rest, parse_double t = Some (q, rest) -> next_real t q rest.
Proof.
  intros t q rest H. unfold parse_double in H. destruct (skip_spaces_split t) as (ws & Et & Hw).
  destruct (take_sign (skip_spaces t)) as [neg s1] eqn:S. destruct (take_sign_iff _ neg s1 (fun _ _ _ _ _ => I) S) as (sg & Es & Hs).
  destruct (take_digits_split s1) as (ip & s2 & Ei & Hi & Hr2). rewrite Ei, (take_digits_app ip 0 false s2 Hi Hr2) in H.
  change (dec_from 0 ip) with (decimal ip) in H.
  assert (Q0 : forall pt fp s3 k any, s2 = pt ++ s3 -> fraction_text pt fp -> k = Z.of_nat (length fp) ->
    (forall c r, s3 = c :: r -> ~ digit c) -> (pt = [] -> forall c r, s3 = c :: r -> c <> "."%char) ->
    (any = true -> ip ++ fp <> []) ->
    (if any then match parse_exponent s3 with
                 | Some (e, s4) => Some (dec_value neg (decimal (ip ++ fp)) (e - k), s4)
                 | None => None end else None) = Some (q, rest) -> next_real t q rest).
  { intros pt fp s3 k any E2 Hf Ek Hd Hp Hany X. destruct any; [|discriminate].
    destruct (parse_exponent s3) as [[e s4]|] eqn:PE; [|discriminate]. injection X as X1 X2. subst s4.
    destruct (parse_exponent_inv _ _ _ PE) as (ex & E3 & He & Hx1 & Hx2).
    exists ws, sg, neg, ip, pt, fp, ex, e. split; [rewrite <- E3, <- E2, <- Ei, <- Es; exact Et|].
    split; [exact Hw|]. split; [exact Hs|]. split; [exact Hi|]. split; [exact Hf|]. split; [exact (Hany eq_refl)|]. split; [exact He|].
    split.
    - intros c r Er. split.
      + destruct ex as [|x ex]; [cbn [app] in E3; subst s3; exact (Hd c r Er)|exact (Hx1 ltac:(discriminate) c r Er)].
      + intro Ex. subst ex. cbn [app] in E3. subst s3. destruct (Hx2 eq_refl c r Er) as [A B]. split; [exact A|]. split; [exact B|].
        intro Ep. exact (Hp Ep c r Er).
    - rewrite <- X1, Ek. unfold signed. apply dec_value_eq. }
  destruct s2 as [|c r].
  - apply (Q0 [] [] [] 0 (match ip with [] => false | _ => true end)); try reflexivity; try discriminate; [constructor| |].
    + intro X. rewrite app_nil_r. destruct ip; [discriminate|discriminate].
    + rewrite app_nil_r. exact H.
  - destruct (Ascii.eqb c ".") eqn:Ec.
    + apply Ascii.eqb_eq in Ec. subst c. destruct (take_digits_split r) as (fp & r' & Ef & Hf & Hr').
      rewrite Ef, (take_digits_app fp (decimal ip) _ r' Hf Hr') in H. rewrite decimal_app, <- Ef in H.
      apply (Q0 ("."%char :: fp) fp r' (Z.of_nat (length r) - Z.of_nat (length r')) (match fp with [] => (match ip with [] => false | _ => true end) | _ => true end)).
      * rewrite Ef. reflexivity.
      * constructor. exact Hf.
      * rewrite Ef, app_length, Nat2Z.inj_add. lia.
      * exact Hr'.
      * discriminate.
      * intros X E. apply app_eq_nil in E. destruct E as [E1 E2]. subst. discriminate.
      * exact H.
    + apply (Q0 [] [] (c :: r) 0 (match ip with [] => false | _ => true end)); try reflexivity; [constructor|exact Hr2| | |].
      * intros _ x y E. injection E as E _. subst x. apply Ascii.eqb_neq. exact Ec.
      * intro X. rewrite app_nil_r. destruct ip; discriminate.
      * rewrite app_nil_r. exact H.
Qed.
Lemma parse_double_text : forall t q rest, next_real t q rest -> exists q', parse_double t = Some (q', rest) /\ (q' == q)%Q.
Proof.
  intros t q rest (ws & sg & neg & ip & pt & fp & ex & e & Et & Hw & Hs & Hi & Hf & Hn & He & Hr & Hq).
  exists (dec_value neg (decimal (ip ++ fp)) (e - Z.of_nat (length fp))).
  split; [|rewrite dec_value_eq; symmetry; exact Hq]. subst t. unfold parse_double.
  set (tail := ip ++ pt ++ ex ++ rest).
  assert (Ht : forall c x, tail = c :: x -> digit c \/ c = "."%char).
  { intros c x E. unfold tail in E. destruct ip as [|d ip].
    - destruct Hf as [|fp Hfp]; [exfalso; apply Hn; reflexivity|]. injection E as E _. right. symmetry. exact E.
    - injection E as E _. subst d. left. apply Hi. left. reflexivity. }
  rewrite skip_spaces_app; [|exact Hw|].
  2:{ intros c x E Wc. destruct Hs.
      - cbn [app] in E. destruct (Ht c x E) as [D|D]; [exact (white_not_digit c Wc D)|subst c; unfold white in Wc; vm_compute in Wc; lia].
      - injection E as E _. subst c. unfold white in Wc. vm_compute in Wc. lia.
      - injection E as E _. subst c. unfold white in Wc. vm_compute in Wc. lia. }
  rewrite (take_sign_text sg neg tail Hs).
  2:{ intros c x E. destruct (Ht c x E) as [D|D]; [exact (digit_no_sign c D)|subst c; split; discriminate]. }
  unfold tail.
  assert (Hex : forall c x, ex ++ rest = c :: x -> ~ digit c /\ (pt = [] -> c <> "."%char)).
  { intros c x E. destruct He as [|c0 sg0 neg0 ds0 Hc0 Hs0 Hn0 Hd0].
    - cbn [app] in E. destruct (Hr c x E) as [A B]. split; [exact A|]. apply (B eq_refl).
    - injection E as E _. subst c0. split; [destruct Hc0; subst c; unfold digit; vm_compute; lia|].
      intros _ X. destruct Hc0; subst c; discriminate. }
  assert (Hpe : parse_exponent (ex ++ rest) = Some (e, rest)).
  { apply parse_exponent_text; [exact He|]. intros c r E. destruct (Hr c r E) as [A B]. split; [exact A|].
    intro Ex. destruct (B Ex) as (B1 & B2 & _). auto. }
  destruct Hf as [|fp Hfp].
  - rewrite app_nil_r in *. cbn [app]. rewrite (take_digits_app ip 0 false (ex ++ rest) Hi (fun c x E => proj1 (Hex c x E))).
    change (dec_from 0 ip) with (decimal ip). destruct ip as [|d ip]; [contradiction|].
    destruct (ex ++ rest) as [|c x] eqn:E; [cbv iota beta; rewrite Hpe; reflexivity|].
    replace (Ascii.eqb c ".") with false; [cbv iota beta; rewrite Hpe; reflexivity|].
    symmetry. apply Ascii.eqb_neq. exact (proj2 (Hex c x eq_refl) eq_refl).
  - rewrite (take_digits_app ip 0 false (("."%char :: fp) ++ ex ++ rest) Hi).
    2:{ intros c x E. injection E as E _. subst c. exact not_digit_dot. }
    change (dec_from 0 ip) with (decimal ip). cbn [app]. change (Ascii.eqb "." ".") with true. cbv iota.
    rewrite (take_digits_app fp (decimal ip) _ (ex ++ rest) Hfp (fun c x E => proj1 (Hex c x E))).
    rewrite decimal_app. cbv iota beta.
    replace (Z.of_nat (length (fp ++ ex ++ rest)) - Z.of_nat (length (ex ++ rest))) with (Z.of_nat (length fp))
      by (rewrite (app_length fp), Nat2Z.inj_add; lia).
    rewrite Hpe. destruct fp as [|d fp]; [destruct ip as [|d ip]; [contradiction|reflexivity]|reflexivity].
Qed.

(** * Rows *)
Section Text.
Variable rnd : Q -> option Q.
Variable mem : Z.

Lemma row_text_nil : forall vs, row_text rnd [] vs -> vs = [].
Proof.
  intros vs H. remember (@nil ascii) as t eqn:E0. destruct H as [t|t q rst v vs N V H]; [reflexivity|]. subst t. exfalso.
  destruct N as (ws & sg & neg & ip & pt & fp & ex & e & Et & _ & Hsg & Hip & Hf & Hn & _).
  symmetry in Et. apply app_eq_nil in Et. destruct Et as [_ Et]. apply app_eq_nil in Et. destruct Et as [_ Et].
  apply app_eq_nil in Et. destruct Et as [E1 Et]. apply app_eq_nil in Et. destruct Et as [E2 _].
  subst ip. destruct Hf; [apply Hn; reflexivity|discriminate].
Qed.
Lemma load_row_ok : forall n alloc idx t vs, load_row rnd alloc idx n t = Ok vs ->
  row_text rnd t vs /\ length vs = n /\ (n <> O -> idx + Z.of_nat n <= alloc).
Proof.
  induction n as [|n IH]; intros alloc idx t vs H.
  - injection H as E. subst vs. split; [constructor|]. split; [reflexivity|]. intro X. contradiction.
  - rewrite load_row_S in H. destruct (alloc <=? idx) eqn:L; [discriminate|]. apply Z.leb_gt in L.
    destruct (get_double rnd t) as [[v r]|] eqn:G; [|discriminate].
    destruct (load_row rnd alloc (idx + 1) n r) as [l| |] eqn:R; cbn [obind] in H; try discriminate. injection H as E. subst vs.
    destruct (IH _ _ _ _ R) as (A & B & C). unfold get_double in G. destruct (parse_double t) as [[q r']|] eqn:P; [|discriminate].
    destruct (rnd q) as [v'|] eqn:V; [|discriminate]. injection G as G1 G2. subst v' r'.
    split; [exact (row_next rnd t q r v l (parse_double_inv _ _ _ P) V A)|]. split; [cbn [length]; rewrite B; reflexivity|].
    intros _. destruct n as [|n]; [lia|]. specialize (C ltac:(discriminate)). lia.
Qed.
Lemma load_rows_ok : forall n nc alloc idx ls rows rest, load_rows rnd alloc idx n nc ls = Ok (rows, rest) ->
  rows_text rnd nc ls rows rest /\ length rows = n /\ (n <> O -> nc <> O -> idx + Z.of_nat n * Z.of_nat nc <= alloc).
Proof.
  induction n as [|n IH]; intros nc alloc idx ls rows rest H.
  - injection H as E1 E2. subst. split; [constructor|]. split; [reflexivity|]. intros X. contradiction.
  - rewrite load_rows_S in H. destruct (load_row rnd alloc idx nc (hd [] ls)) as [row| |] eqn:R; cbn [obind] in H; try discriminate.
    destruct (load_rows rnd alloc (idx + Z.of_nat nc) n nc (tl ls)) as [[rows' rest']| |] eqn:Rs; cbn [obind fst snd] in H; try discriminate.
    injection H as E1 E2. subst rows rest'. destruct (load_row_ok _ _ _ _ _ R) as (A & B & C). destruct (IH _ _ _ _ _ _ Rs) as (D & E & F).
    split; [|split; [cbn [length]; rewrite E; reflexivity|]].
    + destruct ls as [|l ls]; cbn [hd tl] in *; [|exact (rows_next rnd nc l ls row rows' rest A B D)].
      apply row_text_nil in A. subst row. apply rows_missing; [symmetry; exact B|exact D].
    + intros _ Hc. specialize (C Hc). destruct n as [|n]; [lia|]. specialize (F ltac:(discriminate) Hc). lia.
Qed.

Hypothesis respects : forall p q, (p == q)%Q -> rnd p = rnd q.

Lemma load_row_text_ok : forall t vs, row_text rnd t vs -> forall alloc idx, idx + Z.of_nat (length vs) <= alloc ->
  load_row rnd alloc idx (length vs) t = Ok vs.
Proof.
  intros t vs H. induction H as [t|t q rest v vs N V H IH]; intros alloc idx L; [reflexivity|].
  cbn [length] in *. rewrite load_row_S. replace (alloc <=? idx) with false by (symmetry; apply Z.leb_gt; lia).
  destruct (parse_double_text _ _ _ N) as (q' & P & E). unfold get_double. rewrite P, (respects q' q E), V, IH by lia. reflexivity.
Qed.
Lemma load_rows_text_ok : forall nc ls rows rest, rows_text rnd nc ls rows rest -> forall alloc idx,
  idx + Z.of_nat (length rows) * Z.of_nat nc <= alloc -> load_rows rnd alloc idx (length rows) nc ls = Ok (rows, rest).
Proof.
  intros nc ls rows rest H. induction H as [ls|l ls vs rows rest R E H IH|rows rest E H IH]; intros alloc idx L; [reflexivity| |].
  - cbn [length] in *. rewrite load_rows_S. cbn [hd tl].
    assert (X := load_row_text_ok l vs R alloc idx ltac:(nia)). rewrite E in X. rewrite X. cbn [obind]. rewrite IH by lia. reflexivity.
  - cbn [length] in *. rewrite load_rows_S. cbn [hd tl]. rewrite E in *. cbn [load_row obind]. rewrite IH by lia. reflexivity.
Qed.
End Text.

(** * Strings *)
Lemma char_of_code_iff : forall z c, char_of_code z = c <-> Z.of_nat (nat_of_ascii c) = z mod 256.
Proof.
  intros z c. unfold char_of_code. assert (B := Z.mod_pos_bound z 256 ltac:(lia)). split.
  - intro E. subst c. rewrite nat_ascii_embedding by lia. lia.
  - intro E. rewrite <- E, Nat2Z.id. apply ascii_nat_embedding.
Qed.
Lemma next_integer_shorter : forall t neg m rest, next_integer t neg m rest -> (length rest < length t)%nat.
Proof.
  intros t neg m rest (ws & sg & ds & E & _ & _ & N & _). subst t. rewrite !app_length. destruct ds; [contradiction|]. cbn [length]. lia.
Qed.
Lemma load_chars_ok : forall f t, (length t <= f)%nat -> codes_text t (load_chars f t).
Proof.
  induction f as [|f IH]; intros t L.
  - cbn [load_chars]. apply codes_end. intros neg m rest N. apply next_integer_shorter in N. lia.
  - cbn [load_chars]. destruct (get_i32 t) as [[z r]|] eqn:G.
    + apply get_i32_iff in G. destruct G as (neg & m & N & Ez & Hz). subst z.
      assert (S := next_integer_shorter _ _ _ _ N).
      apply (codes_next t neg m r); [exact N|exact Hz|apply char_of_code_iff; reflexivity|apply IH; lia].
    + apply codes_end. intros neg m rest N Hz. assert (X : get_i32 t = Some (signed neg m, rest)).
      { apply get_i32_iff. exists neg, m. auto. } congruence.
Qed.
Lemma codes_text_unique : forall t v, codes_text t v -> forall f, (length t <= f)%nat -> load_chars f t = v.
Proof.
  intros t v H. induction H as [t H|t neg m rest c cs N Hz Hc H IH]; intros f L.
  - destruct f as [|f]; [reflexivity|]. cbn [load_chars]. destruct (get_i32 t) as [[z r]|] eqn:G; [|reflexivity].
    apply get_i32_iff in G. destruct G as (neg & m & N & Ez & Hz). subst z. exfalso. exact (H neg m r N Hz).
  - assert (S := next_integer_shorter _ _ _ _ N). destruct f as [|f]; [lia|]. cbn [load_chars].
    assert (X : get_i32 t = Some (signed neg m, rest)) by (apply get_i32_iff; exists neg, m; auto).
    rewrite X. f_equal; [apply char_of_code_iff; exact Hc|apply IH; lia].
Qed.
Lemma codes_text_nil : codes_text [] [].
Proof. apply (load_chars_ok 0 []). reflexivity. Qed.

(** * Files *)
Section File.
Variable rnd : Q -> option Q.
Variable mem : Z.

Definition put (d : sdt_def) (st : store) : store :=
  match d with
  | SMat n c rows => Store (emplace n (Matrix (Z.of_nat (length rows)) c rows) (st_mats st)) (st_strs st)
  | SStr n v => Store (st_mats st) (emplace n v (st_strs st))
  end.
Fixpoint puts (ds : list sdt_def) (st : store) : store := match ds with [] => st | d :: r => puts r (put d st) end.

(** A non-empty line that starts with a word. *)
Lemma next_word_cons : forall t w rest, next_word t w rest -> exists c x, t = c :: x.
Proof.
  intros t w rest (ws & E & _ & [N _] & _). destruct t as [|c x]; [|exists c, x; reflexivity]. exfalso.
  symmetry in E. apply app_eq_nil in E. destruct E as [_ E]. apply app_eq_nil in E. destruct E as [E _]. contradiction.
Qed.
Lemma load_declared : forall type line name a b ls st, declares line name a b ->
  load_from rnd mem type (line :: ls) st =
  match load_matrix rnd mem a b ls with
  | Ok (m, ls') => load_from rnd mem (str_of "@matrix") ls' (Store (emplace name m (st_mats st)) (st_strs st))
  | Throw => Some Throw
  | UB => Some UB
  end.
Proof.
  intros type line name a b ls st (s1 & s2 & s3 & s4 & A & B & C & D). rewrite load_from_step. unfold load_step.
  destruct (next_word_cons _ _ _ A) as (c & x & E). subst line.
  apply get_word_iff in A. apply get_word_iff in B. apply get_u64_iff in C. apply get_u64_iff in D.
  rewrite A, str_eqb_refl, B, C, D. reflexivity.
Qed.
Lemma load_declared_string : forall type line name ls st, declares_string line name ->
  load_from rnd mem type (line :: ls) st =
  load_from rnd mem (str_of "@string") (snd (load_string ls)) (Store (st_mats st) (emplace name (fst (load_string ls)) (st_strs st))).
Proof.
  intros type line name ls st (s1 & s2 & s3 & z & A & B & C). rewrite load_from_step. unfold load_step.
  destruct (next_word_cons _ _ _ A) as (c & x & E). subst line.
  apply get_word_iff in A. apply get_word_iff in B. apply get_u64_iff in C.
  rewrite A. change (str_eqb (str_of "@string") (str_of "@matrix")) with false. rewrite str_eqb_refl. cbv iota. rewrite B, C.
  destruct (load_string ls) as [v r]. reflexivity.
Qed.
Lemma declares_range : forall line name a b, declares line name a b -> 0 <= a < 2 ^ 64 /\ 0 <= b < 2 ^ 64.
Proof.
  intros line name a b (s1 & s2 & s3 & s4 & _ & _ & C & D). apply get_u64_iff in C. apply get_u64_iff in D.
  split; [exact (get_u64_range _ _ _ C)|exact (get_u64_range _ _ _ D)].
Qed.

(** Definitions in the language are loaded. *)
Lemma load_lines : (forall p q, (p == q)%Q -> rnd p = rnd q) -> mem < 2 ^ 64 ->
  forall ls ds rest, sdt_lines rnd mem ls ds rest -> forall type st,
  exists type', load_from rnd mem type ls st = load_from rnd mem type' rest (puts ds st).
Proof.
  intros Hr Hm ls ds rest H.
  induction H as [ls|ls ds rest H IH|line name a b ls rows ls' ds rest D Ha Hab R L H IH|line name l v ls ds rest D C H IH|line name ds rest D H IH];
    intros type st.
  - exists type. reflexivity.
  - destruct (IH type st) as (t & E). exists t. rewrite load_empty_line. exact E.
  - destruct (declares_range _ _ _ _ D) as (Ra & Rb). rewrite (load_declared type line name a b ls st D).
    assert (X : load_matrix rnd mem a b ls = Ok (Matrix a b rows, ls')).
    { unfold load_matrix. rewrite Z.mod_small by nia.
      replace (mem <? a) with false by (symmetry; apply Z.ltb_ge; lia).
      replace (mem <? a * b) with false by (symmetry; apply Z.ltb_ge; lia).
      replace (a =? 0) with false by (symmetry; apply Z.eqb_neq; lia).
      replace (Z.to_nat a) with (length rows) by lia.
      rewrite (load_rows_text_ok rnd Hr _ _ _ _ R) by (rewrite Z2Nat.id by lia; lia). reflexivity. }
    rewrite X. destruct (IH (str_of "@matrix") (Store (emplace name (Matrix a b rows) (st_mats st)) (st_strs st))) as (t & E).
    exists t. rewrite E. cbn [puts put]. rewrite L. reflexivity.
  - rewrite (load_declared_string type line name (l :: ls) st D). unfold load_string. cbn [fst snd].
    rewrite (codes_text_unique l v C (length l) (le_n _)).
    destruct (IH (str_of "@string") (Store (st_mats st) (emplace name v (st_strs st)))) as (t & E). exists t. exact E.
  - rewrite (load_declared_string type line name [] st D). unfold load_string. cbn [fst snd length load_chars].
    destruct (IH (str_of "@string") (Store (st_mats st) (emplace name [] (st_strs st)))) as (t & E). exists t. exact E.
Qed.
(** Everything that is loaded is in the language. *)
Lemma loaded_lines : forall n ls type st st', (length ls <= n)%nat -> load_from rnd mem type ls st = Some (Ok st') ->
  exists ds, sdt_lines rnd mem ls ds [] /\ st' = puts ds st.
Proof.
  induction n as [|n IH]; intros ls type st st' L H.
  - destruct ls as [|l ls]; [|cbn [length] in L; lia]. injection H as E. subst st'. exists []. split; [constructor|reflexivity].
  - destruct ls as [|line ls]; [injection H as E; subst st'; exists []; split; [constructor|reflexivity]|].
    cbn [length] in L. destruct line as [|c x].
    + rewrite load_empty_line in H. destruct (IH ls type st st' ltac:(lia) H) as (ds & A & B). exists ds. split; [constructor; exact A|exact B].
    + assert (H0 := H). rewrite load_from_step in H. unfold load_step in H.
      destruct (get_word (c :: x)) as [[w s1]|] eqn:W.
      2:{ cbn [get_word] in H. exfalso. change (get_word (@nil ascii)) with (@None (str * str)) in H.
          destruct (str_eqb type (str_of "@matrix")); [discriminate|]. destruct (str_eqb type (str_of "@string")); discriminate. }
      destruct (str_eqb_spec w (str_of "@matrix")) as [Ew|Ew].
      * subst w. destruct (get_word s1) as [[name s2]|] eqn:W2; [|discriminate]. destruct (get_u64 s2) as [[a s3]|] eqn:G1; [|discriminate].
        destruct (get_u64 s3) as [[b s4]|] eqn:G2; [|discriminate].
        assert (D : declares (c :: x) name a b).
        { exists s1, s2, s3, s4. split; [apply get_word_iff; exact W|]. split; [apply get_word_iff; exact W2|].
          split; [apply get_u64_iff; exact G1|apply get_u64_iff; exact G2]. }
        destruct (declares_range _ _ _ _ D) as (Ra & Rb).
        destruct (load_matrix rnd mem a b ls) as [[m ls']| |] eqn:M; try discriminate.
        assert (S := load_matrix_rest _ _ _ _ _ _ _ M).
        destruct (IH ls' _ _ st' ltac:(lia) H) as (ds & A & B).
        unfold load_matrix in M. destruct (mem <? a) eqn:M1; [discriminate|]. apply Z.ltb_ge in M1.
        destruct (mem <? (a * b) mod 2 ^ 64) eqn:M2; [discriminate|]. apply Z.ltb_ge in M2.
        destruct (a =? 0) eqn:M3; [discriminate|]. apply Z.eqb_neq in M3.
        destruct (load_rows rnd ((a * b) mod 2 ^ 64) 0 (Z.to_nat a) (Z.to_nat b) ls) as [[rows lr]| |] eqn:R; cbn [obind fst snd] in M; try discriminate.
        injection M as M4 M5. subst m lr. destruct (load_rows_ok _ _ _ _ _ _ _ _ R) as (R1 & R2 & R3).
        exists (SMat name b rows :: ds). split.
        -- apply (sl_matrix rnd mem (c :: x) name a b ls rows ls'); [exact D|lia| |exact R1|lia|exact A].
           destruct (Z.eq_dec b 0) as [Eb|Eb]; [subst b; rewrite Z.mul_0_r in *; rewrite Z.mod_small in M2; lia|].
           specialize (R3 ltac:(lia) ltac:(lia)). rewrite !Z2Nat.id in R3 by lia. lia.
        -- rewrite B. cbn [puts put]. replace (Z.of_nat (length rows)) with a by lia. reflexivity.
      * destruct (str_eqb_spec w (str_of "@string")) as [Ew2|Ew2]; [|discriminate]. subst w.
        destruct (get_word s1) as [[name s2]|] eqn:W2; [|discriminate]. destruct (get_u64 s2) as [[z s3]|] eqn:G1; [|discriminate].
        assert (D : declares_string (c :: x) name).
        { exists s1, s2, s3, z. split; [apply get_word_iff; exact W|]. split; [apply get_word_iff; exact W2|apply get_u64_iff; exact G1]. }
        destruct ls as [|l ls].
        -- cbn [load_string length load_chars] in H. destruct (IH [] _ _ st' ltac:(cbn [length]; lia) H) as (ds & A & B).
           exists (SStr name [] :: ds). split; [apply sl_string_missing; assumption|exact B].
        -- unfold load_string in H. cbn [length] in L. destruct (IH ls _ _ st' ltac:(lia) H) as (ds & A & B).
           exists (SStr name (load_chars (length l) l) :: ds). split; [|exact B].
           apply sl_string; [exact D|apply load_chars_ok; reflexivity|exact A].
Qed.

(** What a list of definitions makes visible. *)
Lemma puts_find : forall ds st n,
  find n (st_mats (puts ds st)) = match find n (st_mats st) with
                                  | Some m => Some m
                                  | None => option_map (fun p => Matrix (Z.of_nat (length (snd p))) (fst p) (snd p)) (matrix_of n ds)
                                  end /\
  find n (st_strs (puts ds st)) = match find n (st_strs st) with Some v => Some v | None => string_of n ds end.
Proof.
  induction ds as [|d ds IH]; intros st n.
  - cbn [puts matrix_of string_of option_map]. split; [destruct (find n (st_mats st))|destruct (find n (st_strs st))]; reflexivity.
  - cbn [puts]. destruct (IH (put d st) n) as (A & B). rewrite A, B. destruct d as [k c rows|k v]; cbn [put st_mats st_strs matrix_of string_of]; rewrite find_emplace.
    + split; [|reflexivity]. destruct (find n (st_mats st)); [reflexivity|]. destruct (str_eqb n k); reflexivity.
    + split; [reflexivity|]. destruct (find n (st_strs st)); [reflexivity|]. destruct (str_eqb n k); reflexivity.
Qed.
End File.

(** * Carriage returns *)
Definition cr : ascii := ascii_of_nat 13.
(** A line with a carriage return at its end, unless it is empty. *)
Definition with_cr (l : str) : str := match l with [] => [] | _ => l ++ [cr] end.
Lemma cr_white : white cr. Proof. right. vm_compute. lia. Qed.
Lemma cr_not_digit : ~ digit cr. Proof. unfold digit. vm_compute. lia. Qed.
Lemma snoc_head : forall (rest : str) c r, rest ++ [cr] = c :: r -> c = cr \/ exists r', rest = c :: r'.
Proof.
  intros rest c r E. destruct rest as [|x rest]; cbn [app] in E; injection E as E _; [left; symmetry; exact E|].
  subst x. right. exists rest. reflexivity.
Qed.
Lemma ends_cr : forall rest, ends rest -> ends (rest ++ [cr]).
Proof.
  intros rest H c r E. destruct (snoc_head _ _ _ E) as [Ec|(r' & Er)]; [subst c; exact cr_white|exact (H c r' Er)].
Qed.
Lemma next_word_cr : forall t w rest, next_word t w rest -> next_word (t ++ [cr]) w (rest ++ [cr]).
Proof.
  intros t w rest (ws & E & A & B & C). exists ws. split; [rewrite E, <- !app_assoc; reflexivity|]. split; [exact A|]. split; [exact B|].
  apply ends_cr. exact C.
Qed.
Lemma next_integer_cr : forall t neg m rest, next_integer t neg m rest -> next_integer (t ++ [cr]) neg m (rest ++ [cr]).
Proof.
  intros t neg m rest (ws & sg & ds & E & A & B & C & D & F & G). exists ws, sg, ds. split; [rewrite E, <- !app_assoc; reflexivity|].
  split; [exact A|]. split; [exact B|]. split; [exact C|]. split; [exact D|]. split; [exact F|].
  intros c r X. destruct (snoc_head _ _ _ X) as [Ec|(r' & Er)]; [subst c; exact cr_not_digit|exact (G c r' Er)].
Qed.
Lemma next_integer_cr_inv : forall t neg m rest, next_integer (t ++ [cr]) neg m rest ->
  exists rest', rest = rest' ++ [cr] /\ next_integer t neg m rest'.
Proof.
  intros t neg m rest (ws & sg & ds & E & A & B & C & D & F & G). destruct rest as [|x0 r0].
  - exfalso. destruct (exists_last C) as (ds0 & d & Ed). rewrite app_nil_r, Ed, !app_assoc in E. apply app_inj_tail in E.
    destruct E as [_ E]. subst d. apply cr_not_digit, D. rewrite Ed. apply in_or_app. right. left. reflexivity.
  - destruct (exists_last (l := x0 :: r0) ltac:(discriminate)) as (rest' & x & Er). rewrite Er in *. clear Er x0 r0.
    rewrite !app_assoc in E. apply app_inj_tail in E. destruct E as [E Ex]. subst x. exists rest'. split; [reflexivity|].
    exists ws, sg, ds. split; [rewrite E, <- !app_assoc; reflexivity|]. split; [exact A|]. split; [exact B|]. split; [exact C|].
    split; [exact D|]. split; [exact F|]. intros c r X. apply (G c (r ++ [cr])). rewrite X. reflexivity.
Qed.
Lemma next_size_cr : forall t z rest, next_size t z rest -> next_size (t ++ [cr]) z (rest ++ [cr]).
Proof. intros t z rest (neg & m & A & B). exists neg, m. split; [apply next_integer_cr; exact A|exact B]. Qed.
Lemma next_real_cr : forall t q rest, next_real t q rest -> next_real (t ++ [cr]) q (rest ++ [cr]).
Proof.
  intros t q rest (ws & sg & neg & ip & pt & fp & ex & e & E & A & B & C & D & F & G & H & K).
  exists ws, sg, neg, ip, pt, fp, ex, e. split; [rewrite E, <- !app_assoc; reflexivity|]. split; [exact A|]. split; [exact B|].
  split; [exact C|]. split; [exact D|]. split; [exact F|]. split; [exact G|]. split; [|exact K].
  intros c r X. destruct (snoc_head _ _ _ X) as [Ec|(r' & Er)]; [|exact (H c r' Er)]. subst c. split; [exact cr_not_digit|].
  intros _. split; [discriminate|]. split; [discriminate|]. intros _. discriminate.
Qed.
Lemma declares_cr : forall line name a b, declares line name a b -> declares (with_cr line) name a b.
Proof.
  intros line name a b (s1 & s2 & s3 & s4 & A & B & C & D). destruct (next_word_cons _ _ _ A) as (c & x & E). subst line.
  exists (s1 ++ [cr]), (s2 ++ [cr]), (s3 ++ [cr]), (s4 ++ [cr]). split; [exact (next_word_cr _ _ _ A)|].
  split; [apply next_word_cr; exact B|]. split; apply next_size_cr; assumption.
Qed.
Lemma declares_string_cr : forall line name, declares_string line name -> declares_string (with_cr line) name.
Proof.
  intros line name (s1 & s2 & s3 & z & A & B & C). destruct (next_word_cons _ _ _ A) as (c & x & E). subst line.
  exists (s1 ++ [cr]), (s2 ++ [cr]), (s3 ++ [cr]), z. split; [exact (next_word_cr _ _ _ A)|].
  split; [apply next_word_cr; exact B|]. apply next_size_cr; assumption.
Qed.
Lemma row_text_cr : forall rnd t vs, row_text rnd t vs -> row_text rnd (t ++ [cr]) vs.
Proof.
  intros rnd t vs H. induction H as [t|t q rest v vs N V H IH]; [constructor|].
  apply (row_next rnd (t ++ [cr]) q (rest ++ [cr])); [apply next_real_cr; exact N|exact V|exact IH].
Qed.
Lemma codes_text_cr : forall t v, codes_text t v -> codes_text (t ++ [cr]) v.
Proof.
  intros t v H. induction H as [t H|t neg m rest c cs N Hz Hc H IH].
  - apply codes_end. intros neg m rest N. apply next_integer_cr_inv in N. destruct N as (rest' & _ & N). exact (H neg m rest' N).
  - apply (codes_next (t ++ [cr]) neg m (rest ++ [cr])); [apply next_integer_cr; exact N|exact Hz|exact Hc|exact IH].
Qed.
Lemma rows_text_cr : forall rnd nc ls rows rest, rows_text rnd nc ls rows rest -> rows_text rnd nc (map with_cr ls) rows (map with_cr rest).
Proof.
  intros rnd nc ls rows rest H. induction H as [ls|l ls vs rows rest R E H IH|rows rest E H IH]; [constructor| |].
  - cbn [map]. apply rows_next; [|exact E|exact IH]. destruct l; [exact R|]. exact (row_text_cr rnd _ vs R).
  - cbn [map]. apply rows_missing; [exact E|exact IH].
Qed.
Lemma sdt_lines_cr : forall rnd mem ls ds rest, sdt_lines rnd mem ls ds rest -> sdt_lines rnd mem (map with_cr ls) ds (map with_cr rest).
Proof.
  intros rnd mem ls ds rest H.
  induction H as [ls|ls ds rest H IH|line name a b ls rows ls' ds rest D Ha Hab R L H IH|line name l v ls ds rest D C H IH|line name ds rest D H IH];
    cbn [map].
  - constructor.
  - exact (sl_blank rnd mem _ ds _ IH).
  - apply (sl_matrix rnd mem (with_cr line) name a b (map with_cr ls) rows (map with_cr ls')); try assumption;
      [apply declares_cr; exact D|apply rows_text_cr; exact R].
  - apply sl_string; [apply declares_string_cr; exact D| |exact IH]. destruct l; [exact C|]. exact (codes_text_cr _ v C).
  - apply sl_string_missing; [apply declares_string_cr; exact D|exact IH].
Qed.

(** * Whole texts *)
Section Whole.
Variable rnd : Q -> option Q.
Variable mem : Z.

Lemma load_from_text : forall text lines, lines_are text lines -> load rnd mem text = load_from rnd mem [] lines (Store [] []).
Proof. intros text lines H. apply lines_are_of in H. unfold load, load_from. rewrite H. reflexivity. Qed.

Lemma text_loaded : forall text st, load rnd mem text = Some (Ok st) ->
  exists lines ds, lines_are text lines /\ sdt_lines rnd mem lines ds [] /\ st = puts ds (Store [] []).
Proof.
  intros text st H. rewrite (load_from_text text (lines_of text) (lines_of_are text)) in H.
  destruct (loaded_lines rnd mem _ _ _ _ _ (le_n _) H) as (ds & A & B). exists (lines_of text), ds.
  split; [apply lines_of_are|]. split; [exact A|exact B].
Qed.
Hypothesis respects : forall p q, (p == q)%Q -> rnd p = rnd q.
Hypothesis bounded : mem < 2 ^ 64.
Lemma text_loads : forall text lines ds, lines_are text lines -> sdt_lines rnd mem lines ds [] ->
  load rnd mem text = Some (Ok (puts ds (Store [] []))).
Proof.
  intros text lines ds H L. rewrite (load_from_text text lines H).
  destruct (load_lines rnd mem respects bounded lines ds [] L [] (Store [] [])) as (t & E). rewrite E. reflexivity.
Qed.
Lemma text_language : forall text, (exists r, opens rnd mem text r) <-> exists lines ds, lines_are text lines /\ sdt_lines rnd mem lines ds [].
Proof.
  intro text. split.
  - intros (r & st & H & _). destruct (text_loaded text st H) as (lines & ds & A & B & _). exists lines, ds. auto.
  - intros (lines & ds & A & B). exists (open_store (puts ds (Store [] []))), (puts ds (Store [] [])).
    split; [exact (text_loads text lines ds A B)|reflexivity].
Qed.
Lemma text_values : forall text lines ds r, lines_are text lines -> sdt_lines rnd mem lines ds [] -> opens rnd mem text r ->
  forall n,
    result r (RDoubles n) = match matrix_of n ds with Some (c, rows) => Ok (VMat (Z.of_nat (length rows)) c rows) | None => Throw end /\
    result r (RString n) = match string_of n ds with Some v => Ok (VStr v) | None => Throw end /\
    (exists b, result r (RHas n) = Ok (VBool b) /\ (b = true <-> matrix_of n ds <> None \/ string_of n ds <> None)).
Proof.
  intros text lines ds r A B (st & L & E) n. rewrite (text_loads text lines ds A B) in L. injection L as L. subst st r.
  destruct (puts_find ds (Store [] []) n) as (F1 & F2). cbn [find st_mats st_strs] in F1, F2.
  assert (F := find_open (puts ds (Store [] [])) n). unfold result. cbn [do_read fst]. unfold with_matrix. rewrite F, F1. cbn [open_store r_strs].
  rewrite F2. destruct (matrix_of n ds) as [[c rows]|]; cbn [option_map fst snd].
  - split; [reflexivity|]. split; [destruct (string_of n ds); reflexivity|]. exists true. split; [reflexivity|].
    split; [intros _; left; discriminate|reflexivity].
  - split; [reflexivity|]. split; [destruct (string_of n ds); reflexivity|]. destruct (string_of n ds) as [v|].
    + exists true. split; [reflexivity|]. split; [intros _; right; discriminate|reflexivity].
    + exists false. split; [reflexivity|]. split; [discriminate|]. intros [X|X]; contradiction.
Qed.
Lemma text_cr : forall text text' lines r, lines_are text lines -> lines_are text' (map with_cr lines) ->
  opens rnd mem text r -> opens rnd mem text' r.
Proof.
  intros text text' lines r A A' (st & L & E). destruct (text_loaded text st L) as (lines0 & ds & B & C & D).
  assert (El : lines0 = lines) by (rewrite <- (lines_are_of _ _ A), <- (lines_are_of _ _ B); reflexivity). subst lines0.
  exists st. split; [|exact E]. rewrite D. apply (text_loads text' (map with_cr lines) ds A'). exact (sdt_lines_cr rnd mem _ _ _ C).
Qed.
Lemma white_word : forall l, (forall c, In c l -> white c) -> get_word l = None.
Proof.
  intros l H. unfold get_word. rewrite <- (app_nil_r l), (skip_spaces_app l [] H); [reflexivity|discriminate].
Qed.
Lemma text_white_line : forall text lines ds l rest, lines_are text lines -> sdt_lines rnd mem lines ds (l :: rest) ->
  l <> [] -> (forall c, In c l -> white c) -> load rnd mem text = Some Throw.
Proof.
  intros text lines ds l rest A L Hn Hw. rewrite (load_from_text text lines A).
  destruct (load_lines rnd mem respects bounded lines ds _ L [] (Store [] [])) as (t & E). rewrite E, load_from_step.
  destruct l as [|c x]; [contradiction|]. unfold load_step. rewrite (white_word _ Hw).
  change (get_word (@nil ascii)) with (@None (str * str)).
  destruct (str_eqb t (str_of "@matrix")); [reflexivity|]. destruct (str_eqb t (str_of "@string")); reflexivity.
Qed.
Lemma text_no_rows : forall text lines ds line rest name b, 0 <= mem -> lines_are text lines -> sdt_lines rnd mem lines ds (line :: rest) ->
  declares line name 0 b -> load rnd mem text = Some UB.
Proof.
  intros text lines ds line rest name b H0 A L D. rewrite (load_from_text text lines A).
  destruct (load_lines rnd mem respects bounded lines ds _ L [] (Store [] [])) as (t & E). rewrite E.
  rewrite (load_declared rnd mem t line name 0 b rest _ D). unfold load_matrix. change (0 * b) with 0. change (0 mod 2 ^ 64) with 0.
  replace (mem <? 0) with false by (symmetry; apply Z.ltb_ge; exact H0). reflexivity.
Qed.
Lemma text_overflow : forall text lines ds line rest name a b, 1 <= a <= mem -> 1 <= b -> lines_are text lines ->
  sdt_lines rnd mem lines ds (line :: rest) -> declares line name a b -> (2 ^ 64 | a * b) -> load rnd mem text = Some UB.
Proof.
  intros text lines ds line rest name a b Ha Hb A L D Hd. rewrite (load_from_text text lines A).
  destruct (load_lines rnd mem respects bounded lines ds _ L [] (Store [] [])) as (t & E). rewrite E.
  rewrite (load_declared rnd mem t line name a b rest _ D). unfold load_matrix. rewrite (proj2 (Z.mod_divide (a * b) (2 ^ 64) ltac:(lia)) Hd).
  replace (mem <? a) with false by (symmetry; apply Z.ltb_ge; lia).
  replace (mem <? 0) with false by (symmetry; apply Z.ltb_ge; lia).
  replace (a =? 0) with false by (symmetry; apply Z.eqb_neq; lia).
  destruct (Z.to_nat a) as [|ka] eqn:Ea; [lia|]. destruct (Z.to_nat b) as [|kb] eqn:Eb; [lia|].
  rewrite load_rows_S. cbn [load_row]. change (0 <=? 0) with true. reflexivity.
Qed.
End Whole.

Lemma text_safe : forall rnd mem text,
  load rnd mem text <> None /\
  (load rnd mem text = Some UB -> exists lines line name a b, lines_are text lines /\ In line lines /\ declares line name a b /\ (a = 0 \/ 2 ^ 64 <= a * b)) /\
  (forall r n nr nc rows, opens rnd mem text r -> result r (RDoubles n) = Ok (VMat nr nc rows) ->
     1 <= nr /\ 0 <= nc /\ Z.of_nat (length rows) = nr /\ forall x, In x rows -> Z.of_nat (length x) = nc).
Proof.
  intros rnd mem text. destruct (load_safe rnd mem text) as (A & B & C). split; [exact A|]. split; [|exact C].
  intro H. destruct (B H) as (line & name & a & b & I1 & D & O). exists (lines_of text), line, name, a, b.
  split; [apply lines_of_are|]. split; [exact I1|]. split; [apply declares_iff; exact D|exact O].
Qed.
Lemma text_final_newline : forall rnd mem text last, text <> [] -> last <> newline -> (exists t, text = t ++ [last]) ->
  load rnd mem (text ++ [newline]) = load rnd mem text.
Proof.
  intros rnd mem text last Hn Hl (t & Et).
  assert (X : lines_are (text ++ [newline]) (lines_of text)).
  { destruct (lines_of_are text) as (A & [B|(first & l & B1 & B2 & B3)]).
    - exfalso. destruct (lines_of text) as [|l0 ls0] eqn:E using rev_ind; [cbn [flat_map] in B; contradiction|].
      rewrite flat_map_app in B. cbn [flat_map] in B. rewrite app_nil_r, app_assoc, Et in B. apply app_inj_tail in B. destruct B as [_ B]. contradiction.
    - split; [exact A|]. left. rewrite B1, flat_map_app, B3. cbn [flat_map]. rewrite app_nil_r, <- app_assoc. reflexivity. }
  rewrite (load_from_text rnd mem _ _ X). symmetry. apply (load_from_text rnd mem text). apply lines_of_are.
Qed.

(** * Integers *)
Lemma integer_part_quot : forall q, integer_part q (Z.quot (Qnum q) (Zpos (Qden q))).
Proof.
  intros [a b]. unfold integer_part, Qle, Qlt, inject_Z. cbn [Qnum Qden].
  assert (Hb : 0 < Z.pos b) by lia. split; intro H.
  - assert (0 <= a) by lia. assert (E := Z.quot_rem' a (Z.pos b)). assert (B := Z.rem_bound_pos a (Z.pos b) ltac:(lia) Hb). lia.
  - assert (Ha : a <= 0) by lia. assert (E := Z.quot_rem' a (Z.pos b)). assert (B := Z.rem_bound_pos_neg a (Z.pos b) Hb Ha). lia.
Qed.
Lemma cast_int_quot : forall t q,
  (fits t (Z.quot (Qnum q) (Zpos (Qden q))) -> cast_int t q = Ok (Z.quot (Qnum q) (Zpos (Qden q)))) /\
  (~ fits t (Z.quot (Qnum q) (Zpos (Qden q))) -> cast_int t q = UB).
Proof.
  intros t q. unfold cast_int. cbv zeta. set (z := Z.quot (Qnum q) (Zpos (Qden q))).
  destruct ((ityp_lo t <=? z) && (z <=? ityp_hi t))%bool eqn:E.
  - split; [reflexivity|]. intro H. exfalso. apply H. apply Bool.andb_true_iff in E. destruct E as [A B].
    apply Z.leb_le in A. apply Z.leb_le in B. destruct t; unfold fits, ityp_lo, ityp_hi in *; lia.
  - split; [|reflexivity]. intro H. exfalso. apply Bool.andb_false_iff in E.
    destruct E as [A|A]; apply Z.leb_gt in A; destruct t; unfold fits, ityp_lo, ityp_hi in *; lia.
Qed.
Definition int_of (q : Q) : Z := Z.quot (Qnum q) (Zpos (Qden q)).
Lemma fits_dec : forall t z, fits t z \/ ~ fits t z.
Proof. intros t z. destruct t; unfold fits; lia. Qed.
Lemma cast_row_ok : forall t row, (forall z, In z (map int_of row) -> fits t z) -> obind_list (cast_int t) row = Ok (map int_of row).
Proof.
  intros t row. induction row as [|q row IH]; intro H; [reflexivity|]. cbn [obind_list map].
  destruct (cast_int_quot t q) as [A _]. rewrite A by (apply H; left; reflexivity). cbn [obind].
  rewrite IH by (intros z Hz; apply H; right; exact Hz). reflexivity.
Qed.
Lemma cast_row_ub : forall t row z, In z (map int_of row) -> ~ fits t z -> obind_list (cast_int t) row = UB.
Proof.
  intros t row. induction row as [|q row IH]; intros z Hz Hn; [destruct Hz|]. cbn [obind_list map] in *.
  destruct (cast_int_quot t q) as [A B]. destruct (fits_dec t (int_of q)) as [F|F].
  - rewrite (A F). cbn [obind]. destruct Hz as [Hz|Hz]; [subst z; contradiction|]. rewrite (IH z Hz Hn). reflexivity.
  - rewrite (B F). reflexivity.
Qed.
Lemma row_fits_dec : forall t row, (forall z, In z row -> fits t z) \/ exists z, In z row /\ ~ fits t z.
Proof.
  intros t row. induction row as [|z row [IH|(x & A & B)]].
  - left. intros z [].
  - destruct (fits_dec t z) as [F|F]; [left; intros x [E|Hx]; [subst x; exact F|apply IH; exact Hx]|].
    right. exists z. split; [left; reflexivity|exact F].
  - right. exists x. split; [right; exact A|exact B].
Qed.
Lemma cast_rows_ok : forall t rows, (forall row z, In row (map (map int_of) rows) -> In z row -> fits t z) ->
  obind_list (obind_list (cast_int t)) rows = Ok (map (map int_of) rows).
Proof.
  intros t rows. induction rows as [|row rows IH]; intro H; [reflexivity|]. cbn [obind_list map].
  rewrite cast_row_ok by (intros z Hz; apply (H (map int_of row) z (or_introl eq_refl) Hz)). cbn [obind].
  rewrite IH by (intros r z Hr Hz; apply (H r z (or_intror Hr) Hz)). reflexivity.
Qed.
Lemma cast_rows_ub : forall t rows row z, In row (map (map int_of) rows) -> In z row -> ~ fits t z ->
  obind_list (obind_list (cast_int t)) rows = UB.
Proof.
  intros t rows. induction rows as [|r0 rows IH]; intros row z Hr Hz Hn; [destruct Hr|]. cbn [obind_list map] in *.
  destruct (row_fits_dec t (map int_of r0)) as [F|(x & A & B)].
  - rewrite (cast_row_ok t r0 F). cbn [obind]. destruct Hr as [Hr|Hr]; [subst row; exfalso; exact (Hn (F z Hz))|].
    rewrite (IH row z Hr Hz Hn). reflexivity.
  - rewrite (cast_row_ub t r0 x A B). reflexivity.
Qed.
Lemma int_of_rows : forall rows, Forall2 (Forall2 integer_part) rows (map (map int_of) rows).
Proof.
  assert (A : forall row, Forall2 integer_part row (map int_of row)).
  { induction row as [|q row IH]; constructor; [apply integer_part_quot|exact IH]. }
  induction rows as [|row rows IH]; constructor; [apply A|exact IH].
Qed.
(** All integer reads of an opened file or of any later state of the reader. *)
Lemma integer_reads : forall r n nr nc rows, result r (RDoubles n) = Ok (VMat nr nc rows) ->
  exists zs, Forall2 (Forall2 integer_part) rows zs /\ forall t,
    ((forall row z, In row zs -> In z row -> fits t z) -> result r (RInts t n) = Ok (VIMat nr nc zs) /\
       (nr <> 1 \/ nc <> 1 -> result r (RInt t n) = Throw) /\ (forall z, nr = 1 -> nc = 1 -> zs = [[z]] -> result r (RInt t n) = Ok (VInt z))) /\
    (forall row z, In row zs -> In z row -> ~ fits t z -> result r (RInts t n) = UB /\ result r (RInt t n) = UB).
Proof.
  intros r n nr nc rows H. exists (map (map int_of) rows). split; [apply int_of_rows|]. intro t.
  unfold result in *. cbn [do_read] in *. unfold with_matrix in *. destruct (find n (r_mats r)) as [c|]; [|discriminate].
  destruct (readable c); [|discriminate]. cbn [fst] in *. injection H as E1 E2 E3. rewrite E3. split.
  - intro F. rewrite (cast_rows_ok t rows F). cbn [obind]. unfold not_scalar. rewrite E1, E2. split; [reflexivity|]. split.
    + intros [N|N]; apply Z.eqb_neq in N; rewrite N; [reflexivity|]. destruct (nr =? 1); reflexivity.
    + intros z N1 N2 Ez. subst nr nc. rewrite N1, N2, Ez. reflexivity.
  - intros row z Hr Hz Hn. rewrite (cast_rows_ub t rows row z Hr Hz Hn). split; reflexivity.
Qed.
Lemma integer_vectors : forall r n vs, result r (RVec n) = Ok (VVec vs) ->
  exists zs, Forall2 integer_part vs zs /\ forall t,
    ((forall z, In z zs -> fits t z) -> result r (RIntVec t n) = Ok (VIVec zs)) /\
    (forall z, In z zs -> ~ fits t z -> result r (RIntVec t n) = UB).
Proof.
  intros r n vs H. exists (map int_of vs). split; [assert (X := int_of_rows [vs]); inversion X; assumption|]. intro t.
  unfold result in *. cbn [do_read] in *. unfold with_matrix in *. destruct (find n (r_mats r)) as [c|]; [|discriminate]. cbn [fst] in *.
  destruct (doubles_1d c) as [l| |]; cbn [obind] in *; try discriminate. injection H as E. subst l. split.
  - intro F. rewrite (cast_row_ok t vs F). reflexivity.
  - intros z Hz Hn. rewrite (cast_row_ub t vs z Hz Hn). reflexivity.
Qed.

Lemma list_read_int : forall rnd mem text r n nr nc rows,
  opens rnd mem text r -> result r (RDoubles n) = Ok (VMat nr nc rows) ->
  (nr = 1 \/ nc = 1 -> result r (RList n) = Ok (VVec (concat rows))) /\
  (nr <> 1 -> nc <> 1 -> result r (RList n) = Throw) /\
  (nr = 1 -> nc = 1 -> exists q, rows = [[q]] /\ result r (RScalar n) = Ok (VNum q) /\
     exists z, integer_part q z /\ forall t, (fits t z -> result r (RInt t n) = Ok (VInt z)) /\ (~ fits t z -> result r (RInt t n) = UB)) /\
  (nr <> 1 \/ nc <> 1 -> result r (RScalar n) = Throw).
Proof.
  intros rnd mem text r n nr nc rows O H. destruct (list_read rnd mem text r n nr nc rows O H) as (A & B & C & D).
  split; [exact A|]. split; [exact B|]. split; [|exact D]. intros E1 E2. destruct (C E1 E2) as (q & Eq & S & _).
  exists q. split; [exact Eq|]. split; [exact S|]. destruct (integer_reads r n nr nc rows H) as (zs & P & Q0).
  rewrite Eq in P. inversion P as [|x y l l' Pxy Pl]; subst. inversion Pl; subst. inversion Pxy as [|a z la lz Paz Plz]; subst. inversion Plz; subst.
  exists z. split; [exact Paz|]. intro t. destruct (Q0 t) as (Q1 & Q2). split.
  - intro F. apply Q1; [|reflexivity|reflexivity|reflexivity]. intros row x [Er|[]] Hx. subst row. destruct Hx as [Hx|[]]. subst x. exact F.
  - intro F. exact (proj2 (Q2 [z] z (or_introl eq_refl) (or_introl eq_refl) F)).
Qed.
