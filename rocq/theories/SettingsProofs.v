(** Lemmas about the values of settings. *)
From Verif Require Import Base SettingsModel.
From Coq Require Import ZArith QArith.
Local Open Scope Z_scope.

(** * Specification vocabulary *)
Definition yes_words : list str := map str_of ["yes"; "Yes"; "YES"; "true"; "True"; "TRUE"]%string.
Definition no_words : list str := map str_of ["no"; "No"; "NO"; "false"; "False"; "FALSE"]%string.

(** Value of a list of decimal digits, most significant first. *)
Definition decimal (ds : str) : Z := fold_left (fun a c => 10 * a + (Z.of_nat (nat_of_ascii c) - 48)) ds 0.

(** A text that denotes an integer: white space, optional sign, at least one digit. *)
Definition white (c : ascii) : Prop := nat_of_ascii c = 32%nat \/ (9 <= nat_of_ascii c <= 13)%nat.
Definition digit (c : ascii) : Prop := (48 <= nat_of_ascii c <= 57)%nat.
Inductive sign_text : str -> bool -> Prop :=
| sg_none : sign_text [] false
| sg_plus : sign_text ["+"%char] false
| sg_minus : sign_text ["-"%char] true.
(** [numeral s neg m]: the whole text [s] is a number with that sign and magnitude. *)
Definition numeral (s : str) (neg : bool) (m : Z) : Prop :=
  exists ws sg ds, s = ws ++ sg ++ ds /\ (forall c, In c ws -> white c) /\ sign_text sg neg /\
    ds <> [] /\ (forall c, In c ds -> digit c) /\ m = decimal ds.
Definition signed (neg : bool) (m : Z) : Z := if neg then - m else m.

(** * Booleans *)
Lemma in_words : forall v l, In v (map str_of l) <-> existsb (fun w => str_eqb v (str_of w)) l = true.
Proof.
  intros v l. rewrite existsb_exists, in_map_iff. split.
  - intros [x [E H]]. exists x. split; [exact H|]. subst v. apply str_eqb_refl.
  - intros [x [H E]]. apply str_eqb_eq in E. exists x. auto.
Qed.

Lemma string_to_bool_eq : forall v, string_to_bool v =
  if existsb (fun w => str_eqb v (str_of w)) ["yes"; "Yes"; "YES"; "true"; "True"; "TRUE"]%string then Ok true
  else if existsb (fun w => str_eqb v (str_of w)) ["no"; "No"; "NO"; "false"; "False"; "FALSE"]%string then Ok false
  else Throw.
Proof. intro v. unfold string_to_bool. cbn [existsb]. rewrite !orb_false_r, <- !orb_assoc. reflexivity. Qed.

Lemma string_to_bool_true : forall v, string_to_bool v = Ok true <-> In v yes_words.
Proof.
  intro v. unfold yes_words. rewrite in_words, string_to_bool_eq.
  destruct (existsb _ ["yes"%string; _; _; _; _; _]); [split; reflexivity|].
  destruct (existsb _ _); split; discriminate.
Qed.

Lemma words_disjoint : forall v, In v yes_words -> In v no_words -> False.
Proof.
  intros v H1 H2. unfold yes_words, no_words in *. simpl in H1, H2.
  repeat (destruct H1 as [H1|H1]; [subst v; repeat (destruct H2 as [H2|H2]; [discriminate|]); contradiction|]). contradiction.
Qed.

Lemma string_to_bool_false : forall v, string_to_bool v = Ok false <-> In v no_words.
Proof.
  intro v. assert (D := words_disjoint v). unfold yes_words, no_words in *. rewrite in_words in *. rewrite string_to_bool_eq.
  destruct (existsb _ ["yes"%string; _; _; _; _; _]) eqn:E.
  - split; [discriminate|]. intro H. exfalso. apply (D eq_refl). apply in_words. exact H.
  - clear E. destruct (existsb _ ["no"%string; _; _; _; _; _]); [split; reflexivity|split; discriminate].
Qed.

Lemma string_to_bool_throw : forall v, string_to_bool v = Throw <-> ~ In v yes_words /\ ~ In v no_words.
Proof.
  intro v. rewrite <- string_to_bool_true, <- string_to_bool_false. unfold string_to_bool.
  destruct (_ || _)%bool; [|destruct (_ || _)%bool]; split; intros; try discriminate; try tauto; split; discriminate.
Qed.

Lemma is_bool_spec : forall vals, script_is_bool vals = Ok true <->
  exists v, vals = [v] /\ (In v yes_words \/ In v no_words).
Proof.
  intro vals. unfold script_is_bool, only_value.
  destruct vals as [|v [|w r]].
  - simpl. split; [discriminate|]. intros [v [H _]]. discriminate.
  - cbn [length Nat.eqb]. unfold script_is_bool_at, at_index. cbn [nth_error obind].
    transitivity (string_to_bool v = Ok true \/ string_to_bool v = Ok false).
    2:{ rewrite string_to_bool_true, string_to_bool_false. split.
        - intro H. exists v. auto.
        - intros [u [E H]]. inversion E; subst. exact H. }
    assert (E : forall b1 b2, (Ok b1 = Ok b2 :> outcome bool) <-> b1 = b2) by (intros; split; congruence).
    rewrite E. unfold string_to_bool.
    set (y1 := str_eqb v (str_of "yes")). set (y2 := str_eqb v (str_of "Yes")). set (y3 := str_eqb v (str_of "YES")).
    set (y4 := str_eqb v (str_of "true")). set (y5 := str_eqb v (str_of "True")). set (y6 := str_eqb v (str_of "TRUE")).
    set (n1 := str_eqb v (str_of "no")). set (n2 := str_eqb v (str_of "No")). set (n3 := str_eqb v (str_of "NO")).
    set (n4 := str_eqb v (str_of "false")). set (n5 := str_eqb v (str_of "False")). set (n6 := str_eqb v (str_of "FALSE")).
    clearbody y1 y2 y3 y4 y5 y6 n1 n2 n3 n4 n5 n6.
    split.
    + intro H.
      destruct y1, y2, y3, y4, y5, y6, n1, n2, n3, n4, n5, n6; simpl in *; try discriminate; auto.
    + intro H.
      destruct y1, y2, y3, y4, y5, y6; simpl in *; try (repeat rewrite orb_true_r; reflexivity).
      destruct n1, n2, n3, n4, n5, n6; simpl in *; try reflexivity. destruct H; discriminate.
  - simpl. split; [discriminate|]. intros [u [H _]]. discriminate.
Qed.

Lemma is_bool_total : forall vals, exists b, script_is_bool vals = Ok b.
Proof.
  intro vals. unfold script_is_bool, only_value. destruct vals as [|v [|w r]]; simpl; eauto.
  unfold script_is_bool_at, at_index. simpl. eauto.
Qed.

(** * Integers *)
Lemma is_space_iff : forall c, is_space c = true <-> white c.
Proof.
  intro c. unfold is_space, white. rewrite orb_true_iff, andb_true_iff, Nat.eqb_eq, !Nat.leb_le. reflexivity.
Qed.
Lemma is_digit_iff : forall c, is_digit c = true <-> digit c.
Proof. intro c. unfold is_digit, digit. rewrite andb_true_iff, !Nat.leb_le. reflexivity. Qed.

Lemma white_not_digit : forall c, white c -> digit c -> False.
Proof. unfold white, digit. intros c H1 H2. lia. Qed.

Lemma skip_spaces_app : forall ws s, (forall c, In c ws -> white c) ->
  (forall c r, s = c :: r -> ~ white c) -> skip_spaces (ws ++ s) = s.
Proof.
  induction ws as [|c ws IH]; intros s H Hs; simpl.
  - destruct s as [|c r]; [reflexivity|]. simpl. destruct (is_space c) eqn:E; [|reflexivity].
    apply is_space_iff in E. exfalso. apply (Hs c r eq_refl E).
  - assert (E : is_space c = true) by (apply is_space_iff; apply H; left; reflexivity). rewrite E.
    apply IH; [|exact Hs]. intros x Hx. apply H. right. exact Hx.
Qed.

Lemma skip_spaces_split : forall s, exists ws, s = ws ++ skip_spaces s /\ (forall c, In c ws -> white c).
Proof.
  induction s as [|c r [ws [E H]]]; [exists []; split; [reflexivity|intros c []]|].
  simpl. destruct (is_space c) eqn:Ec.
  - exists (c :: ws). split; [simpl; rewrite <- E; reflexivity|].
    intros x [Hx|Hx]; [subst; apply is_space_iff; exact Ec|apply H; exact Hx].
  - exists []. split; [reflexivity|intros x []].
Qed.

Definition dec_from (a : Z) (ds : str) : Z := fold_left (fun a c => 10 * a + (Z.of_nat (nat_of_ascii c) - 48)) ds a.

Lemma take_digits_app : forall ds acc any rest, (forall c, In c ds -> digit c) ->
  (forall c r, rest = c :: r -> ~ digit c) ->
  take_digits acc any (ds ++ rest) = (dec_from acc ds, match ds with [] => any | _ => true end, rest).
Proof.
  induction ds as [|c ds IH]; intros acc any rest H Hr; simpl.
  - destruct rest as [|c r]; [reflexivity|]. simpl. destruct (is_digit c) eqn:E; [|reflexivity].
    apply is_digit_iff in E. exfalso. apply (Hr c r eq_refl E).
  - assert (E : is_digit c = true) by (apply is_digit_iff; apply H; left; reflexivity). rewrite E.
    rewrite IH; [|intros x Hx; apply H; right; exact Hx|exact Hr].
    replace (acc * 10 + digit_val c) with (10 * acc + (Z.of_nat (nat_of_ascii c) - 48)) by (unfold digit_val; lia).
    destruct ds; reflexivity.
Qed.

Lemma take_digits_split : forall s, exists ds rest, s = ds ++ rest /\ (forall c, In c ds -> digit c) /\
  (forall c r, rest = c :: r -> ~ digit c).
Proof.
  induction s as [|c r [ds [rest [E [H1 H2]]]]].
  - exists [], []. split; [reflexivity|]. split; [intros c []|discriminate].
  - destruct (is_digit c) eqn:Ec.
    + exists (c :: ds), rest. split; [rewrite E; reflexivity|]. split; [|exact H2].
      intros x [Hx|Hx]; [subst; apply is_digit_iff; exact Ec|apply H1; exact Hx].
    + exists [], (c :: r). split; [reflexivity|]. split; [intros x []|].
      intros x y E2 Hd. inversion E2; subst. apply is_digit_iff in Hd. congruence.
Qed.

Lemma strto_numeral : forall ws sg neg ds rest, (forall c, In c ws -> white c) -> sign_text sg neg -> ds <> [] ->
  (forall c, In c ds -> digit c) -> (forall c r, rest = c :: r -> ~ digit c) ->
  strto (ws ++ sg ++ ds ++ rest) = Some (neg, decimal ds, rest).
Proof.
  intros ws sg neg ds rest Hw Hs Hne Hd Hr. unfold strto.
  assert (Hd0 : forall d dd, ds = d :: dd -> digit d) by (intros d dd E; apply Hd; rewrite E; left; reflexivity).
  rewrite skip_spaces_app; [|exact Hw|].
  - destruct Hs; simpl.
    + destruct ds as [|d dd]; [contradiction|]. specialize (Hd0 d dd eq_refl).
      simpl app. cbv iota beta.
      assert (N1 : Ascii.eqb d "-" = false).
      { apply Ascii.eqb_neq. intro E. subst d. unfold digit in Hd0. vm_compute in Hd0. lia. }
      assert (N2 : Ascii.eqb d "+" = false).
      { apply Ascii.eqb_neq. intro E. subst d. unfold digit in Hd0. vm_compute in Hd0. lia. }
      rewrite N1, N2. change (d :: dd ++ rest) with ((d :: dd) ++ rest).
      rewrite (take_digits_app (d :: dd) 0 false rest Hd Hr). reflexivity.
    + rewrite (take_digits_app ds 0 false rest Hd Hr). destruct ds; [contradiction|reflexivity].
    + rewrite (take_digits_app ds 0 false rest Hd Hr). destruct ds; [contradiction|reflexivity].
  - intros c r E Hc. destruct Hs; simpl in E.
    + destruct ds as [|d dd]; [contradiction|]. simpl in E. inversion E; subst.
      apply (white_not_digit c Hc (Hd0 c dd eq_refl)).
    + inversion E; subst. unfold white in Hc. vm_compute in Hc. lia.
    + inversion E; subst. unfold white in Hc. vm_compute in Hc. lia.
Qed.

Lemma strto_inv : forall s neg m rest, strto s = Some (neg, m, rest) ->
  exists ws sg ds, s = ws ++ sg ++ ds ++ rest /\ (forall c, In c ws -> white c) /\ sign_text sg neg /\ ds <> [] /\
    (forall c, In c ds -> digit c) /\ m = decimal ds /\ (forall c r, rest = c :: r -> ~ digit c).
Proof.
  intros s neg m rest H. unfold strto in H.
  destruct (skip_spaces_split s) as [ws [Es Hw]].
  destruct (match skip_spaces s with
            | c :: r => if Ascii.eqb c "-" then (true, r) else if Ascii.eqb c "+" then (false, r) else (false, skip_spaces s)
            | [] => (false, skip_spaces s) end) as [ng s2] eqn:E2.
  destruct (take_digits_split s2) as [ds [rst [Ed [Hd Hr]]]].
  rewrite Ed, (take_digits_app ds 0 false rst Hd Hr) in H.
  destruct ds as [|d dd]; [discriminate|]. inversion H; subst ng m rst.
  assert (Hsg : exists sg, skip_spaces s = sg ++ s2 /\ sign_text sg neg).
  { destruct (skip_spaces s) as [|c r].
    - inversion E2; subst. exists []. split; [reflexivity|constructor].
    - destruct (Ascii.eqb c "-") eqn:E3.
      + inversion E2; subst. apply Ascii.eqb_eq in E3. subst c. exists ["-"%char]. split; [reflexivity|constructor].
      + destruct (Ascii.eqb c "+") eqn:E4; inversion E2; subst.
        * apply Ascii.eqb_eq in E4. subst c. exists ["+"%char]. split; [reflexivity|constructor].
        * exists []. split; [simpl; auto|constructor]. }
  destruct Hsg as [sg [Esg Hsg]]. exists ws, sg, (d :: dd).
  split; [rewrite <- Ed, <- Esg; exact Es|]. split; [exact Hw|]. split; [exact Hsg|]. split; [discriminate|].
  split; [exact Hd|]. split; [reflexivity|exact Hr].
Qed.

Lemma strto_whole : forall s neg m, strto s = Some (neg, m, []) <-> numeral s neg m.
Proof.
  intros s neg m. split.
  - intro H. apply strto_inv in H. destruct H as (ws & sg & ds & E & A & B & C & D & F & _).
    rewrite app_nil_r in E. exists ws, sg, ds. auto 10.
  - intros (ws & sg & ds & E & A & B & C & D & F). subst s m.
    rewrite <- (app_nil_r ds) at 1. apply strto_numeral; auto. discriminate.
Qed.

Lemma decimal_from_nonneg : forall ds a, 0 <= a -> (forall c, In c ds -> digit c) -> 0 <= dec_from a ds.
Proof.
  induction ds as [|c ds IH]; intros a Ha H; [exact Ha|].
  change (0 <= dec_from (10 * a + (Z.of_nat (nat_of_ascii c) - 48)) ds). apply IH; [|intros x Hx; apply H; right; exact Hx].
  assert (Hc := H c (or_introl eq_refl)). unfold digit in Hc. lia.
Qed.
Lemma numeral_nonneg : forall s neg m, numeral s neg m -> 0 <= m.
Proof.
  intros s neg m (ws & sg & ds & _ & _ & _ & _ & D & F). subst m. apply (decimal_from_nonneg ds 0); [lia|exact D].
Qed.

Lemma whole_signed : forall bits s, whole (sto_signed bits s) = true <->
  exists neg m, numeral s neg m /\ - 2 ^ (bits - 1) <= signed neg m < 2 ^ (bits - 1).
Proof.
  intros bits s. unfold sto_signed. split.
  - destruct (strto s) as [[[neg m] rest]|] eqn:E; [|discriminate]. unfold signed.
    destruct (_ && _)%bool eqn:Eb; [|discriminate]. destruct rest as [|c r]; [|discriminate]. intros _.
    apply strto_whole in E. exists neg, m. split; [exact E|].
    apply andb_true_iff in Eb. destruct Eb as [E1 E2]. apply Z.leb_le in E1. apply Z.ltb_lt in E2. lia.
  - intros (neg & m & Hn & Hr). apply strto_whole in Hn. rewrite Hn. unfold signed in Hr.
    assert (Eb : ((- 2 ^ (bits - 1) <=? (if neg then - m else m)) && ((if neg then - m else m) <? 2 ^ (bits - 1)))%bool = true).
    { apply andb_true_iff. split; [apply Z.leb_le|apply Z.ltb_lt]; lia. }
    rewrite Eb. reflexivity.
Qed.

Lemma signed_value : forall bits s neg m, numeral s neg m -> - 2 ^ (bits - 1) <= signed neg m < 2 ^ (bits - 1) ->
  sto_signed bits s = Ok (signed neg m, []).
Proof.
  intros bits s neg m Hn Hr. unfold sto_signed. apply strto_whole in Hn. rewrite Hn. unfold signed in *.
  assert (Eb : ((- 2 ^ (bits - 1) <=? (if neg then - m else m)) && ((if neg then - m else m) <? 2 ^ (bits - 1)))%bool = true).
  { apply andb_true_iff. split; [apply Z.leb_le|apply Z.ltb_lt]; lia. }
  rewrite Eb. reflexivity.
Qed.

Lemma whole_unsigned : forall s, whole (sto_unsigned64 s) = true <-> exists neg m, numeral s neg m /\ m < 2 ^ 64.
Proof.
  intro s. unfold sto_unsigned64. split.
  - destruct (strto s) as [[[neg m] rest]|] eqn:E; [|discriminate].
    destruct (m <? 2 ^ 64) eqn:Eb; [|discriminate]. destruct rest as [|c r]; [|discriminate]. intros _.
    apply strto_whole in E. exists neg, m. split; [exact E|]. apply Z.ltb_lt. exact Eb.
  - intros (neg & m & Hn & Hr). apply strto_whole in Hn. rewrite Hn. apply Z.ltb_lt in Hr. rewrite Hr. reflexivity.
Qed.

Lemma unsigned_value : forall s neg m, numeral s neg m -> m < 2 ^ 64 ->
  sto_unsigned64 s = Ok (signed neg m mod 2 ^ 64, []).
Proof.
  intros s neg m Hn Hm. assert (H0 := numeral_nonneg _ _ _ Hn). unfold sto_unsigned64.
  apply strto_whole in Hn. rewrite Hn. assert (Hm' := Hm). apply Z.ltb_lt in Hm'. rewrite Hm'.
  destruct neg; simpl signed; [reflexivity|]. rewrite Z.mod_small by lia. reflexivity.
Qed.

(** * SFile settings *)
Lemma sf_numeric_vector_doubled : forall d v, sf_numeric_vector d = Ok v ->
  length v = (2 * sf_count d)%nat /\ firstn (sf_count d) v = repeat 0%Q (sf_count d) /\
  (forall i, (i < sf_count d)%nat -> exists q, nth_error v (sf_count d + i) = Some q /\ sf_get_scalar d i = Ok q).
Proof.
  intros d v H.
  assert (G : forall (A : Type) (f : A -> Q) (l : list A) n, n = length l ->
     length (repeat 0%Q n ++ map f l) = (2 * n)%nat /\ firstn n (repeat 0%Q n ++ map f l) = repeat 0%Q n /\
     (forall i, (i < n)%nat -> exists q x, nth_error (repeat 0%Q n ++ map f l) (n + i) = Some q /\ nth_error l i = Some x /\ q = f x)).
  { intros A f l n En. split; [|split].
    - rewrite app_length, repeat_length, map_length. lia.
    - rewrite <- (repeat_length 0%Q n) at 1. rewrite firstn_app. rewrite Nat.sub_diag. simpl.
      rewrite app_nil_r. apply firstn_all.
    - intros i Hi. destruct (nth_error l i) as [x|] eqn:E.
      + exists (f x), x. split; [|auto]. rewrite nth_error_app2; rewrite repeat_length; [|lia].
        replace (n + i - n)%nat with i by lia. rewrite nth_error_map, E. reflexivity.
      + apply nth_error_None in E. lia. }
  unfold sf_numeric_vector in H. destruct d; inversion H; subst; simpl sf_count; simpl sf_get_scalar;
    try (destruct (G Z inject_Z l (length l) eq_refl) as [A [B C]]; split; [exact A|split; [exact B|]];
         intros i Hi; destruct (C i Hi) as (q & x & Q1 & Q2 & Q3); exists q; split; [exact Q1|];
         unfold at_index; rewrite Q2; simpl; congruence).
  destruct (G Q (fun q => q) l (length l) eq_refl) as [A [B C]]. rewrite map_id in *.
  split; [exact A|split; [exact B|]].
  intros i Hi. destruct (C i Hi) as (q & x & Q1 & Q2 & Q3). exists q. split; [exact Q1|].
  unfold at_index. rewrite Q2. congruence.
Qed.

Lemma obind_list_ok : forall A B (f : A -> outcome B) l ys, obind_list f l = Ok ys ->
  length ys = length l /\ (forall i x, nth_error l i = Some x -> exists y, nth_error ys i = Some y /\ f x = Ok y).
Proof.
  intros A B f l. induction l as [|x r IH]; intros ys H; simpl in H.
  - inversion H; subst. split; [reflexivity|]. intros [|i] x E; discriminate.
  - destruct (f x) as [y| |] eqn:Ef; try discriminate. simpl in H.
    fold (obind_list f) in H. destruct (obind_list f r) as [zs| |] eqn:Er; try discriminate. simpl in H. inversion H; subst.
    destruct (IH zs eq_refl) as [L N]. split; [simpl; lia|].
    intros [|i] z E; simpl in *; [inversion E; subst; eauto|apply N; exact E].
Qed.

Lemma filled_ok : forall A (z : A) n get l, filled z n get = Ok l ->
  length l = (2 * n)%nat /\ firstn n l = repeat z n /\
  (forall i, (i < n)%nat -> exists y, nth_error l (n + i) = Some y /\ get i = Ok y).
Proof.
  intros A z n get l H. unfold filled in H. destruct (obind_list get (seq 0 n)) as [ys| |] eqn:E; try discriminate.
  simpl in H. inversion H; subst. apply obind_list_ok in E. rewrite seq_length in E. destruct E as [L N].
  split; [rewrite app_length, repeat_length; lia|]. split.
  - rewrite <- (repeat_length z n) at 1. rewrite firstn_app, Nat.sub_diag. simpl. rewrite app_nil_r. apply firstn_all.
  - intros i Hi. destruct (N i i) as [y [Hy1 Hy2]].
    + rewrite (nth_error_nth' (seq 0 n) 0%nat) by (rewrite seq_length; exact Hi). rewrite seq_nth by exact Hi. reflexivity.
    + exists y. split; [|exact Hy2]. rewrite nth_error_app2; rewrite repeat_length; [|lia].
      replace (n + i - n)%nat with i by lia. exact Hy1.
Qed.

Lemma sf_overwrite_doubled : forall s d, sf_overwrite s = Ok d -> sf_count d = (2 * sf_count s)%nat.
Proof.
  intros s d H. unfold sf_overwrite in H.
  destruct (sf_is_bool s).
  { destruct (filled false _ _) eqn:E; try discriminate. simpl in H. inversion H; subst. apply filled_ok in E. apply E. }
  destruct (sf_is_int32 s) as [b1| |]; try discriminate. cbn [obind] in H.
  destruct b1.
  { destruct (filled 0 _ _) eqn:E; try discriminate. simpl in H. inversion H; subst. apply filled_ok in E. apply E. }
  destruct (sf_is_int64 s).
  { destruct (filled 0 _ _) eqn:E; try discriminate. simpl in H. inversion H; subst. apply filled_ok in E. apply E. }
  destruct (sf_is_uint32 s 0) as [b2| |]; try discriminate. cbn [obind] in H.
  destruct b2.
  { destruct (filled 0 _ _) eqn:E; try discriminate. simpl in H. inversion H; subst. apply filled_ok in E. apply E. }
  destruct (sf_is_uint64 s 0) as [b3| |]; try discriminate. cbn [obind] in H.
  destruct b3.
  { destruct (filled 0 _ _) eqn:E; try discriminate. simpl in H. inversion H; subst. apply filled_ok in E. apply E. }
  destruct (sf_is_integer s).
  { destruct (filled 0%Q _ _) eqn:E; try discriminate. simpl in H. inversion H; subst. apply filled_ok in E. apply E. }
  destruct (filled [] _ _) eqn:E; try discriminate. simpl in H. inversion H; subst. apply filled_ok in E. apply E.
Qed.

Lemma sf_overwrite_text : forall l d, sf_overwrite (SStr l) = Ok d ->
  exists t, d = SStr t /\ forall i, (i < length l)%nat ->
    nth_error t i = Some [] /\ nth_error t (length l + i) = nth_error l 0.
Proof.
  intros l d H. unfold sf_overwrite in H. simpl sf_is_bool in H. cbn [sf_is_int32 sf_is_integer obind] in H. cbn iota in H.
  simpl in H. destruct (filled [] _ _) as [t| |] eqn:E; try discriminate. simpl in H. inversion H; subst.
  exists t. split; [reflexivity|]. apply filled_ok in E. destruct E as [L [F N]]. intros i Hi. split.
  - assert (G : nth_error (firstn (length l) t) i = nth_error t i).
    { rewrite <- (firstn_skipn (length l) t) at 2. rewrite nth_error_app1; [reflexivity|]. rewrite firstn_length. lia. }
    refine (eq_trans (eq_sym G) _). rewrite F. rewrite (nth_error_nth' _ []) by (rewrite repeat_length; lia). rewrite nth_repeat. reflexivity.
  - destruct (N i Hi) as [y [Y1 Y2]]. refine (eq_trans Y1 _). unfold at_index in Y2. destruct (nth_error l 0); inversion Y2. reflexivity.
Qed.

Lemma get_signed_spec : forall s neg m, numeral s neg m ->
  (- 2 ^ 31 <= signed neg m < 2 ^ 31 -> get_int32 [s] 0%nat = Ok (signed neg m)) /\
  (- 2 ^ 63 <= signed neg m < 2 ^ 63 -> get_int64 [s] 0%nat = Ok (signed neg m)) /\
  (~ (- 2 ^ 31 <= signed neg m < 2 ^ 31) -> get_int32 [s] 0%nat = Throw) /\
  (~ (- 2 ^ 63 <= signed neg m < 2 ^ 63) -> get_int64 [s] 0%nat = Throw).
Proof.
  intros s neg m Hn.
  assert (HT : forall bits, ~ (- 2 ^ (bits - 1) <= signed neg m < 2 ^ (bits - 1)) -> sto_signed bits s = Throw).
  { intros bits H. unfold sto_signed. apply strto_whole in Hn. rewrite Hn. fold (signed neg m).
    destruct (_ && _)%bool eqn:E; [|reflexivity]. exfalso. apply H.
    apply andb_true_iff in E. destruct E as [E1 E2]. apply Z.leb_le in E1. apply Z.ltb_lt in E2. lia. }
  unfold get_int32, get_int64. cbn [at_index nth_error obind].
  split; [|split; [|split]]; intro H.
  - rewrite (signed_value 32 s neg m Hn H). reflexivity.
  - rewrite (signed_value 64 s neg m Hn H). reflexivity.
  - rewrite (HT 32 H). reflexivity.
  - rewrite (HT 64 H). reflexivity.
Qed.

Lemma is_unsigned_spec : forall s,
  (is_uint64 [s] = Ok true <-> exists neg m, numeral s neg m /\ m < 2 ^ 64) /\ is_uint32 [s] = is_uint64 [s].
Proof.
  intro s. split; [|reflexivity]. rewrite <- whole_unsigned. unfold is_uint64, only_value. cbn [length Nat.eqb].
  unfold is_uint64_at. cbn [at_index nth_error obind]. split; [intro H; inversion H; reflexivity|intro H; rewrite H; reflexivity].
Qed.

Lemma get_unsigned_spec : forall s neg m, numeral s neg m -> m < 2 ^ 64 ->
  get_uint64 [s] 0%nat = Ok (signed neg m mod 2 ^ 64) /\ get_uint32 [s] 0%nat = Ok (signed neg m mod 2 ^ 32).
Proof.
  intros s neg m Hn Hm. unfold get_uint64, get_uint32. cbn [at_index nth_error obind].
  rewrite (unsigned_value s neg m Hn Hm). cbn [obind fst]. split; [reflexivity|]. f_equal.
  change (2 ^ 64) with (2 ^ 32 * 2 ^ 32). 
  rewrite Z.rem_mul_r by lia. rewrite <- (Z.mul_comm _ (2 ^ 32)), Z_mod_plus_full. apply Z.mod_mod. lia.
Qed.

(** Texts of all integers. *)
Lemma digits_exist : forall n : nat, forall z, 0 <= z < 10 ^ Z.of_nat (S n) ->
  exists ds, ds <> [] /\ (forall c, In c ds -> digit c) /\ decimal ds = z.
Proof.
  assert (HD : forall k, 0 <= k < 10 -> exists c, digit c /\ Z.of_nat (nat_of_ascii c) - 48 = k).
  { intros k Hk. exists (ascii_of_nat (48 + Z.to_nat k)). unfold digit.
    rewrite nat_ascii_embedding by lia. split; lia. }
  induction n as [|n IH]; intros z Hz.
  - change (10 ^ Z.of_nat 1) with 10 in Hz. destruct (HD z Hz) as [c [Hc E]]. exists [c].
    split; [discriminate|]. split; [intros x [Hx|[]]; subst; exact Hc|]. unfold decimal, fold_left. lia.
  - assert (P : 10 ^ Z.of_nat (S (S n)) = 10 * 10 ^ Z.of_nat (S n)).
    { rewrite (Nat2Z.inj_succ (S n)). rewrite Z.pow_succ_r by lia. reflexivity. }
    rewrite P in Hz. assert (Hm := Z.mod_pos_bound z 10 ltac:(lia)). assert (Hdm := Z.div_mod z 10 ltac:(lia)).
    destruct (IH (z / 10)) as [ds [H1 [H2 H3]]].
    { split; [apply Z.div_pos; lia|]. apply Z.div_lt_upper_bound; lia. }
    destruct (HD (z mod 10) Hm) as [c [Hc E]]. exists (ds ++ [c]).
    split; [destruct ds; discriminate|]. split.
    + intros x Hx. apply in_app_or in Hx. destruct Hx as [Hx|[Hx|[]]]; [apply H2; exact Hx|subst; exact Hc].
    + unfold decimal in *. rewrite fold_left_app. rewrite H3. cbn [fold_left]. lia.
Qed.

Lemma numeral_exists : forall z, exists s, numeral s (z <? 0) (Z.abs z).
Proof.
  intro z. destruct (digits_exist (Z.to_nat (Z.log2_up (Z.abs z + 1))) (Z.abs z)) as [ds [H1 [H2 H3]]].
  - split; [lia|].
    assert (A : Z.abs z + 1 <= 2 ^ Z.log2_up (Z.abs z + 1)).
    { destruct (Z.eq_dec (Z.abs z) 0) as [E|E]; [rewrite E; simpl; lia|]. apply Z.log2_log2_up_spec. lia. }
    assert (B : 2 ^ Z.log2_up (Z.abs z + 1) <= 10 ^ Z.log2_up (Z.abs z + 1)).
    { apply Z.pow_le_mono_l. lia. }
    assert (C := Z.log2_up_nonneg (Z.abs z + 1)).
    rewrite Nat2Z.inj_succ, Z2Nat.id by lia. rewrite Z.pow_succ_r by lia.
    assert (D := Z.pow_pos_nonneg 10 (Z.log2_up (Z.abs z + 1)) ltac:(lia) C). lia.
  - destruct (z <? 0).
    + exists (["-"%char] ++ ds), [], ["-"%char], ds. split; [reflexivity|]. split; [intros c []|].
      split; [constructor|]. auto.
    + exists ds, [], [], ds. split; [reflexivity|]. split; [intros c []|]. split; [constructor|]. auto.
Qed.
