(** Proofs about the texts of exceptions. *)
From Verif Require Import Base SettingsProofs SdtModel SFileModel NumText TimeModel ConfigModel ErrModel ErrSpec.
From Coq Require Import ZArith Lia.
Local Open Scope Z_scope.

(** * C strings and numerals *)
Lemma until_nul_no : forall s, ~ In cNUL (until_nul s).
Proof.
  induction s as [|c r IH]; cbn [until_nul]; [intros []|].
  destruct (Ascii.eqb c cNUL) eqn:E; [intros []|]. intros [H|H]; [|exact (IH H)].
  apply Ascii.eqb_neq in E. congruence.
Qed.
Lemma until_nul_c_text : forall s, c_text s (until_nul s).
Proof.
  intro s. split; [apply until_nul_no|]. induction s as [|c r IH]; [left; reflexivity|].
  cbn [until_nul]. destruct (Ascii.eqb c cNUL) eqn:E.
  - apply Ascii.eqb_eq in E. subst c. right. exists r. reflexivity.
  - destruct IH as [H|[q H]].
    + left. rewrite <- H. reflexivity.
    + right. exists q. change ((c :: until_nul r) ++ cNUL :: q) with (c :: (until_nul r ++ cNUL :: q)). rewrite <- H. reflexivity.
Qed.
Lemma until_nul_same : forall s, ~ In cNUL s -> until_nul s = s.
Proof.
  induction s as [|c r IH]; intro H; [reflexivity|]. cbn [until_nul].
  destruct (Ascii.eqb c cNUL) eqn:E.
  - apply Ascii.eqb_eq in E. exfalso. apply H. left. exact E.
  - rewrite IH; [reflexivity|]. intro Q. apply H. right. exact Q.
Qed.
Lemma c_text_unique : forall s t u, c_text s t -> c_text s u -> t = u.
Proof.
  assert (G : forall t s, c_text s t -> until_nul s = t).
  { intros t s [N H]. destruct H as [H|[r H]]; subst s; [apply until_nul_same, N|].
    induction t as [|c t' IH]; [reflexivity|].
    change ((c :: t') ++ cNUL :: r) with (c :: (t' ++ cNUL :: r)). cbn [until_nul].
    destruct (Ascii.eqb c cNUL) eqn:E.
    - apply Ascii.eqb_eq in E. exfalso. apply N. left. exact E.
    - rewrite IH; [reflexivity|]. intro Q. apply N. right. exact Q. }
  intros s t u A B. rewrite <- (G t s A). apply G, B.
Qed.

Lemma decimal_app : forall a b, decimal (a ++ b) = decimal a * 10 ^ Z.of_nat (length b) + decimal b.
Proof.
  intros a b. revert a. induction b as [|c r IH]; intro a.
  - rewrite app_nil_r. cbn [length]. change (decimal []) with 0. rewrite Z.pow_0_r. lia.
  - replace (a ++ c :: r) with ((a ++ [c]) ++ r) by (rewrite <- app_assoc; reflexivity).
    rewrite IH. replace (c :: r) with ([c] ++ r) by reflexivity. rewrite (IH [c]).
    assert (E : decimal (a ++ [c]) = 10 * decimal a + decimal [c]).
    { unfold decimal. rewrite fold_left_app. cbn [fold_left]. lia. }
    rewrite E, app_length. cbn [length]. rewrite Nat2Z.inj_add, Z.pow_add_r by lia.
    change (10 ^ Z.of_nat 1) with 10. lia.
Qed.
Lemma digit_value : forall c, digit c -> 0 <= decimal [c] <= 9.
Proof. intros c H. unfold digit in H. unfold decimal. cbn [fold_left]. lia. Qed.
Lemma digit_value_zero : forall c, digit c -> decimal [c] = 0 -> c = "0"%char.
Proof.
  intros c H E. unfold digit in H. unfold decimal in E. cbn [fold_left] in E.
  rewrite <- (ascii_nat_embedding c). replace (nat_of_ascii c) with 48%nat by lia. reflexivity.
Qed.
Lemma decimal_bound : forall ds, (forall c, In c ds -> digit c) -> 0 <= decimal ds < 10 ^ Z.of_nat (length ds).
Proof.
  induction ds as [|c r IH]; intro H.
  - change (decimal []) with 0. cbn [length]. rewrite Z.pow_0_r. lia.
  - change (c :: r) with ([c] ++ r). rewrite decimal_app, app_length. cbn [length].
    rewrite Nat2Z.inj_add, Z.pow_add_r by lia. change (10 ^ Z.of_nat 1) with 10.
    assert (Q := digit_value c (H c (or_introl eq_refl))).
    assert (P := IH (fun x Hx => H x (or_intror Hx))). nia.
Qed.

Lemma show_nat_numeral : forall z, 0 <= z ->
  (forall c, In c (show_nat z) -> digit c) /\ decimal (show_nat z) = z /\
  (show_nat z = ["0"%char] \/ exists c r, show_nat z = c :: r /\ c <> "0"%char).
Proof.
  intros z Hz. destruct (show_nat_spec z Hz) as (A & B & N & C & L).
  split; [exact A|]. split; [exact B|].
  destruct (Z_lt_le_dec z 10) as [S|S].
  - assert (E : z = 0 \/ z = 1 \/ z = 2 \/ z = 3 \/ z = 4 \/ z = 5 \/ z = 6 \/ z = 7 \/ z = 8 \/ z = 9) by lia.
    clear A B N C L S Hz.
    repeat (destruct E as [E|E]; [subst z; first [left; reflexivity | right; eexists _, _; split; [reflexivity|discriminate]]|]).
    subst z. right. eexists _, _. split; [reflexivity|discriminate].
  - specialize (C S). destruct (show_nat z) as [|c r] eqn:E; [contradiction|].
    right. exists c, r. split; [reflexivity|]. intro Q. subst c.
    change ("0"%char :: r) with (["0"%char] ++ r) in B. rewrite decimal_app in B. change (decimal ["0"%char]) with 0 in B.
    assert (P := decimal_bound r (fun x Hx => A x (or_intror Hx))). cbn [length] in C.
    replace (Z.of_nat (Datatypes.S (length r)) - 1) with (Z.of_nat (length r)) in C by lia. lia.
Qed.
Lemma show_int_numeral : forall z, numeral z (show_int z).
Proof.
  intro z. unfold numeral, show_int. destruct (z <? 0) eqn:E.
  - apply Z.ltb_lt in E. exists (show_nat (- z)). split; [reflexivity|].
    destruct (show_nat_numeral (- z) ltac:(lia)) as (A & B & C). split; [exact A|]. split; [|exact C]. rewrite B. lia.
  - apply Z.ltb_ge in E. exists (show_nat z). split; [reflexivity|].
    destruct (show_nat_numeral z E) as (A & B & C). split; [exact A|]. split; [|exact C]. rewrite B. lia.
Qed.

Lemma digits_same_length : forall a b, (forall c, In c a -> digit c) -> (forall c, In c b -> digit c) ->
  length a = length b -> decimal a = decimal b -> a = b.
Proof.
  induction a as [|x a IH]; intros [|y b] A B L E; try discriminate; [reflexivity|].
  change (x :: a) with ([x] ++ a) in E. change (y :: b) with ([y] ++ b) in E. rewrite !decimal_app in E.
  cbn [length] in L. injection L as L. rewrite L in E.
  assert (P := decimal_bound a (fun c Hc => A c (or_intror Hc))).
  assert (Q := decimal_bound b (fun c Hc => B c (or_intror Hc))). rewrite L in P.
  assert (X := digit_value x (A x (or_introl eq_refl))). assert (Y := digit_value y (B y (or_introl eq_refl))).
  assert (V : decimal [x] = decimal [y]) by nia.
  f_equal.
  - unfold decimal in V. cbn [fold_left] in V.
    rewrite <- (ascii_nat_embedding x), <- (ascii_nat_embedding y). f_equal. lia.
  - apply IH; [intros c Hc; apply A; right; exact Hc|intros c Hc; apply B; right; exact Hc|exact L|]. nia.
Qed.
Lemma leading_length : forall a b, (forall c, In c a -> digit c) -> (forall c, In c b -> digit c) ->
  (exists c r, a = c :: r /\ c <> "0"%char) -> decimal a = decimal b -> (length a <= length b)%nat.
Proof.
  intros a b A B (c & r & E & N) V. subst a.
  change (c :: r) with ([c] ++ r) in V. rewrite decimal_app in V.
  assert (P := decimal_bound b B). assert (Q := decimal_bound r (fun x Hx => A x (or_intror Hx))).
  assert (X := digit_value c (A c (or_introl eq_refl))).
  assert (X1 : decimal [c] <> 0) by (intro Z0; apply N, digit_value_zero; [exact (A c (or_introl eq_refl))|exact Z0]).
  cbn [length]. destruct (le_lt_dec (S (length r)) (length b)) as [L|L]; [exact L|exfalso].
  assert (M : 10 ^ Z.of_nat (length b) <= 10 ^ Z.of_nat (length r)) by (apply Z.pow_le_mono_r; lia). nia.
Qed.
Lemma numeral_unique : forall z s t, numeral z s -> numeral z t -> s = t.
Proof.
  intros z s t (a & Es & A & VA & CA) (b & Et & B & VB & CB). subst s t. f_equal.
  assert (V : decimal a = decimal b) by congruence.
  assert (ZERO : forall x y, (forall c, In c x -> digit c) -> x = ["0"%char] \/ (exists c r, x = c :: r /\ c <> "0"%char) ->
                 y = ["0"%char] -> decimal x = decimal y -> x = y).
  { intros x y X CX Ey Vxy. destruct CX as [CX|(c & r & E & N)]; [congruence|].
    assert (L := leading_length x y X ltac:(subst y; intros c0 [<-|[]]; unfold digit; cbn; lia) (ex_intro _ c (ex_intro _ r (conj E N))) Vxy).
    subst x y. cbn [length] in L. destruct r as [|d r']; [|cbn [length] in L; lia].
    exfalso. apply N. apply digit_value_zero; [apply X; left; reflexivity|exact Vxy]. }
  destruct CA as [CA|CA].
  - symmetry. apply ZERO; [exact B|exact CB|exact CA|congruence].
  - destruct CB as [CB|CB].
    + apply ZERO; [exact A|right; exact CA|exact CB|exact V].
    + apply digits_same_length; [exact A|exact B| |exact V].
      assert (L1 := leading_length a b A B CA V). assert (L2 := leading_length b a B A CB (eq_sym V)). lia.
Qed.

Section Texts.
Variable D : Type.
Variable e_text : D -> str.
Hypothesis e_plain : forall d, ~ In cNUL (e_text d).

Lemma says_unique : forall l s t, says e_text l s -> says e_text l t -> s = t.
Proof.
  intros l s t H. revert t. induction H as [|u r s H IH|x u r s C H IH|z u r s C H IH|d r s H IH]; intros w W.
  - inversion W. reflexivity.
  - inversion W as [|u' r' s' H'| | |]; subst. f_equal. apply IH. assumption.
  - inversion W as [| |x' u' r' s' C' H'| |]; subst. rewrite (c_text_unique x u u' C C'). f_equal. apply IH. assumption.
  - inversion W as [| | |z' u' r' s' C' H'|]; subst. rewrite (numeral_unique z u u' C C'). f_equal. apply IH. assumption.
  - inversion W as [| | | |d' r' s' H']; subst. f_equal. apply IH. assumption.
Qed.
Lemma says_app : forall a b s t, says e_text a s -> says e_text b t -> says e_text (a ++ b) (s ++ t).
Proof.
  intros a b s t H. induction H as [|u r s H IH|x u r s C H IH|z u r s C H IH|d r s H IH]; intro W; [exact W| | | |];
    change ((?p :: r) ++ b) with (p :: (r ++ b)); rewrite <- app_assoc; constructor; try assumption; apply IH, W.
Qed.

(** * Formatting *)
Notation printf := (printf D e_text).
Definition out (x : slot D) : str :=
  match x with
  | Words t => t | Percent => ["%"%char] | PutStr s => until_nul s
  | PutInt z | PutUInt z | PutSize z | PutULong z | PutULL z => show_int z | PutDbl d => e_text d
  end.
Lemma before_app : forall s t r, before s (before t r) = before (s ++ t) r.
Proof. intros s t [u| |]; cbn [before]; [rewrite app_assoc|..]; reflexivity. Qed.
Lemma before_nil : forall r, before [] r = r.
Proof. intros [u| |]; reflexivity. Qed.
Lemma printf_plain : forall c r args, c <> "%"%char -> printf (c :: r) args = before [c] (printf r args).
Proof.
  intros c r args H. cbn [ErrModel.printf]. destruct (Ascii.eqb c "%"%char) eqn:E; [apply Ascii.eqb_eq in E; contradiction|reflexivity].
Qed.
Lemma printf_words : forall t r args, ~ In "%"%char t -> printf (t ++ r) args = before t (printf r args).
Proof.
  induction t as [|c t IH]; intros r args H.
  - rewrite before_nil. reflexivity.
  - change ((c :: t) ++ r) with (c :: (t ++ r)). rewrite printf_plain, IH, before_app.
    + reflexivity.
    + intro Q. apply H. right. exact Q.
    + intro Q. apply H. left. exact Q.
Qed.
Lemma printf_slot : forall x r args, clean x ->
  printf (code_of x ++ r) (values_of x ++ args) = before (out x) (printf r args).
Proof.
  intros [t| |s|z|z|z|z|z|d] r args C; try reflexivity.
  apply printf_words. apply C.
Qed.
Lemma printf_slots : forall l args, Forall clean l ->
  printf (concat (map code_of l)) (concat (map values_of l) ++ args) = Txt (concat (map out l)).
Proof.
  induction l as [|x l IH]; intros args C; [reflexivity|].
  inversion C as [|x' l' Cx Cl]; subst. cbn [map concat]. rewrite <- app_assoc, printf_slot, IH by assumption. reflexivity.
Qed.
Lemma out_meant : forall l, says e_text (map meant l) (concat (map out l)).
Proof.
  induction l as [|x l IH]; [constructor|]. cbn [map concat].
  destruct x as [t| |s|z|z|z|z|z|d]; cbn [meant out]; constructor; try exact IH; try apply show_int_numeral; apply until_nul_c_text.
Qed.
Lemma code_no_nul : forall l : list (slot D), Forall clean l -> ~ In cNUL (concat (map code_of l)).
Proof.
  induction l as [|x l IH]; intros C H; [exact H|].
  inversion C as [|x' l' Cx Cl]; subst. cbn [map concat] in H. apply in_app_or in H. destruct H as [H|H]; [|exact (IH Cl H)].
  destruct x as [t| |s|z|z|z|z|z|d]; cbn [code_of] in H; [apply Cx, H|..]; revert H; cbn; intuition discriminate.
Qed.
Lemma show_int_no_nul : forall z, ~ In cNUL (show_int z).
Proof.
  intros z H. destruct (show_int_numeral z) as (ds & E & A & _). rewrite E in H.
  apply in_app_or in H. destruct H as [H|H].
  - destruct (z <? 0); [destruct H as [H|[]]; discriminate H|destruct H].
  - specialize (A _ H). unfold digit in A. cbn in A. lia.
Qed.
Lemma out_no_nul : forall l, Forall clean l -> ~ In cNUL (concat (map out l)).
Proof.
  induction l as [|x l IH]; intros C H; [exact H|].
  inversion C as [|x' l' Cx Cl]; subst. cbn [map concat] in H. apply in_app_or in H. destruct H as [H|H]; [|exact (IH Cl H)].
  destruct x as [t| |s|z|z|z|z|z|d]; cbn [out] in H;
    [apply Cx, H|destruct H as [H|[]]; discriminate H|exact (until_nul_no s H)|
     exact (show_int_no_nul z H)|exact (show_int_no_nul z H)|exact (show_int_no_nul z H)|exact (show_int_no_nul z H)|exact (show_int_no_nul z H)|exact (e_plain d H)].
Qed.

(** * Construction *)
Lemma error_short : forall msg t, ~ In cNUL t -> (length t < 1000)%nat -> error_message msg (Some t) = t.
Proof.
  intros msg t N L. unfold error_message, snprintf. destruct (Z.leb_spec 1000 (Z.of_nat (length t))); [lia|].
  rewrite firstn_all2 by lia. apply until_nul_same, N.
Qed.
Lemma error_long : forall msg t, ~ In cNUL t -> (1000 <= length t)%nat -> error_message msg (Some t) = removelast t.
Proof.
  intros msg t N L. unfold error_message, snprintf. destruct (Z.leb_spec 1000 (Z.of_nat (length t))); [|lia].
  rewrite Nat2Z.id. cbn [fst]. rewrite removelast_firstn_len, <- Nat.sub_1_r. apply until_nul_same.
  intro H1. apply N. rewrite <- (firstn_skipn (length t - 1) t). apply in_or_app. left. exact H1.
Qed.
Definition kept (t : str) : str := if Z.of_nat (length t) <? 1000 then t else removelast t.
Lemma construct_slots : forall l, Forall clean l -> Z.of_nat (length (concat (map out l))) < 2147483647 ->
  construct D e_text (concat (map code_of l)) (concat (map values_of l)) = Txt (kept (concat (map out l))).
Proof.
  intros l C L. unfold construct. rewrite until_nul_same by (apply code_no_nul, C).
  assert (P := printf_slots l [] C). rewrite app_nil_r in P. rewrite P.
  destruct (Z.ltb_spec 2147483647 (Z.of_nat (length (concat (map out l))))); [lia|].
  destruct (Z.eqb_spec (Z.of_nat (length (concat (map out l)))) 2147483647); [lia|].
  unfold kept. destruct (Z.ltb_spec (Z.of_nat (length (concat (map out l)))) 1000).
  - rewrite error_short; [reflexivity|apply out_no_nul, C|lia].
  - rewrite error_long; [reflexivity|apply out_no_nul, C|lia].
Qed.
Lemma construct_exact : forall l, Forall clean l -> Z.of_nat (length (concat (map out l))) = 2147483647 ->
  construct D e_text (concat (map code_of l)) (concat (map values_of l)) = Undefined.
Proof.
  intros l C L. unfold construct. rewrite until_nul_same by (apply code_no_nul, C).
  assert (P := printf_slots l [] C). rewrite app_nil_r in P. rewrite P, L. reflexivity.
Qed.
Lemma construct_huge : forall l, Forall clean l -> 2147483647 < Z.of_nat (length (concat (map out l))) ->
  construct D e_text (concat (map code_of l)) (concat (map values_of l)) = Txt (concat (map code_of l)).
Proof.
  intros l C L. unfold construct. rewrite until_nul_same by (apply code_no_nul, C).
  assert (P := printf_slots l [] C). rewrite app_nil_r in P. rewrite P.
  destruct (Z.ltb_spec 2147483647 (Z.of_nat (length (concat (map out l))))); [reflexivity|lia].
Qed.
Lemma softlib_values : forall msg args, args <> [] -> softlib_exception D e_text msg args = construct D e_text msg args.
Proof. intros msg [|a r] H; [contradiction|reflexivity]. Qed.

(** What is proved of each place that throws. *)
Definition comes_out (x : site D) : Prop :=
  exists t, says e_text (wording x) t /\
    ((length t < 1000)%nat -> thrown D e_text x = Txt t) /\
    (has_values (wording x) -> Z.of_nat (length t) < 2147483647 -> thrown D e_text x = Txt (kept t)) /\
    (~ has_values (wording x) -> thrown D e_text x = Txt t).

Lemma via_slots : forall (x : site D) l, map meant l = wording x -> Forall clean l ->
  has_values (wording x) ->
  thrown D e_text x = construct D e_text (concat (map code_of l)) (concat (map values_of l)) -> comes_out x.
Proof.
  intros x l M C V T. exists (concat (map out l)). split; [rewrite <- M; apply out_meant|].
  split; [|split].
  - intro L. rewrite T, construct_slots by (assumption || lia). unfold kept.
    destruct (Z.ltb_spec (Z.of_nat (length (concat (map out l)))) 1000); [reflexivity|lia].
  - intros _ L. rewrite T. apply construct_slots; assumption.
  - intro N. contradiction.
Qed.
Lemma via_words : forall (x : site D) ts, wording x = map Say ts -> thrown D e_text x = Txt (concat ts) -> comes_out x.
Proof.
  intros x ts W T. exists (concat ts).
  assert (S : says e_text (wording x) (concat ts)).
  { rewrite W. clear W T. induction ts as [|t r IH]; [constructor|]. cbn [map concat]. constructor. exact IH. }
  split; [exact S|]. split; [intros _; exact T|]. split; [|intros _; exact T].
  intros (p & Hp & N) _. exfalso. rewrite W in Hp. apply in_map_iff in Hp. destruct Hp as (t & E & _). exact (N t (eq_sym E)).
Qed.
End Texts.
