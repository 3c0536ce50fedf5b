(** C105: the texts of exceptions. *)
From Verif Require Import Base SettingsProofs SdtModel SFileModel NumText TimeModel ConfigModel ErrModel ErrSpec ErrProofs ErrSites.
From Coq Require Import ZArith Lia.
Local Open Scope Z_scope.

Lemma kept_slots : forall D (e_text : D -> str), (forall d, ~ In cNUL (e_text d)) ->
  forall l, Forall clean l ->
  kept_as (concat (map (out D e_text) l)) (concat (map code_of l))
    (construct D e_text (concat (map code_of l)) (concat (map values_of l))).
Proof.
  intros D e_text E l C. split; [|split; [|split]]; intro L.
  - rewrite construct_slots by (assumption || lia). unfold kept.
    destruct (Z.ltb_spec (Z.of_nat (length (concat (map (out D e_text) l)))) 1000); [reflexivity|lia].
  - rewrite construct_slots by (assumption || lia). unfold kept.
    destruct (Z.ltb_spec (Z.of_nat (length (concat (map (out D e_text) l)))) 1000); [lia|reflexivity].
  - apply construct_exact; assumption.
  - apply construct_huge; assumption.
Qed.

(** Every format made of words, [%%] and conversions that fit their values, in all three
    classes of exception. *)
Theorem C105_templates : forall D (e_text : D -> str), (forall d, ~ In cNUL (e_text d)) ->
  forall l, Forall clean l -> concat (map values_of l) <> [] ->
  exists t, says e_text (map meant l) t /\
    let fmt := concat (map code_of l) in
    let vals := concat (map values_of l) in
    kept_as t fmt (softlib_exception D e_text fmt vals) /\
    kept_as t fmt (sfile_exception D e_text fmt vals) /\
    kept_as t fmt (config_exception D e_text fmt vals).
Proof.
  intros D e_text E l C V. exists (concat (map (out D e_text) l)). split; [apply out_meant|]. cbv zeta.
  unfold sfile_exception, config_exception. rewrite softlib_values by exact V.
  assert (K := kept_slots D e_text E l C). split; [exact K|]. split; exact K.
Qed.
Print Assumptions C105_templates.

(** With a position in a configuration script in front. *)
Theorem C105_positions : forall D (e_text : D -> str), (forall d, ~ In cNUL (e_text d)) ->
  forall line pos file l, Forall clean l ->
  exists t, says e_text (position line pos file ++ map meant l) t /\
    kept_as t (str_of "%s:%zu:%zu: " ++ concat (map code_of l))
      (config_exception_at D e_text line pos file (concat (map code_of l)) (concat (map values_of l))).
Proof.
  intros D e_text E line pos file l C.
  set (p := [PutStr file; Words (str_of ":"); PutSize line; Words (str_of ":"); PutSize pos; Words (str_of ": ")] : list (slot D)).
  assert (C' : Forall clean (p ++ l)).
  { apply Forall_app. split; [|exact C]. unfold p.
    repeat (apply Forall_cons; [first [exact I|apply cleanb_ok; reflexivity]|]). apply Forall_nil. }
  exists (concat (map (out D e_text) (p ++ l))). split.
  - assert (S := out_meant D e_text (p ++ l)). rewrite map_app in S at 1. exact S.
  - assert (K := kept_slots D e_text E (p ++ l) C').
    rewrite !(map_app code_of), !(map_app values_of), !concat_app in K. exact K.
Qed.
Print Assumptions C105_positions.

(** Without values the text is kept character by character, [%] and all; [what] shows it up to
    the first NUL. *)
Theorem C105_verbatim : forall D (e_text : D -> str) msg,
  softlib_exception D e_text msg [] = Txt msg /\ sfile_exception D e_text msg [] = Txt msg /\
  config_exception D e_text msg [] = Txt msg /\ whats msg = msg /\ c_text msg (what msg).
Proof. intros D e_text msg. repeat split; try reflexivity; apply until_nul_c_text. Qed.
Print Assumptions C105_verbatim.

(** Every place of the library that throws: the message is the one meant. *)
Theorem C105_messages : forall D (e_text : D -> str), (forall d, ~ In cNUL (e_text d)) ->
  forall x : site D, sound x ->
  exists t, says e_text (wording x) t /\
    (Z.of_nat (length t) < 1000 -> thrown D e_text x = Txt t) /\
    (~ has_values (wording x) -> thrown D e_text x = Txt t) /\
    (has_values (wording x) -> 1000 <= Z.of_nat (length t) < 2147483647 -> thrown D e_text x = Txt (removelast t)).
Proof.
  intros D e_text E x S. destruct (all_sites D e_text E x S) as (t & A & B & C & F). exists t.
  split; [exact A|]. split; [intro L; apply B; lia|]. split; [exact F|].
  intros V L. rewrite (C V) by lia. unfold kept. destruct (Z.ltb_spec (Z.of_nat (length t)) 1000); [lia|reflexivity].
Qed.
Print Assumptions C105_messages.

(** A message says exactly one text. *)
Theorem C105_one_text : forall D (e_text : D -> str) l s t, says e_text l s -> says e_text l t -> s = t.
Proof. exact says_unique. Qed.
Print Assumptions C105_one_text.

(** Three messages convert a value of the wrong width, whatever the values. *)
Theorem C105_width_refuted : forall D (e_text : D -> str),
  (forall name i j, thrown D e_text (BadMatrix D name i j) = Undefined) /\
  (forall group a b nxi np, thrown D e_text (SoftGroup_f D group a b nxi np) = Undefined) /\
  (forall a b c nr nxi np, thrown D e_text (LukeSize_f D a b c nr nxi np) = Undefined).
Proof. intros D e_text. repeat split; intros; reflexivity. Qed.
Print Assumptions C105_width_refuted.

(** The matrix indices are unsigned but shown as signed numbers. *)
Theorem C105_matrix_refuted : forall D (e_text : D -> str) i, 2 ^ 31 <= i ->
  thrown D e_text (MatrixLinear D i) = Undefined /\ thrown D e_text (MatrixRow D i) = Undefined /\
  thrown D e_text (MatrixColumn D i) = Undefined.
Proof.
  intros D e_text i H.
  assert (Q : (i <? 2 ^ 31) = false) by (apply Z.ltb_ge; exact H).
  split; [|split]; cbn [thrown]; rewrite softlib_values by discriminate; unfold construct;
    rewrite until_nul_same by (vm_compute; intuition discriminate);
    unfold str_of; cbn [list_ascii_of_string app ErrModel.printf Ascii.eqb Bool.eqb negb convert];
    rewrite Q; reflexivity.
Qed.
Print Assumptions C105_matrix_refuted.

(** File names of magnetic fields are part of a format: [%s] and a second [%u] in them are
    undefined, [%%] is shown as one character. *)
Lemma printf_bad : forall D (e_text : D -> str) a b args, ~ In "%"%char a ->
  printf D e_text b args = Undefined -> printf D e_text (a ++ b) args = Undefined.
Proof. intros D e_text a b args H E. rewrite printf_words, E by exact H. reflexivity. Qed.
Lemma construct_undef : forall D (e_text : D -> str) msg args, ~ In cNUL msg ->
  printf D e_text msg args = Undefined -> construct D e_text msg args = Undefined.
Proof. intros D e_text msg args N E. unfold construct. rewrite until_nul_same, E by exact N. reflexivity. Qed.
Theorem C105_filename_refuted : forall D (e_text : D -> str) a b nr,
  ~ In "%"%char a -> ~ In "%"%char b -> ~ In cNUL a -> ~ In cNUL b ->
  forall conversion, conversion = str_of "%s" \/ conversion = str_of "%u" ->
  let file := a ++ conversion ++ b in
  thrown D e_text (VerLong_Br D file nr) = Undefined /\
  thrown D e_text (VerLong_Bphi D file nr) = Undefined /\
  thrown D e_text (VerLong_Bz D file nr) = Undefined.
Proof.
  intros D e_text a b nr PA PB NA NB conversion HC. cbv zeta.
  assert (G : forall lit rest, ~ In "%"%char lit -> ~ In cNUL lit -> ~ In cNUL rest ->
    construct D e_text ((a ++ conversion ++ b) ++ lit ++ str_of "%u" ++ rest) [AUInt nr] = Undefined).
  { intros lit rest PL NL NR. apply construct_undef.
    - intro H. repeat (apply in_app_or in H; destruct H as [H|H]); try contradiction.
      + destruct HC as [E|E]; rewrite E in H; revert H; vm_compute; intuition discriminate.
      + revert H; vm_compute; intuition discriminate.
    - rewrite <- !app_assoc. apply printf_bad; [exact PA|]. destruct HC as [E|E]; subst conversion; [reflexivity|].
      change (printf D e_text (str_of "%u" ++ ?x) [AUInt nr]) with (before (show_int nr) (printf D e_text x [])).
      rewrite printf_bad; [reflexivity|exact PB|]. apply printf_bad; [exact PL|]. reflexivity. }
  split; [|split].
  - exact (G (str_of ": Verification vector 'verBr' has more than nr (= ") (str_of ") elements.")
             ltac:(vm_compute; intuition discriminate) ltac:(vm_compute; intuition discriminate) ltac:(vm_compute; intuition discriminate)).
  - exact (G (str_of ": Verification vector 'verBphi' has more than nr (= ") (str_of ") elements.")
             ltac:(vm_compute; intuition discriminate) ltac:(vm_compute; intuition discriminate) ltac:(vm_compute; intuition discriminate)).
  - exact (G (str_of ": Verification vector 'verBz' has more than nr (= ") (str_of ") elements.")
             ltac:(vm_compute; intuition discriminate) ltac:(vm_compute; intuition discriminate) ltac:(vm_compute; intuition discriminate)).
Qed.
Print Assumptions C105_filename_refuted.

(** A message with a position is a format even without values: a text that ends in [%], or
    holds [%s], is undefined. *)
Theorem C105_position_format_refuted : forall D (e_text : D -> str) line pos file a b,
  ~ In "%"%char a -> ~ In cNUL a -> ~ In cNUL b ->
  config_exception_at D e_text line pos file (a ++ str_of "%") [] = Undefined /\
  config_exception_at D e_text line pos file (a ++ str_of "%s" ++ b) [] = Undefined.
Proof.
  intros D e_text line pos file a b PA NA NB.
  assert (G : forall tail, ~ In cNUL tail -> printf D e_text tail [] = Undefined ->
    config_exception_at D e_text line pos file (a ++ tail) [] = Undefined).
  { intros tail NT H. unfold config_exception_at. apply construct_undef.
    - intro Q. repeat (apply in_app_or in Q; destruct Q as [Q|Q]); try contradiction.
      revert Q; vm_compute; intuition discriminate.
    - change (printf D e_text (str_of "%s:%zu:%zu: " ++ ?x) [a_str file; AULong line; AULong pos])
        with (before (until_nul file) (before [":"%char] (before (show_int line) (before [":"%char] (before (show_int pos) (before [":"%char] (before [cSP] (printf D e_text x [])))))))).
      rewrite printf_bad by assumption. reflexivity. }
  split; apply G; try reflexivity.
  - vm_compute. intuition discriminate.
  - intro Q. apply in_app_or in Q. destruct Q as [Q|Q]; [revert Q; vm_compute; intuition discriminate|contradiction].
Qed.
Print Assumptions C105_position_format_refuted.

(** Without any radius the message about a radial index names the largest 32-bit number. *)
Theorem C105_radii_refuted : forall D (e_text : D -> str), (forall d, ~ In cNUL (e_text d)) ->
  forall i, 0 <= i < 2 ^ 32 -> exists t, thrown D e_text (RadiusSoft D i 0) = Txt t /\
  says e_text [Say (str_of "Invalid radial index selected for the SOFT distribution function: "); Number i;
               Say (str_of " > "); Number 4294967295; Say (str_of " (number of radial points).")] t.
Proof.
  intros D e_text E i Hi.
  set (l := [Words (str_of "Invalid radial index selected for the SOFT distribution function: "); PutUInt i;
             Words (str_of " > "); PutUInt 4294967295; Words (str_of " (number of radial points).")] : list (slot D)).
  exists (concat (map (out D e_text) l)). split; [|exact (out_meant D e_text l)].
  assert (C : Forall clean l).
  { unfold l. repeat (apply Forall_cons; [first [exact I|apply cleanb_ok; reflexivity]|]). apply Forall_nil. }
  assert (K := kept_slots D e_text E l C). destruct K as [K _].
  change (thrown D e_text (RadiusSoft D i 0)) with (construct D e_text (concat (map code_of l)) (concat (map values_of l))).
  apply K. unfold l. cbn [map concat out].
  rewrite !app_length. unfold show_int at 1. destruct (Z.ltb_spec i 0); [lia|].
  destruct (show_nat_spec i ltac:(lia)) as (_ & _ & _ & C10 & _).
  assert (LEN : (length (show_nat i) <= 11)%nat).
  { destruct (Z_lt_le_dec i 10) as [S|S].
    - assert (Q : i = 0 \/ i = 1 \/ i = 2 \/ i = 3 \/ i = 4 \/ i = 5 \/ i = 6 \/ i = 7 \/ i = 8 \/ i = 9) by lia.
      clear - Q. repeat (destruct Q as [Q|Q]; [subst i; vm_compute; lia|]). subst i. vm_compute. lia.
    - specialize (C10 S). destruct (le_lt_dec (length (show_nat i)) 11) as [L|L]; [exact L|exfalso].
      assert (M : 10 ^ 11 <= 10 ^ (Z.of_nat (length (show_nat i)) - 1)) by (apply Z.pow_le_mono_r; lia). lia. }
  change (length (str_of "Invalid radial index selected for the SOFT distribution function: ")) with 66%nat.
  change (length (str_of " > ")) with 3%nat. change (length (show_int 4294967295)) with 10%nat.
  change (length (str_of " (number of radial points).")) with 27%nat. cbn [length]. lia.
Qed.
Print Assumptions C105_radii_refuted.

(** Messages as a user sees them, and one that is sound but longer than the buffer. *)
Example C105_example :
  thrown Z show_int (NoSetting Z (str_of "rmax") (str_of "grid")) = Txt (str_of "No setting with name 'rmax' in block 'grid'.") /\
  thrown Z show_int (Unexpected Z 3 17 (str_of "a.cfg") TEquals TBlockStart) = Txt (str_of "a.cfg:3:17: Expected = but got {") /\
  thrown Z show_int (VerLong_Br Z (str_of "50%.mat") 4) = NotModelled /\
  thrown Z show_int (VerLong_Br Z (str_of "a.mat") 4) = Txt (str_of "a.mat: Verification vector 'verBr' has more than nr (= 4) elements.") /\
  sound (NoSetting Z (repeat "x"%char 1500) []) /\
  (forall d : Z, ~ In cNUL (show_int d)) /\
  softlib_exception Z show_int (str_of "100%% of %s, %d") [a_str (str_of "it"); AInt (-5)] = Txt (str_of "100% of it, -5").
Proof.
  repeat split; try reflexivity. apply show_int_no_nul.
Qed.
