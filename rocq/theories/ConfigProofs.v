(** Compositions of the lexer, interpreter and block lemmas used by ConfigProps. *)
From Verif Require Import Base ConfigModel LexSpec LexProofs InterpSpec InterpProofs RoundTripProofs BlockSpec BlockProofs.

Lemma include_missing : forall types fs l g name rest out d0, layout_ok l -> Forall gap_ok g ->
  reads types fs l [] out ->
  (forall c, In c name -> c <> cNUL /\ c <> ">"%char /\ c <> cHASH /\ ~ ws_char c) ->
  fs name = None ->
  exists d, d0 <= d /\
  lex types fs (S d) (layout_text l ++ gaps_text g ++ "<"%char :: name ++ ">"%char :: rest) = LexThrow.
Proof.
  intros types fs l g name rest out d0 Hl Hg Hr Hn Hf.
  destruct (Reach_script types fs l g _ Hl Hg Hr) as [d1 [Hd1 H]].
  exists (d0 + d1). split; [lia|].
  destruct (H (d0 + d1) ltac:(lia)) as (pw & buf & rt & A1 & A2 & A3).
  rewrite lex_S, app_assoc.
  assert (HI := L_incl types (include_of types fs (d0 + d1)) name rest pw buf rt (eq LexThrow) Hn).
  unfold include_of in HI at 1. rewrite Hf in HI. specialize (HI eq_refl).
  symmetry. exact (A3 _ _ HI _ (le_n _)).
Qed.

Lemma interpret_meaning : forall types ts v, no_eof ts -> ts <> [] ->
  (forall r, interpret types (ts ++ [mkTok TEOF v]) = IOk r false ->
     exists items, Derives ts items /\ erase r = meaning types items) /\
  (forall items, Derives ts items -> exists r, interpret types (ts ++ [mkTok TEOF v]) = IOk r false /\
     erase r = meaning types items).
Proof.
  intros types ts v Hn Hne. split.
  - intros r H. apply interpret_iff in H; [|assumption|assumption]. destruct H as [items [D E]].
    exists items. split; [exact D|]. subst r. rewrite erase_capplys. reflexivity.
  - intros items D. exists (capplys types items root_block). split.
    + apply interpret_iff; [assumption|assumption|]. exists items. auto.
    + rewrite erase_capplys. reflexivity.
Qed.

Lemma classify_no_eof : forall types ws p, no_eof (classify types p ws).
Proof.
  intros types ws. induction ws as [|w r IH]; intros p t Ht; [contradiction|].
  cbn [classify] in Ht. destruct Ht as [Ht|Ht]; [|apply (IH _ _ Ht)].
  subst t. cbn [ttyp]. unfold word_kind. destruct (punct_kind w) as [k|] eqn:E.
  - unfold punct_kind in E. destruct w as [|c [|c2 r2]]; try discriminate.
    repeat match type of E with (if ?b then _ else _) = _ => destruct b; [inversion E; discriminate|] end. discriminate.
  - destruct p as [[]|]; try discriminate; destruct (in_dec _ _ _); discriminate.
Qed.

(** FromString on any layout without includes. *)
Lemma from_string_meaning : forall types fs d l tail, layout_ok l -> Forall gap_ok tail -> no_includes l ->
  layout_words l <> [] ->
  (forall r, from_string types fs (S d) (layout_text l ++ gaps_text tail) = FOk r false ->
     exists items, Derives (classify types None (layout_words l)) items /\ erase r = meaning types items) /\
  (forall items, Derives (classify types None (layout_words l)) items ->
     exists r, from_string types fs (S d) (layout_text l ++ gaps_text tail) = FOk r false /\ erase r = meaning types items).
Proof.
  intros types fs d l tail Hl Ht Hn Hne. unfold from_string.
  destruct (lex_words types fs l tail d Hl Ht Hn) as [pw E]. rewrite E.
  set (ts := classify types None (layout_words l)).
  assert (Hne' : ts <> []) by (unfold ts; destruct (layout_words l); [contradiction|discriminate]).
  destruct (interpret_meaning types ts (str_of "<EOF>") (classify_no_eof _ _ _) Hne') as [A B].
  change [eof_token] with [mkTok TEOF (str_of "<EOF>")]. split.
  - intros r H. apply A. destruct (interpret types _); inversion H. reflexivity.
  - intros items D. destruct (B items D) as [r [E1 E2]]. exists r. rewrite E1. auto.
Qed.

Lemma recovery_in_stream : forall types body t v, no_eof (body ++ [t]) ->
  ttyp t = TEndStatement \/ ttyp t = TBlockStart \/ ttyp t = TBlockEnd ->
  interpret types (body ++ [t; mkTok TEOF v]) <> IUB.
Proof.
  intros types body t v Hn Ht. unfold interpret. apply interp_no_ub.
  - change [t; mkTok TEOF v] with ([t] ++ [mkTok TEOF v]). rewrite app_assoc. apply good_of_lex; assumption.
  - exists root_block. reflexivity.
Qed.

(** Include cycles: nothing is ever read. *)
Lemma include_self_diverges : forall types fs name d rest,
  (forall c, In c name -> c <> cNUL /\ c <> ">"%char /\ c <> cHASH /\ ~ ws_char c) ->
  fs name = Some ("<"%char :: name ++ ">"%char :: rest) ->
  lex types fs d ("<"%char :: name ++ ">"%char :: rest) = LexDiverge.
Proof.
  intros types fs name d rest Hn Hf. induction d as [|d IH]; [reflexivity|].
  rewrite lex_S.
  assert (HI := L_incl types (include_of types fs d) name rest false [] [] (eq LexDiverge) Hn).
  unfold include_of in HI at 1. rewrite Hf, IH in HI. specialize (HI eq_refl). symmetry. exact (HI _ (le_n _)).
Qed.

(** Histories of registrations. *)
Lemma registry_history : forall names,
  let types := reg_all initial_types names in
  NoDup types /\ types = first_occ str_dec (str_of "/root" :: names) /\
  (forall n, In n types <-> n = str_of "/root" \/ In n names) /\
  (forall n, In n types -> register_block_type types n = Throw) /\
  (forall n, ~ In n types -> register_block_type types n = Ok (types ++ [n], length types) /\
     forall later, string_to_block_type (reg_all (types ++ [n]) later) n = length types) /\
  (forall n, ~ In n types -> string_to_block_type types n = 0) /\
  (forall later n, In n types ->
     string_to_block_type (reg_all types later) n = string_to_block_type types n).
Proof.
  intros names types. assert (E : types = first_occ str_dec (str_of "/root" :: names)) by apply reg_all_occ.
  split; [rewrite E; apply first_occ_NoDup|]. split; [exact E|]. split.
  { intro n. rewrite E, first_occ_In. simpl. split; intros [H|H]; auto. }
  split. { intros n Hn. destruct (register_cases types n) as [[_ R]|[R _]]; [exact R|contradiction]. }
  split.
  { intros n Hn. destruct (register_cases types n) as [[R _]|[_ R]]; [contradiction|]. split; [exact R|].
    intro later. destruct (reg_all_prefix later (types ++ [n])) as [more Em]. rewrite Em. unfold string_to_block_type.
    rewrite stbt_app; [|apply in_or_app; right; left; reflexivity]. rewrite stbt_new; [reflexivity|exact Hn]. }
  split. { intros n Hn. apply stbt_notin. exact Hn. }
  intros later n Hn. destruct (reg_all_prefix later types) as [more Em]. rewrite Em. apply stbt_app. exact Hn.
Qed.

Lemma registered_twice : forall names n, In n names ->
  register_block_type (reg_all initial_types names) n = Throw.
Proof.
  intros names n H. destruct (registry_history names) as (_ & _ & A & B & _). apply B. apply A. right. exact H.
Qed.

Lemma untouched_report : forall ty bn sec ops n,
  (exists x, In x (get_untouched (cb_sets (run_block ty bn sec ops))) /\ sname x = n) <->
  (exists pre v post, ops = pre ++ OpSet n v :: post /\ not_set n pre /\ not_set n post /\ not_got n post).
Proof.
  intros ty bn sec ops n. rewrite <- run_untouched. unfold get_untouched. split.
  - intros [x [H E]]. apply filter_In in H. destruct H as [H1 H2]. exists x.
    split; [exact H1|]. split; [exact E|]. apply negb_true_iff. exact H2.
  - intros [x [H [E T]]]. exists x. split; [|exact E]. apply filter_In. split; [exact H|]. rewrite T. reflexivity.
Qed.
