From Verif Require Import Base ConfigModel LexSpec.

(** * Character tests *)
Lemma eqb_no : forall a b : ascii, a <> b -> Ascii.eqb a b = false.
Proof. intros a b H. apply Ascii.eqb_neq. exact H. Qed.

Lemma is_ws_true : forall c, ws_char c -> is_ws c = true.
Proof. intros c [H|[H|H]]; subst; reflexivity. Qed.

Lemma ws_not_hash : forall c, ws_char c -> Ascii.eqb c cHASH = false.
Proof. intros c [H|[H|H]]; subst; reflexivity. Qed.

Lemma is_ws_false : forall c, ~ ws_char c -> is_ws c = false.
Proof.
  intros c H. unfold is_ws. destruct (Ascii.eqb c cNL) eqn:E1.
  { exfalso. apply H. left. apply Ascii.eqb_eq. exact E1. }
  destruct (Ascii.eqb c cSP) eqn:E2.
  { exfalso. apply H. right; left. apply Ascii.eqb_eq. exact E2. }
  destruct (Ascii.eqb c cTAB) eqn:E3.
  { exfalso. apply H. right; right. apply Ascii.eqb_eq. exact E3. }
  reflexivity.
Qed.

(** * nextc *)
Lemma skip_comment_len : forall r c c' r', skip_comment c r = (c', r') ->
  (r = [] /\ c' = c /\ r' = [c]) \/ (r <> [] /\ length r' <= length r).
Proof.
  induction r as [|x r IH]; intros c c' r' H; simpl in H.
  - inversion H; subst. left. auto.
  - right. split; [discriminate|].
    destruct (Ascii.eqb x cNUL || Ascii.eqb x cNL).
    + inversion H; subst. simpl. lia.
    + apply IH in H. destruct H as [[H1 [H2 H3]]|[H1 H2]]; subst; simpl; lia.
Qed.

Lemma nextc_hash_only : forall f p, nextc_fuel f false p [cHASH] = NcFuel.
Proof. induction f as [|f IH]; intro p; [reflexivity|]. simpl. apply IH. Qed.

Lemma nextc_fuel_stable : forall f i p rest, length rest + 2 <= f ->
  nextc_fuel f i p rest = nextc_fuel (S f) i p rest.
Proof.
  induction f as [|f IH]; intros i p rest Hf; [lia|].
  destruct rest as [|c r]; [reflexivity|].
  cbn [nextc_fuel].
  destruct i; [reflexivity|].
  destruct (Ascii.eqb c cHASH) eqn:E.
  - destruct (skip_comment c r) as [c' r'] eqn:Es.
    destruct (Ascii.eqb c' cNUL); [reflexivity|].
    apply skip_comment_len in Es. destruct Es as [[H1 [H2 H3]]|[H1 H2]].
    + subst. apply Ascii.eqb_eq in E. subst.
      change (nextc_fuel f false p [cHASH] = nextc_fuel (S f) false p [cHASH]).
      rewrite !nextc_hash_only. reflexivity.
    + apply IH. simpl in Hf. lia.
  - destruct (is_ws c).
    + destruct p; [|reflexivity]. apply IH. simpl in Hf. lia.
    + reflexivity.
Qed.

Lemma nextc_enough : forall f i p rest, length rest + 2 <= f ->
  nextc_fuel f i p rest = nextc i p rest.
Proof.
  intros f i p rest Hf. unfold nextc.
  replace f with ((f - (length rest + 2)) + S (S (length rest))) by lia.
  generalize (f - (length rest + 2)). intro n.
  induction n as [|n IHn]; [reflexivity|].
  rewrite <- IHn. symmetry. change (S n + S (S (length rest))) with (S (n + S (S (length rest)))).
  apply nextc_fuel_stable. lia.
Qed.

Lemma nextc_nil : forall i p, nextc i p [] = NcEnd p.
Proof. reflexivity. Qed.

Lemma nextc_instring : forall p c r, nextc true p (c :: r) = NcChar c r p.
Proof. reflexivity. Qed.

Lemma nextc_cons : forall p c r, nextc false p (c :: r) =
  if Ascii.eqb c cHASH then
    let (c', r') := skip_comment c r in
    if Ascii.eqb c' cNUL then NcEnd p
    else nextc_fuel (S (S (length r))) false p r'
  else if is_ws c then
    if p then nextc false p r else NcChar cSP r true
  else NcChar c r false.
Proof. reflexivity. Qed.

Lemma nextc_ws_skip : forall c r, ws_char c -> nextc false true (c :: r) = nextc false true r.
Proof.
  intros c r H. rewrite nextc_cons, (ws_not_hash _ H), (is_ws_true _ H). reflexivity.
Qed.

Lemma nextc_ws_first : forall c r, ws_char c -> nextc false false (c :: r) = NcChar cSP r true.
Proof.
  intros c r H. rewrite nextc_cons, (ws_not_hash _ H), (is_ws_true _ H). reflexivity.
Qed.

Lemma nextc_plain : forall p c r, c <> cHASH -> ~ ws_char c -> nextc false p (c :: r) = NcChar c r false.
Proof.
  intros p c r H1 H2. rewrite nextc_cons, (eqb_no _ _ H1), (is_ws_false _ H2). reflexivity.
Qed.

Lemma skip_comment_nl : forall txt c r, ~ In cNL txt -> ~ In cNUL txt ->
  skip_comment c (txt ++ cNL :: r) = (cNL, cNL :: r).
Proof.
  induction txt as [|x txt IH]; intros c r H1 H2; simpl.
  - reflexivity.
  - rewrite eqb_no; [|intro; subst; apply H2; left; reflexivity].
    rewrite eqb_no; [|intro; subst; apply H1; left; reflexivity].
    simpl. apply IH; intro H; [apply H1|apply H2]; right; exact H.
Qed.

Lemma nextc_comment : forall p txt r, ~ In cNL txt -> ~ In cNUL txt ->
  nextc false p (cHASH :: txt ++ cNL :: r) = nextc false p (cNL :: r).
Proof.
  intros p txt r H1 H2. rewrite nextc_cons, Ascii.eqb_refl, skip_comment_nl by assumption.
  change (Ascii.eqb cNL cNUL) with false. cbv iota.
  apply nextc_enough. simpl. rewrite app_length. simpl. lia.
Qed.

(** The comment that runs into the end of the text. *)
Lemma skip_comment_eof : forall txt c, ~ In cNL txt -> ~ In cNUL txt ->
  skip_comment c txt = (last txt c, [last txt c]).
Proof.
  induction txt as [|x txt IH]; intros c H1 H2; simpl.
  - reflexivity.
  - rewrite eqb_no; [|intro; subst; apply H2; left; reflexivity].
    rewrite eqb_no; [|intro; subst; apply H1; left; reflexivity].
    simpl. rewrite IH; [|intro H; apply H1; right; exact H|intro H; apply H2; right; exact H].
    destruct txt as [|y txt]; [reflexivity|].
    assert (HL : forall a b, last (y :: txt) a = last (y :: txt) b).
    { clear. revert y. induction txt as [|z t IHt]; intros y a b; [reflexivity|].
      simpl. simpl in IHt. apply IHt. }
    rewrite (HL x c). reflexivity.
Qed.

Lemma last_in_or : forall (l : str) c, last l c = c \/ In (last l c) l.
Proof.
  induction l as [|x l IH]; intro c; simpl; [left; reflexivity|].
  destruct l as [|y l]; [right; left; reflexivity|].
  destruct (IH c) as [H|H]; [left; exact H|right; right; exact H].
Qed.

Lemma nextc_comment_eof : forall p txt, ~ In cNL txt -> ~ In cNUL txt ->
  nextc false p (cHASH :: txt) = nextc false p [last txt cHASH].
Proof.
  intros p txt H1 H2. rewrite nextc_cons, Ascii.eqb_refl, skip_comment_eof by assumption.
  assert (Hn : Ascii.eqb (last txt cHASH) cNUL = false).
  { apply eqb_no. destruct (last_in_or txt cHASH) as [H|H].
    - rewrite H. discriminate.
    - intro Hc. rewrite Hc in H. contradiction. }
  rewrite Hn. destruct txt as [|x txt].
  - change (last [] cHASH) with cHASH. unfold nextc. rewrite !nextc_hash_only. reflexivity.
  - apply nextc_enough. simpl. lia.
Qed.

(** * The lexer loop *)
Section Lex.
Variable types : list str.
Variable inc : str -> option lexres.

(** [L rest pw buf rt out]: from that state, outside strings and includes, the
    loop ends with a result satisfying [out] given at least one unit of fuel per character. *)
Definition L (is_ ii : bool) (rest : str) (pw : bool) (buf : str) (rt : list token) (out : lexres -> Prop) : Prop :=
  forall f, S (length rest) <= f -> out (lex_loop types inc f (mkLex rest is_ ii pw) buf rt).

Ltac start_step Hf f :=
  intros f Hf; destruct f as [|f]; [simpl in Hf; lia|];
  cbn [lex_loop linstring lininclude lprevws lrest].

Lemma L_end : forall is_ ii pw buf rt,
  L is_ ii [] pw buf rt (eq (LexOk (rev (eof_token :: pushbuffer types buf rt)) is_ ii pw)).
Proof. intros. start_step Hf f. reflexivity. Qed.

Lemma L_ws : forall c r pw buf rt out, ws_char c -> (pw = true -> buf = []) ->
  L false false r true [] (pushbuffer types buf rt) out ->
  L false false (c :: r) pw buf rt out.
Proof.
  intros c r pw buf rt out Hc Hinv H. start_step Hf f. destruct pw.
  - rewrite (Hinv eq_refl) in *. rewrite nextc_ws_skip by exact Hc.
    specialize (H (S f)). cbn [lex_loop linstring lininclude lprevws lrest pushbuffer] in H.
    apply H. simpl in Hf. lia.
  - rewrite nextc_ws_first by exact Hc. cbn. apply H. simpl in Hf. lia.
Qed.

Lemma L_comment : forall txt r pw buf rt out, ~ In cNL txt -> ~ In cNUL txt ->
  L false false (cNL :: r) pw buf rt out ->
  L false false (cHASH :: txt ++ cNL :: r) pw buf rt out.
Proof.
  intros txt r pw buf rt out H1 H2 H f Hf. specialize (H f). destruct f as [|f]; [simpl in Hf; lia|].
  cbn [lex_loop linstring lininclude lprevws lrest] in *.
  rewrite nextc_comment by assumption. apply H. simpl in *. rewrite app_length in Hf. simpl in Hf. lia.
Qed.

Lemma L_comment_eof : forall txt pw buf rt out, ~ In cNL txt -> ~ In cNUL txt ->
  L false false [last txt cHASH] pw buf rt out ->
  (txt <> [] \/ out LexDiverge) ->
  L false false (cHASH :: txt) pw buf rt out.
Proof.
  intros txt pw buf rt out H1 H2 H Hne f Hf. destruct f as [|f]; [simpl in Hf; lia|].
  specialize (H (S f)).
  cbn [lex_loop linstring lininclude lprevws lrest] in *.
  rewrite nextc_comment_eof by assumption.
  destruct Hne as [Hne|Hne].
  - apply H. destruct txt; [contradiction|]. simpl in *. lia.
  - destruct txt as [|x txt].
    + change (last [] cHASH) with cHASH. unfold nextc. rewrite nextc_hash_only. exact Hne.
    + apply H. simpl in *. lia.
Qed.

Lemma L_hang : forall pw buf rt, L false false [cHASH] pw buf rt (eq LexDiverge).
Proof. intros. start_step Hf f. unfold nextc. rewrite nextc_hash_only. reflexivity. Qed.

Lemma L_comma : forall r pw buf rt out,
  L false false r false [] (pushbuffer types buf rt) out ->
  L false false (","%char :: r) pw buf rt out.
Proof.
  intros r pw buf rt out H. start_step Hf f.
  rewrite nextc_plain; [|discriminate|intros [Hc|[Hc|Hc]]; discriminate].
  cbn. apply H. simpl in Hf. lia.
Qed.

Lemma punct_cases : forall c, punct_char c ->
  c = "="%char \/ c = "("%char \/ c = ")"%char \/ c = "{"%char \/ c = "}"%char \/ c = ";"%char.
Proof. intros c H. unfold punct_char in H. simpl in H. intuition. Qed.

Lemma L_punct : forall c r pw buf rt out, punct_char c ->
  L false false r false [] (pushbuffer types [c] (pushbuffer types buf rt)) out ->
  L false false (c :: r) pw buf rt out.
Proof.
  intros c r pw buf rt out Hp H. start_step Hf f.
  assert (Hf' : S (length r) <= f) by (simpl in Hf; lia).
  apply punct_cases in Hp.
  rewrite nextc_plain.
  - destruct Hp as [E|[E|[E|[E|[E|E]]]]]; rewrite E in *; cbn; apply H; exact Hf'.
  - destruct Hp as [E|[E|[E|[E|[E|E]]]]]; rewrite E; discriminate.
  - destruct Hp as [E|[E|[E|[E|[E|E]]]]]; rewrite E; intros [Hc|[Hc|Hc]]; discriminate.
Qed.

Lemma L_bare1 : forall c r pw buf rt out, bare_char c ->
  L false false r false (buf ++ [c]) rt out ->
  L false false (c :: r) pw buf rt out.
Proof.
  intros c r pw buf rt out Hb H.
  destruct Hb as (B1&B2&B3&B4&B5&B6&B7&B8&B9&B10&B11&B12&B13&B14&B15).
  start_step Hf f.
  rewrite nextc_plain; [|exact B6|intros [Hc|[Hc|Hc]]; contradiction].
  unfold is_punct. rewrite !eqb_no by assumption. cbn.
  apply H. simpl in Hf. lia.
Qed.

Lemma L_bare : forall s r pw buf rt out, (forall c, In c s -> bare_char c) -> s <> [] ->
  L false false r false (buf ++ s) rt out ->
  L false false (s ++ r) pw buf rt out.
Proof.
  induction s as [|c s IH]; intros r pw buf rt out Hs Hne H; [contradiction|].
  simpl. apply L_bare1; [apply Hs; left; reflexivity|].
  destruct s as [|c2 s].
  - exact H.
  - apply IH.
    + intros x Hx. apply Hs. right. exact Hx.
    + discriminate.
    + rewrite <- app_assoc. exact H.
Qed.

Lemma L_quote_body : forall s r pw buf rt out,
  (forall c, In c s -> c <> cNUL /\ c <> cQUOTE) ->
  L false false r pw [] (pushbuffer types (buf ++ s) rt) out ->
  L true false (s ++ cQUOTE :: r) pw buf rt out.
Proof.
  induction s as [|c s IH]; intros r pw buf rt out Hs H; simpl.
  - start_step Hf f. rewrite nextc_instring. cbn. rewrite app_nil_r in H. apply H. simpl in Hf. lia.
  - start_step Hf f. rewrite nextc_instring.
    destruct (Hs c (or_introl eq_refl)) as [N1 N2].
    rewrite !eqb_no by assumption. cbn. apply IH.
    + intros x Hx. apply Hs. right. exact Hx.
    + rewrite <- app_assoc. exact H.
    + simpl in Hf. lia.
Qed.

Lemma L_quote : forall s r pw buf rt out,
  (forall c, In c s -> c <> cNUL /\ c <> cQUOTE) ->
  L false false r false [] (pushbuffer types s (pushbuffer types buf rt)) out ->
  L false false (cQUOTE :: s ++ cQUOTE :: r) pw buf rt out.
Proof.
  intros s r pw buf rt out Hs H. start_step Hf f.
  rewrite nextc_plain; [|discriminate|intros [Hc|[Hc|Hc]]; discriminate].
  cbn. apply L_quote_body.
  - exact Hs.
  - exact H.
  - simpl in Hf. lia.
Qed.

Lemma L_incl_body : forall s r pw buf rt out fname,
  (forall c, In c s -> c <> cNUL /\ c <> ">"%char /\ c <> cHASH /\ ~ ws_char c) ->
  buf ++ s = fname ->
  match inc fname with
  | None => out LexThrow
  | Some LexThrow => out LexThrow
  | Some LexDiverge => out LexDiverge
  | Some (LexOk tk is_ ii pw') => L is_ ii r pw' [] (rev (removelast tk) ++ rt) out
  end ->
  L false true (s ++ ">"%char :: r) pw buf rt out.
Proof.
  induction s as [|c s IH]; intros r pw buf rt out fname Hs He H; simpl.
  - start_step Hf f. rewrite nextc_plain; [|discriminate|intros [Hc|[Hc|Hc]]; discriminate].
    cbn. rewrite app_nil_r in He. subst fname.
    destruct (inc buf) as [[tk is_ ii pw'| |]|].
    + apply H. simpl in Hf. lia.
    + exact H.
    + exact H.
    + exact H.
  - start_step Hf f. destruct (Hs c (or_introl eq_refl)) as [N1 [N2 [N3 N4]]].
    rewrite nextc_plain by assumption.
    rewrite !(eqb_no c cNUL), (eqb_no c ">"%char) by assumption. cbn.
    apply IH with (fname := fname).
    + intros x Hx. apply Hs. right. exact Hx.
    + rewrite <- app_assoc. exact He.
    + exact H.
    + simpl in Hf. lia.
Qed.

Lemma L_incl : forall s r pw buf rt out,
  (forall c, In c s -> c <> cNUL /\ c <> ">"%char /\ c <> cHASH /\ ~ ws_char c) ->
  match inc s with
  | None => out LexThrow
  | Some LexThrow => out LexThrow
  | Some LexDiverge => out LexDiverge
  | Some (LexOk tk is_ ii pw') =>
      L is_ ii r pw' [] (rev (removelast tk) ++ pushbuffer types buf rt) out
  end ->
  L false false ("<"%char :: s ++ ">"%char :: r) pw buf rt out.
Proof.
  intros s r pw buf rt out Hs H. start_step Hf f.
  rewrite nextc_plain; [|discriminate|intros [Hc|[Hc|Hc]]; discriminate].
  cbn. apply L_incl_body with (fname := s).
  - exact Hs.
  - reflexivity.
  - exact H.
  - simpl in Hf. lia.
Qed.

(** [Reach txt s s']: reading [txt] leads from state [s] to state [s'], both outside
    strings and includes. *)
Definition Reach (txt : str) (pw : bool) (buf : str) (rt : list token)
           (pw' : bool) (buf' : str) (rt' : list token) : Prop :=
  forall r out, L false false r pw' buf' rt' out -> L false false (txt ++ r) pw buf rt out.

Lemma Reach_nil : forall pw buf rt, Reach [] pw buf rt pw buf rt.
Proof. intros pw buf rt r out H. exact H. Qed.

Lemma Reach_app : forall t1 t2 a1 b1 c1 a2 b2 c2 a3 b3 c3,
  Reach t1 a1 b1 c1 a2 b2 c2 -> Reach t2 a2 b2 c2 a3 b3 c3 -> Reach (t1 ++ t2) a1 b1 c1 a3 b3 c3.
Proof.
  intros t1 t2 a1 b1 c1 a2 b2 c2 a3 b3 c3 H1 H2 r out H.
  rewrite <- app_assoc. apply H1, H2, H.
Qed.

Lemma Reach_gap : forall g pw buf rt, gap_ok g -> (pw = true -> buf = []) ->
  exists pw', Reach (gap_text g) pw buf rt pw' [] (pushbuffer types buf rt).
Proof.
  intros g pw buf rt Hg Hinv. destruct g as [c| |txt]; simpl in *.
  - exists true. intros r out H. apply L_ws; auto.
  - exists false. intros r out H. apply L_comma. apply H.
  - destruct Hg as [H1 H2]. exists true. intros r out H. simpl. rewrite <- app_assoc. simpl.
    apply L_comment; [exact H1|exact H2|]. apply L_ws; [left; reflexivity|exact Hinv|apply H].
Qed.

Lemma Reach_gaps : forall g pw buf rt, Forall gap_ok g -> (pw = true -> buf = []) ->
  exists pw' buf' rt', (pw' = true -> buf' = []) /\
     (g <> [] -> buf' = []) /\ (g = [] -> buf' = buf) /\
     pushbuffer types buf' rt' = pushbuffer types buf rt /\
     Reach (gaps_text g) pw buf rt pw' buf' rt'.
Proof.
  induction g as [|x g IH]; intros pw buf rt Hg Hinv.
  - exists pw, buf, rt. split; [exact Hinv|]. split; [contradiction|]. split; [reflexivity|].
    split; [reflexivity|]. apply Reach_nil.
  - apply Forall_cons_iff in Hg. destruct Hg as [Hx Hg].
    destruct (Reach_gap x pw buf rt Hx Hinv) as [pw1 H1].
    destruct (IH pw1 [] (pushbuffer types buf rt) Hg (fun _ => eq_refl))
      as (pw2 & buf2 & rt2 & I1 & I2 & I3 & I4 & I5).
    exists pw2, buf2, rt2. split; [exact I1|]. split.
    { intros _. destruct g as [|y g]; [apply I3; reflexivity|apply I2; discriminate]. }
    split; [discriminate|]. split; [exact I4|].
    unfold gaps_text. simpl. eapply Reach_app; [exact H1|exact I5].
Qed.
End Lex.

(** * Classification *)
Lemma is_block_type_In : forall types s, is_block_type types s = true <-> In s types.
Proof.
  induction types as [|t ts IH]; intro s; simpl.
  - split; [discriminate|contradiction].
  - rewrite orb_true_iff, IH, str_eqb_eq. split; intros [H|H]; auto.
Qed.

Lemma str_eqb_single : forall s c, str_eqb s [c] = match s with [x] => Ascii.eqb x c | _ => false end.
Proof.
  intros s c. destruct s as [|x [|y s]]; simpl.
  - reflexivity.
  - rewrite andb_true_r. reflexivity.
  - rewrite andb_false_r. reflexivity.
Qed.

Lemma gettkn_word_kind : forall types s prev, gettkn types s prev = mkTok (word_kind types prev s) s.
Proof.
  intros types s prev. unfold gettkn, word_kind.
  change (str_of "=") with ["="%char]. change (str_of "(") with ["("%char].
  change (str_of ")") with [")"%char]. change (str_of "{") with ["{"%char].
  change (str_of "}") with ["}"%char]. change (str_of ";") with [";"%char].
  rewrite !str_eqb_single.
  assert (HB1 : (if is_block_type types s then mkTok TBlockType s else mkTok TName s)
    = mkTok (if in_dec (list_eq_dec ascii_dec) s types then TBlockType else TName) s).
  { destruct (in_dec (list_eq_dec ascii_dec) s types) as [Hi|Hi].
    - apply is_block_type_In in Hi. rewrite Hi. reflexivity.
    - destruct (is_block_type types s) eqn:E; [|reflexivity].
      apply is_block_type_In in E. contradiction. }
  destruct s as [|x [|y s]]; simpl punct_kind.
  - destruct prev as [[]|]; try reflexivity; exact HB1.
  - destruct (Ascii.eqb x "="%char); [reflexivity|].
    destruct (Ascii.eqb x "("%char); [reflexivity|].
    destruct (Ascii.eqb x ")"%char); [reflexivity|].
    destruct (Ascii.eqb x "{"%char); [reflexivity|].
    destruct (Ascii.eqb x "}"%char); [reflexivity|].
    destruct (Ascii.eqb x ";"%char); [reflexivity|].
    destruct prev as [[]|]; try reflexivity; exact HB1.
  - destruct prev as [[]|]; try reflexivity; exact HB1.
Qed.

Lemma last_kind_rev : forall rt : list token,
  last_kind (rev rt) = match rt with [] => None | t :: _ => Some (ttyp t) end.
Proof. intro rt. unfold last_kind. rewrite rev_involutive. destruct rt; reflexivity. Qed.

Lemma pushbuffer_spec : forall types s rt,
  rev (pushbuffer types s rt) =
  rev rt ++ classify types (last_kind (rev rt)) (match s with [] => [] | _ => [s] end).
Proof.
  intros types s rt. destruct s as [|c s]; simpl.
  - rewrite app_nil_r. reflexivity.
  - rewrite gettkn_word_kind, last_kind_rev. reflexivity.
Qed.

Lemma removelast_snoc : forall (A : Type) (l : list A) x, removelast (l ++ [x]) = l.
Proof. intros A l x. apply removelast_last. Qed.

(** The pending buffer counts as a token already read. *)
Definition done types (buf : str) (rt : list token) := rev (pushbuffer types buf rt).


Definition include_of types fs d : str -> option lexres :=
  fun n => match fs n with None => None | Some c => Some (lex types fs d c) end.

Lemma lex_S : forall types fs d text, lex types fs (S d) text =
  lex_loop types (include_of types fs d) (S (length text)) (mkLex text false false false) [] [].
Proof. reflexivity. Qed.

Lemma Reach_layout : forall types fs l acc out, reads types fs l acc out ->
  exists d0, (no_includes l -> d0 = 0) /\ forall d, d0 <= d ->
  forall pb buf rt pw,
    layout_ok_from pb l -> (pw = true -> buf = []) -> (buf <> [] -> pb = true) ->
    done types buf rt = acc ->
    exists pw' buf' rt', (pw' = true -> buf' = []) /\ done types buf' rt' = out /\
      Reach types (include_of types fs d) (layout_text l) pw buf rt pw' buf' rt'.
Proof.
  intros types fs l acc out H.
  induction H as [acc | g e l acc out Hni Hr IH | g name l acc out fl ftail fout Hfs Hfl Hft Hr1 IH1 Hr2 IH2].
  - exists 0. split; [reflexivity|]. intros d _ pb buf rt pw Hok Hinv Hpb Hd.
    exists pw, buf, rt. split; [exact Hinv|]. split; [exact Hd|]. apply Reach_nil.
  - destruct IH as [d0 [Hd0 IH]]. exists d0. split.
    { intro Hn. apply Hd0. intros g' e' Hin. apply (Hn g' e'). right. exact Hin. }
    intros d Hd pb buf rt pw Hok Hinv Hpb Hdn.
    simpl in Hok. destruct Hok as [Hg [He [Hb Hok]]].
    destruct (Reach_gaps types (include_of types fs d) g pw buf rt Hg Hinv)
      as (pw1 & buf1 & rt1 & I1 & I2 & I3 & I4 & I5).
    assert (Hstep : exists pw2 buf2 rt2, (pw2 = true -> buf2 = []) /\
       (buf2 <> [] -> is_bare e = true) /\
       done types buf2 rt2 = acc ++ classify types (last_kind acc) (elem_word e) /\
       Reach types (include_of types fs d) (elem_text e) pw1 buf1 rt1 pw2 buf2 rt2).
    { destruct e as [c|s|s|n]; simpl in He, Hb; simpl elem_text.
      - exists false, [], (pushbuffer types [c] (pushbuffer types buf1 rt1)).
        split; [discriminate|]. split; [contradiction|]. split.
        + unfold done. rewrite <- Hdn.
          change (rev (pushbuffer types [c] (pushbuffer types buf1 rt1)) =
                done types buf rt ++ classify types (last_kind (done types buf rt)) [[c]]).
          rewrite pushbuffer_spec, I4. reflexivity.
        + intros r o HL. apply L_punct; [exact He|exact HL].
      - destruct He as [He1 He2].
        assert (buf1 = []) as Hb1.
        { destruct g as [|x g]; [|apply I2; discriminate].
          rewrite (I3 eq_refl). destruct buf as [|b buf]; [reflexivity|].
          exfalso. apply Hb; [apply Hpb; discriminate|reflexivity|reflexivity]. }
        subst buf1. exists false, s, rt1.
        split; [discriminate|]. split; [reflexivity|]. split.
        + unfold done. simpl in I4. rewrite pushbuffer_spec, I4.
          destruct s as [|x s]; [contradiction|].
          fold (done types buf rt). rewrite Hdn. reflexivity.
        + intros r o HL. apply L_bare; [exact He2|exact He1|exact HL].
      - exists false, [], (pushbuffer types s (pushbuffer types buf1 rt1)).
        split; [discriminate|]. split; [contradiction|]. split.
        + unfold done. cbn [pushbuffer]. rewrite pushbuffer_spec, I4.
          fold (done types buf rt). rewrite Hdn. destruct s; reflexivity.
        + intros r o HL. rewrite <- app_comm_cons, <- app_assoc. simpl. apply L_quote; [exact He|exact HL].
      - exfalso. apply (Hni n). reflexivity. }
    destruct Hstep as (pw2 & buf2 & rt2 & J1 & J2 & J3 & J4).
    destruct (IH d Hd (is_bare e) buf2 rt2 pw2 Hok J1 J2 J3) as (pw3 & buf3 & rt3 & K1 & K2 & K3).
    exists pw3, buf3, rt3. split; [exact K1|]. split; [exact K2|].
    simpl. eapply Reach_app; [|exact K3]. eapply Reach_app; [exact I5|exact J4].
  - destruct IH1 as [d1 [_ IH1]]. destruct IH2 as [d2 [_ IH2]].
    exists (S (max d1 d2)). split.
    { intro Hn. exfalso. apply (Hn g (EInclude name) (or_introl eq_refl) name). reflexivity. }
    intros d Hd pb buf rt pw Hok Hinv Hpb Hdn.
    simpl in Hok. destruct Hok as [Hg [He [Hb Hok]]].
    destruct (Reach_gaps types (include_of types fs d) g pw buf rt Hg Hinv)
      as (pw1 & buf1 & rt1 & I1 & I2 & I3 & I4 & I5).
    assert (Hlex : exists pwf, lex types fs d (layout_text fl ++ gaps_text ftail)
                   = LexOk (fout ++ [eof_token]) false false pwf).
    { destruct d as [|d]; [lia|]. rewrite lex_S.
      destruct (IH1 d ltac:(lia) false [] [] false Hfl ltac:(discriminate)
                    (fun Hc => match Hc eq_refl with end) eq_refl)
        as (pwa & bufa & rta & A1 & A2 & A3).
      destruct (Reach_gaps types (include_of types fs d) ftail pwa bufa rta Hft A1)
        as (pwb & bufb & rtb & B1 & B2 & B3 & B4 & B5).
      exists pwb.
      assert (HL := A3 _ _ (B5 _ _ (L_end types (include_of types fs d) false false pwb bufb rtb))).
      rewrite app_nil_r in HL. rewrite <- (HL _ (le_n _)).
      simpl. rewrite B4. fold (done types bufa rta). rewrite A2. reflexivity. }
    destruct Hlex as [pwf Hlex].
    destruct (IH2 d ltac:(lia) false [] (rev fout ++ pushbuffer types buf1 rt1) pwf Hok
                  (fun _ => eq_refl) (fun Hc => match Hc eq_refl with end))
      as (pw2 & buf2 & rt2 & J1 & J2 & J3).
    { unfold done. simpl. rewrite rev_app_distr, rev_involutive, I4.
      fold (done types buf rt). rewrite Hdn. reflexivity. }
    exists pw2, buf2, rt2. split; [exact J1|]. split; [exact J2|].
    simpl. eapply Reach_app; [|exact J3]. eapply Reach_app; [exact I5|].
    intros r o HL. rewrite <- app_comm_cons, <- app_assoc. simpl. apply L_incl; [exact He|].
    unfold include_of at 1. rewrite Hfs, Hlex, removelast_last. exact HL.
Qed.

(** A complete layout followed by gaps, then any text. *)
Lemma Reach_script : forall types fs l tail out, layout_ok l -> Forall gap_ok tail ->
  reads types fs l [] out ->
  exists d0, (no_includes l -> d0 = 0) /\ forall d, d0 <= d -> exists pw buf rt,
    (pw = true -> buf = []) /\ done types buf rt = out /\
    Reach types (include_of types fs d) (layout_text l ++ gaps_text tail) false [] [] pw buf rt.
Proof.
  intros types fs l tail out Hl Ht Hr.
  destruct (Reach_layout _ _ _ _ _ Hr) as [d0 [Hd0 H]]. exists d0. split; [exact Hd0|]. intros d Hd.
  destruct (H d Hd false [] [] false Hl ltac:(discriminate)
                    (fun Hc => match Hc eq_refl with end) eq_refl)
        as (pwa & bufa & rta & A1 & A2 & A3).
  destruct (Reach_gaps types (include_of types fs d) tail pwa bufa rta Ht A1)
        as (pwb & bufb & rtb & B1 & B2 & B3 & B4 & B5).
  exists pwb, bufb, rtb. split; [exact B1|]. split.
  - unfold done. rewrite B4. exact A2.
  - eapply Reach_app; [exact A3|exact B5].
Qed.

(** Reading a complete layout followed by gaps. *)
Lemma lex_reads : forall types fs l tail out, layout_ok l -> Forall gap_ok tail ->
  reads types fs l [] out ->
  exists d0, (no_includes l -> d0 = 0) /\ forall d, d0 <= d -> exists pw,
    lex types fs (S d) (layout_text l ++ gaps_text tail) = LexOk (out ++ [eof_token]) false false pw.
Proof.
  intros types fs l tail out Hl Ht Hr.
  destruct (Reach_script types fs l tail out Hl Ht Hr) as [d0 [Hd0 H]].
  exists d0. split; [exact Hd0|]. intros d Hd. destruct (H d Hd) as (pw & buf & rt & A1 & A2 & A3).
  exists pw. rewrite lex_S.
  assert (HL := A3 _ _ (L_end types (include_of types fs d) false false pw buf rt)).
  rewrite app_nil_r in HL. rewrite <- (HL _ (le_n _)).
  simpl. fold (done types buf rt). rewrite A2. reflexivity.
Qed.

(** Without includes the tokens are the classified words. *)
Lemma classify_app : forall types a b p, classify types p (a ++ b) =
  classify types p a ++ classify types (match rev (classify types p a) with
                                        | [] => p | t :: _ => Some (ttyp t) end) b.
Proof.
  intros types a. induction a as [|w a IH]; intros b p; [reflexivity|].
  simpl. f_equal. rewrite IH. f_equal.
  destruct (rev (classify types (Some (word_kind types p w)) a)) as [|t r] eqn:E; reflexivity.
Qed.

Lemma last_kind_app : forall a b, last_kind (a ++ b) =
  match rev b with [] => last_kind a | t :: _ => Some (ttyp t) end.
Proof. intros a b. unfold last_kind. rewrite rev_app_distr. destruct (rev b); reflexivity. Qed.

Lemma reads_words : forall types fs l acc, no_includes l ->
  reads types fs l acc (acc ++ classify types (last_kind acc) (layout_words l)).
Proof.
  intros types fs l. induction l as [|[g e] l IH]; intros acc Hn.
  - simpl. rewrite app_nil_r. constructor.
  - apply reads_word.
    + intros n. apply (Hn g e). left. reflexivity.
    + unfold layout_words. simpl. fold (layout_words l).
      rewrite classify_app, app_assoc.
      replace (match rev (classify types (last_kind acc) (elem_word e)) with
               | [] => last_kind acc | t :: _ => Some (ttyp t) end)
        with (last_kind (acc ++ classify types (last_kind acc) (elem_word e))).
      * apply IH. intros g' e' Hin. apply (Hn g' e'). right. exact Hin.
      * apply last_kind_app.
Qed.

Lemma lex_words : forall types fs l tail d, layout_ok l -> Forall gap_ok tail -> no_includes l ->
  exists pw, lex types fs (S d) (layout_text l ++ gaps_text tail) =
             LexOk (classify types None (layout_words l) ++ [eof_token]) false false pw.
Proof.
  intros types fs l tail d Hl Ht Hn.
  destruct (lex_reads types fs l tail _ Hl Ht (reads_words types fs l [] Hn)) as [d0 [Hd0 H]].
  apply H. rewrite (Hd0 Hn). lia.
Qed.

(** * Fuel *)
Lemma nextc_fuel_consumes : forall f i p rest c r p', nextc_fuel f i p rest = NcChar c r p' ->
  length r < length rest.
Proof.
  induction f as [|f IH]; intros i p rest c r p' H; [discriminate|].
  destruct rest as [|x rest]; [discriminate|].
  cbn [nextc_fuel] in H. destruct i.
  - inversion H; subst. simpl. lia.
  - destruct (Ascii.eqb x cHASH).
    + destruct (skip_comment x rest) as [c' r'] eqn:Es.
      destruct (Ascii.eqb c' cNUL); [discriminate|].
      apply IH in H. apply skip_comment_len in Es.
      destruct Es as [[E1 [E2 E3]]|[E1 E2]].
      * subst. simpl in *. lia.
      * simpl. lia.
    + destruct (is_ws x).
      * destruct p; [|inversion H; subst; simpl; lia]. apply IH in H. simpl. lia.
      * inversion H; subst. simpl. lia.
Qed.

Lemma nextc_consumes : forall i p rest c r p', nextc i p rest = NcChar c r p' ->
  length r < length rest.
Proof. intros i p rest c r p' H. eapply nextc_fuel_consumes. exact H. Qed.

Definition lex_body (types : list str) (inc : str -> option lexres)
  (rec : lexst -> str -> list token -> lexres) (st : lexst) (buffer : str) (rtkns : list token) : lexres :=
  match nextc (linstring st) (lprevws st) (lrest st) with
  | NcFuel => LexDiverge
  | NcEnd pw => lex_finish types st pw buffer rtkns
  | NcChar c rest pw =>
      if Ascii.eqb c cNUL then lex_finish types st pw buffer rtkns
      else if linstring st && negb (Ascii.eqb c cQUOTE) then
        rec (mkLex rest (linstring st) (lininclude st) pw) (buffer ++ [c]) rtkns
      else if lininclude st && negb (Ascii.eqb c ">"%char) then
        rec (mkLex rest (linstring st) (lininclude st) pw) (buffer ++ [c]) rtkns
      else if Ascii.eqb c cQUOTE then
        rec (mkLex rest (negb (linstring st)) (lininclude st) pw) [] (pushbuffer types buffer rtkns)
      else if Ascii.eqb c "<"%char then
        rec (mkLex rest (linstring st) true pw) [] (pushbuffer types buffer rtkns)
      else if Ascii.eqb c ">"%char then
        match inc buffer with
        | None => LexThrow
        | Some LexThrow => LexThrow
        | Some LexDiverge => LexDiverge
        | Some (LexOk tkns is' ii' pw') =>
            rec (mkLex rest is' ii' pw') [] (rev (removelast tkns) ++ rtkns)
        end
      else if is_punct c then
        rec (mkLex rest (linstring st) (lininclude st) pw)
                 [] (pushbuffer types [c] (pushbuffer types buffer rtkns))
      else if Ascii.eqb c ","%char || Ascii.eqb c cSP then
        rec (mkLex rest (linstring st) (lininclude st) pw) [] (pushbuffer types buffer rtkns)
      else
        rec (mkLex rest (linstring st) (lininclude st) pw) (buffer ++ [c]) rtkns
  end.

Lemma lex_loop_S : forall types inc f st buf rt,
  lex_loop types inc (S f) st buf rt = lex_body types inc (lex_loop types inc f) st buf rt.
Proof. reflexivity. Qed.

Lemma lex_loop_stable : forall types inc f st buf rt, S (length (lrest st)) <= f ->
  lex_loop types inc (S f) st buf rt = lex_loop types inc f st buf rt.
Proof.
  intros types inc f. induction f as [|f IH]; intros st buf rt Hf; [lia|].
  rewrite (lex_loop_S types inc (S f)), (lex_loop_S types inc f). unfold lex_body.
  destruct (nextc (linstring st) (lprevws st) (lrest st)) as [pw|c rest pw|] eqn:En; try reflexivity.
  apply nextc_consumes in En.
  assert (Hs : forall a b e bb rr, lex_loop types inc (S f) (mkLex rest a b e) bb rr =
                                   lex_loop types inc f (mkLex rest a b e) bb rr).
  { intros. apply IH. simpl. lia. }
  destruct (Ascii.eqb c cNUL); [reflexivity|].
  destruct (linstring st && negb (Ascii.eqb c cQUOTE)); [apply Hs|].
  destruct (lininclude st && negb (Ascii.eqb c ">"%char)); [apply Hs|].
  destruct (Ascii.eqb c cQUOTE); [apply Hs|].
  destruct (Ascii.eqb c "<"%char); [apply Hs|].
  destruct (Ascii.eqb c ">"%char).
  { destruct (inc buf) as [[tk a b e| |]|]; try reflexivity. apply Hs. }
  destruct (is_punct c); [apply Hs|].
  destruct (Ascii.eqb c ","%char || Ascii.eqb c cSP); apply Hs.
Qed.

Lemma lex_loop_enough : forall types inc f st buf rt, S (length (lrest st)) <= f ->
  lex_loop types inc f st buf rt = lex_loop types inc (S (length (lrest st))) st buf rt.
Proof.
  intros types inc f st buf rt Hf.
  replace f with ((f - S (length (lrest st))) + S (length (lrest st))) by lia.
  generalize (f - S (length (lrest st))). intro n. induction n as [|n IHn]; [reflexivity|].
  rewrite <- IHn. change (S n + S (length (lrest st))) with (S (n + S (length (lrest st)))).
  apply lex_loop_stable. lia.
Qed.

Lemma L_self : forall types inc is_ ii rest pw buf rt,
  L types inc is_ ii rest pw buf rt
    (eq (lex_loop types inc (S (length rest)) (mkLex rest is_ ii pw) buf rt)).
Proof.
  intros types inc is_ ii rest pw buf rt f Hf. symmetry.
  apply (lex_loop_enough types inc f (mkLex rest is_ ii pw) buf rt). exact Hf.
Qed.

(** * Comments that run into the end of the text *)
Lemma lex_comment_eof : forall types fs l g txt d, layout_ok l -> Forall gap_ok g -> no_includes l ->
  ~ In cNL txt -> ~ In cNUL txt -> txt <> [] ->
  lex types fs (S d) (layout_text l ++ gaps_text g ++ cHASH :: txt) =
  lex types fs (S d) (layout_text l ++ gaps_text g ++ [last txt cHASH]).
Proof.
  intros types fs l g txt d Hl Hg Hn H1 H2 H3.
  destruct (Reach_script types fs l g _ Hl Hg (reads_words types fs l [] Hn)) as [d0 [Hd0 H]].
  destruct (H d ltac:(rewrite (Hd0 Hn); lia)) as (pw & buf & rt & A1 & A2 & A3).
  rewrite !lex_S, !app_assoc.
  set (pre := layout_text l ++ gaps_text g) in *.
  set (inc := include_of types fs d) in *.
  assert (HS := L_self types inc false false [last txt cHASH] pw buf rt).
  assert (HA := A3 _ _ HS).
  assert (HB := A3 _ _ (L_comment_eof types inc txt pw buf rt _ H1 H2 HS (or_introl H3))).
  rewrite <- (HA _ (le_n _)), <- (HB _ (le_n _)). reflexivity.
Qed.

Lemma lex_comment_hang : forall types fs l g txt d, layout_ok l -> Forall gap_ok g -> no_includes l ->
  ~ In cNL txt -> ~ In cNUL txt -> last txt cHASH = cHASH ->
  lex types fs (S d) (layout_text l ++ gaps_text g ++ cHASH :: txt) = LexDiverge.
Proof.
  intros types fs l g txt d Hl Hg Hn H1 H2 H3.
  destruct (Reach_script types fs l g _ Hl Hg (reads_words types fs l [] Hn)) as [d0 [Hd0 H]].
  destruct (H d ltac:(rewrite (Hd0 Hn); lia)) as (pw & buf & rt & A1 & A2 & A3).
  rewrite lex_S, app_assoc.
  assert (HS := L_hang types (include_of types fs d) pw buf rt). rewrite <- H3 in HS.
  assert (HB := A3 _ _ (L_comment_eof types (include_of types fs d) txt pw buf rt _ H1 H2 HS (or_intror eq_refl))).
  symmetry. exact (HB _ (le_n _)).
Qed.

(** No number of iterations of the character loop is enough for a comment that
    ends the text with a '#'. *)
Lemma nextc_comment_hang : forall f p txt, ~ In cNL txt -> ~ In cNUL txt -> last txt cHASH = cHASH ->
  nextc_fuel f false p (cHASH :: txt) = NcFuel.
Proof.
  intros f p txt H1 H2 H3. destruct f as [|f]; [reflexivity|].
  cbn [nextc_fuel]. rewrite Ascii.eqb_refl, skip_comment_eof by assumption.
  rewrite H3. change (Ascii.eqb cHASH cNUL) with false. cbv iota. apply nextc_hash_only.
Qed.

(** * Totality *)
Lemma skip_comment_suffix : forall r c c' r', skip_comment c r = (c', r') -> exists p, c :: r = p ++ r'.
Proof.
  induction r as [|x r IH]; intros c c' r' H; simpl in H.
  - inversion H; subst. exists []. reflexivity.
  - destruct (Ascii.eqb x cNUL || Ascii.eqb x cNL).
    + inversion H; subst. exists [c]. reflexivity.
    + apply IH in H. destruct H as [p H]. exists (c :: p). simpl. rewrite H. reflexivity.
Qed.

Lemma nextc_diverges_hash : forall f i p rest, length rest + 2 <= f ->
  nextc_fuel f i p rest = NcFuel -> exists q, rest = q ++ [cHASH].
Proof.
  induction f as [|f IH]; intros i p rest Hf H; [lia|].
  destruct rest as [|c r]; [discriminate|]. cbn [nextc_fuel] in H.
  destruct i; [discriminate|].
  destruct (Ascii.eqb c cHASH) eqn:E.
  - destruct (skip_comment c r) as [c' r'] eqn:Es.
    destruct (Ascii.eqb c' cNUL); [discriminate|].
    assert (Hs := skip_comment_suffix _ _ _ _ Es). destruct Hs as [q Hq].
    apply skip_comment_len in Es. destruct Es as [[E1 [E2 E3]]|[E1 E2]].
    + subst. apply Ascii.eqb_eq in E. subst. exists []. reflexivity.
    + destruct (IH false p r') as [q2 Hq2]; [simpl in Hf; lia|exact H|].
      exists (q ++ q2). rewrite Hq, Hq2, app_assoc. reflexivity.
  - destruct (is_ws c); [|discriminate]. destruct p; [|discriminate].
    destruct (IH false true r) as [q Hq]; [simpl in Hf; lia|exact H|].
    exists (c :: q). rewrite Hq. reflexivity.
Qed.

Lemma nextc_rest_suffix : forall f i p rest c r p', nextc_fuel f i p rest = NcChar c r p' ->
  exists q, rest = q ++ r.
Proof.
  induction f as [|f IH]; intros i p rest c r p' H; [discriminate|].
  destruct rest as [|x rest]; [discriminate|].
  cbn [nextc_fuel] in H. destruct i.
  - inversion H; subst. exists [c]. reflexivity.
  - destruct (Ascii.eqb x cHASH).
    + destruct (skip_comment x rest) as [c' r'] eqn:Es.
      destruct (Ascii.eqb c' cNUL); [discriminate|].
      apply IH in H. apply skip_comment_suffix in Es. destruct H as [q1 H1]. destruct Es as [q2 H2].
      exists (q2 ++ q1). rewrite H2, H1, app_assoc. reflexivity.
    + destruct (is_ws x).
      * destruct p.
        -- apply IH in H. destruct H as [q Hq]. exists (x :: q). rewrite Hq. reflexivity.
        -- inversion H; subst. exists [x]. reflexivity.
      * inversion H; subst. exists [c]. reflexivity.
Qed.

Lemma lex_loop_diverges : forall types inc f st buf rt, S (length (lrest st)) <= f ->
  lex_loop types inc f st buf rt = LexDiverge ->
  (exists q, lrest st = q ++ [cHASH]) \/ (exists n, inc n = Some LexDiverge).
Proof.
  intros types inc f. induction f as [|f IH]; intros st buf rt Hf H; [lia|].
  rewrite lex_loop_S in H. unfold lex_body in H.
  destruct (nextc (linstring st) (lprevws st) (lrest st)) as [pw|c rest pw|] eqn:En.
  - discriminate.
  - assert (Hc := nextc_consumes _ _ _ _ _ _ En).
    apply nextc_rest_suffix in En. destruct En as [q Hq].
    assert (Hs : forall a b e bb rr, lex_loop types inc f (mkLex rest a b e) bb rr = LexDiverge ->
       (exists q, lrest st = q ++ [cHASH]) \/ (exists n, inc n = Some LexDiverge)).
    { intros a b e bb rr HH. apply IH in HH; [|simpl; lia].
      destruct HH as [[q2 Hq2]|HH]; [|right; exact HH].
      left. simpl in Hq2. exists (q ++ q2). rewrite Hq, Hq2, app_assoc. reflexivity. }
    destruct (Ascii.eqb c cNUL); [discriminate|].
    destruct (linstring st && negb (Ascii.eqb c cQUOTE)); [eapply Hs; exact H|].
    destruct (lininclude st && negb (Ascii.eqb c ">"%char)); [eapply Hs; exact H|].
    destruct (Ascii.eqb c cQUOTE); [eapply Hs; exact H|].
    destruct (Ascii.eqb c "<"%char); [eapply Hs; exact H|].
    destruct (Ascii.eqb c ">"%char).
    { destruct (inc buf) as [[tk a b e| |]|] eqn:Ei; try discriminate.
      - eapply Hs; exact H.
      - right. exists buf. exact Ei. }
    destruct (is_punct c); [eapply Hs; exact H|].
    destruct (Ascii.eqb c ","%char || Ascii.eqb c cSP); eapply Hs; exact H.
  - left. unfold nextc in En. apply nextc_diverges_hash in En; [|lia].
    exact En.
Qed.

Lemma lex_diverges : forall types fs d text, lex types fs (S d) text = LexDiverge ->
  (exists q, text = q ++ [cHASH]) \/
  (exists name content, fs name = Some content /\ lex types fs d content = LexDiverge).
Proof.
  intros types fs d text H. rewrite lex_S in H. apply lex_loop_diverges in H; [|simpl; lia].
  destruct H as [H|[n H]]; [left; exact H|right].
  unfold include_of in H. destruct (fs n) as [c|] eqn:E; [|discriminate].
  exists n, c. split; [exact E|]. inversion H. reflexivity.
Qed.

(** NUL ends the text. *)
Lemma skip_comment_nul : forall a c, exists c' a', forall b,
  skip_comment c (a ++ cNUL :: b) = (c', a' ++ cNUL :: b).
Proof.
  induction a as [|x a IH]; intro c; simpl.
  - exists cNUL, []. reflexivity.
  - destruct (Ascii.eqb x cNUL || Ascii.eqb x cNL).
    + exists x, (x :: a). reflexivity.
    + apply IH.
Qed.

Lemma nextc_fuel_nul : forall f i p a,
  (exists c a' p', forall b, nextc_fuel f i p (a ++ cNUL :: b) = NcChar c (a' ++ cNUL :: b) p') \/
  (exists p', forall b, nextc_fuel f i p (a ++ cNUL :: b) = NcChar cNUL b p') \/
  (exists p', forall b, nextc_fuel f i p (a ++ cNUL :: b) = NcEnd p') \/
  (forall b, nextc_fuel f i p (a ++ cNUL :: b) = NcFuel).
Proof.
  induction f as [|f IH]; intros i p a; [right; right; right; reflexivity|].
  destruct a as [|x a].
  - right; left. destruct i; [exists p|exists false]; intro b; reflexivity.
  - cbn [nextc_fuel app]. destruct i.
    + left. exists x, a, p. reflexivity.
    + destruct (Ascii.eqb x cHASH).
      * destruct (skip_comment_nul a x) as [c' [a' Hs]].
        destruct (Ascii.eqb c' cNUL) eqn:En.
        -- right; right; left. exists p. intro b. rewrite Hs, En. reflexivity.
        -- destruct (IH false p a') as [[c2 [a2 [p2 H]]]|[[p2 H]|[[p2 H]|H]]].
           ++ left. exists c2, a2, p2. intro b. rewrite Hs, En. apply H.
           ++ right; left. exists p2. intro b. rewrite Hs, En. apply H.
           ++ right; right; left. exists p2. intro b. rewrite Hs, En. apply H.
           ++ right; right; right. intro b. rewrite Hs, En. apply H.
      * destruct (is_ws x).
        -- destruct p; [apply IH|]. left. exists cSP, a, true. reflexivity.
        -- left. exists x, a, false. reflexivity.
Qed.

Lemma nextc_nul : forall i p a b1 b2,
  (exists c a' p', nextc i p (a ++ cNUL :: b1) = NcChar c (a' ++ cNUL :: b1) p' /\
                   nextc i p (a ++ cNUL :: b2) = NcChar c (a' ++ cNUL :: b2) p') \/
  (exists p', nextc i p (a ++ cNUL :: b1) = NcChar cNUL b1 p' /\
              nextc i p (a ++ cNUL :: b2) = NcChar cNUL b2 p') \/
  (nextc i p (a ++ cNUL :: b1) = nextc i p (a ++ cNUL :: b2) /\
   (nextc i p (a ++ cNUL :: b1) = NcFuel \/ exists p', nextc i p (a ++ cNUL :: b1) = NcEnd p')).
Proof.
  intros i p a b1 b2.
  set (f := length (a ++ cNUL :: b1) + length (a ++ cNUL :: b2) + 2).
  rewrite <- (nextc_enough f i p (a ++ cNUL :: b1)) by (unfold f; lia).
  rewrite <- (nextc_enough f i p (a ++ cNUL :: b2)) by (unfold f; lia).
  destruct (nextc_fuel_nul f i p a) as [[c2 [a2 [p2 H]]]|[[p2 H]|[[p2 H]|H]]].
  - left. exists c2, a2, p2. auto.
  - right; left. exists p2. auto.
  - right; right. rewrite !H. split; [reflexivity|right; exists p2; reflexivity].
  - right; right. rewrite !H. split; [reflexivity|left; reflexivity].
Qed.

Lemma lex_loop_nul : forall types inc f a b1 b2 is_ ii pw buf rt,
  lex_loop types inc f (mkLex (a ++ cNUL :: b1) is_ ii pw) buf rt =
  lex_loop types inc f (mkLex (a ++ cNUL :: b2) is_ ii pw) buf rt.
Proof.
  intros types inc f. induction f as [|f IH]; intros a b1 b2 is_ ii pw buf rt; [reflexivity|].
  rewrite !lex_loop_S. unfold lex_body. cbn [linstring lininclude lprevws lrest].
  destruct (nextc_nul is_ pw a b1 b2) as [(c & a' & p' & H1 & H2)|[(p' & H1 & H2)|[H1 H2]]].
  - rewrite H1, H2.
    destruct (Ascii.eqb c cNUL); [reflexivity|].
    destruct (is_ && negb (Ascii.eqb c cQUOTE)); [apply IH|].
    destruct (ii && negb (Ascii.eqb c ">"%char)); [apply IH|].
    destruct (Ascii.eqb c cQUOTE); [apply IH|].
    destruct (Ascii.eqb c "<"%char); [apply IH|].
    destruct (Ascii.eqb c ">"%char).
    { destruct (inc buf) as [[tk x y e| |]|]; try reflexivity. apply IH. }
    destruct (is_punct c); [apply IH|].
    destruct (Ascii.eqb c ","%char || Ascii.eqb c cSP); apply IH.
  - rewrite H1, H2. reflexivity.
  - rewrite <- H1. destruct H2 as [H2|[p' H2]]; rewrite H2; reflexivity.
Qed.

Lemma lex_nul : forall types fs d a b1 b2,
  lex types fs d (a ++ cNUL :: b1) = lex types fs d (a ++ cNUL :: b2).
Proof.
  intros types fs d a b1 b2. destruct d as [|d]; [reflexivity|].
  rewrite !lex_S.
  set (f := S (length (a ++ cNUL :: b1)) + S (length (a ++ cNUL :: b2))).
  rewrite <- (lex_loop_enough types (include_of types fs d) f (mkLex (a ++ cNUL :: b1) false false false))
    by (unfold f; simpl; lia).
  rewrite <- (lex_loop_enough types (include_of types fs d) f (mkLex (a ++ cNUL :: b2) false false false))
    by (unfold f; simpl; lia).
  apply lex_loop_nul.
Qed.
