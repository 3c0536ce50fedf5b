From Verif Require Import Base ConfigModel LexSpec LexProofs InterpSpec InterpProofs ConfigProofs PosModel PosSpec.

(** * Forgetting positions: the lexer *)
Definition epc (r : pcres) : ncres :=
  match r with
  | PcEnd pw _ _ => NcEnd pw
  | PcChar c rest pw _ _ => NcChar c rest pw
  | PcFuel => NcFuel
  end.

Lemma pnextc_fuel_erase : forall f i p rest line col,
  epc (pnextc_fuel f i p rest line col) = nextc_fuel f i p rest.
Proof.
  induction f as [|f IH]; intros i p rest line col; [reflexivity|].
  cbn [pnextc_fuel nextc_fuel]. destruct rest as [|c r]; [reflexivity|].
  destruct i; [reflexivity|]. destruct (Ascii.eqb c cHASH).
  - destruct (skip_comment c r) as [c' r']. destruct (Ascii.eqb c' cNUL); [reflexivity|apply IH].
  - destruct (is_ws c); [|reflexivity].
    destruct (Ascii.eqb c cNL); destruct p; try reflexivity; apply IH.
Qed.

Lemma pnextc_erase : forall i p rest line col, epc (pnextc i p rest line col) = nextc i p rest.
Proof. intros. apply pnextc_fuel_erase. Qed.

Definition elex (r : plexres) : lexres :=
  match r with
  | PLexOk ts a b c => LexOk (erase_toks ts) a b c
  | PLexThrow _ _ _ _ => LexThrow
  | PLexDiverge => LexDiverge
  end.

Lemma ppush_erase : forall types src l c buf rt,
  erase_toks (ppush types src l c buf rt) = pushbuffer types buf (erase_toks rt).
Proof.
  intros types src l c buf rt. destruct buf as [|x buf]; [reflexivity|].
  unfold ppush, pushbuffer, erase_toks. cbn [map pt]. destruct rt; reflexivity.
Qed.

Lemma erase_removelast : forall l, erase_toks (removelast l) = removelast (erase_toks l).
Proof.
  induction l as [|x l IH]; [reflexivity|]. destruct l as [|y l]; [reflexivity|].
  change (removelast (x :: y :: l)) with (x :: removelast (y :: l)).
  cbn [erase_toks map] in *. fold (erase_toks (removelast (y :: l))). rewrite IH. reflexivity.
Qed.

Definition elst (st : plexst) : lexst := mkLex (prest st) (pinstring st) (pininclude st) (pprevws st).

Lemma plex_loop_erase : forall types src infile pinc inc f st buf rt,
  (forall n, option_map elex (pinc n) = inc n) ->
  elex (plex_loop types src infile pinc f st buf rt) = lex_loop types inc f (elst st) buf (erase_toks rt).
Proof.
  intros types src infile pinc inc f. induction f as [|f IH]; intros st buf rt Hi; [reflexivity|].
  cbn [plex_loop lex_loop]. destruct st as [rest is_ ii pw line col].
  cbn [elst prest pinstring pininclude pprevws pln pcl linstring lininclude lprevws lrest].
  rewrite <- (pnextc_erase is_ pw rest line col).
  destruct (pnextc is_ pw rest line col) as [pw1 l1 c1|c rest1 pw1 l1 c1|]; cbn [epc].
  - unfold plex_finish, lex_finish. cbn [elex]. unfold erase_toks at 1. rewrite map_rev.
    cbn [map pt]. fold (erase_toks (ppush types src l1 c1 buf rt)). rewrite ppush_erase. reflexivity.
  - destruct (Ascii.eqb c cNUL).
    { unfold plex_finish, lex_finish. cbn [elex]. unfold erase_toks at 1. rewrite map_rev.
      cbn [map pt]. fold (erase_toks (ppush types src l1 c1 buf rt)). rewrite ppush_erase. reflexivity. }
    destruct (is_ && negb (Ascii.eqb c cQUOTE)); [rewrite IH by exact Hi; reflexivity|].
    destruct (ii && negb (Ascii.eqb c ">"%char)); [rewrite IH by exact Hi; reflexivity|].
    destruct (Ascii.eqb c cQUOTE); [rewrite IH by exact Hi; rewrite ppush_erase; reflexivity|].
    destruct (Ascii.eqb c "<"%char); [rewrite IH by exact Hi; rewrite ppush_erase; reflexivity|].
    destruct (Ascii.eqb c ">"%char).
    { rewrite <- (Hi buf). destruct (pinc buf) as [[tk a b c0|l' c' i' n'|]|]; cbn [option_map elex]; try reflexivity.
      rewrite IH by exact Hi. unfold erase_toks at 1. rewrite map_app, map_rev.
      fold (erase_toks (removelast tk)). rewrite erase_removelast. reflexivity. }
    destruct (is_punct c); [rewrite IH by exact Hi; rewrite !ppush_erase; reflexivity|].
    destruct (Ascii.eqb c ","%char || Ascii.eqb c cSP);
      [rewrite IH by exact Hi; rewrite ppush_erase; reflexivity|].
    rewrite IH by exact Hi. reflexivity.
  - reflexivity.
Qed.

Lemma plex_erase : forall types fs src d infile text,
  elex (plex types fs src d infile text) = lex types fs d text.
Proof.
  intros types fs src d. induction d as [|d IH]; intros infile text; [reflexivity|].
  cbn [plex lex]. rewrite (plex_loop_erase types src infile _
    (fun name => match fs name with None => None | Some c => Some (lex types fs d c) end)).
  - reflexivity.
  - intro n. destruct (fs n) as [c|]; [|reflexivity]. cbn [option_map]. rewrite IH. reflexivity.
Qed.

(** * The source name of tokens *)
Definition from_src (src : str) (ts : list ptok) : Prop := Forall (fun t => psrc t = src) ts.

Lemma ppush_src : forall types src l c buf rt, from_src src rt -> from_src src (ppush types src l c buf rt).
Proof. intros types src l c buf rt H. destruct buf; [exact H|]. constructor; [reflexivity|exact H]. Qed.

Lemma from_src_rev : forall src l, from_src src l -> from_src src (rev l).
Proof. intros src l H. unfold from_src in *. rewrite Forall_forall in *. intros x Hx. apply H, in_rev, Hx. Qed.

Lemma from_src_removelast : forall src l, from_src src l -> from_src src (removelast l).
Proof.
  intros src l H. unfold from_src in *. rewrite Forall_forall in *. intros x Hx. apply H.
  clear H. induction l as [|a l IH]; [exact Hx|]. destruct l as [|b l]; [destruct Hx|].
  destruct Hx as [Hx|Hx]; [left; exact Hx|right; apply IH; exact Hx].
Qed.

Lemma plex_loop_src : forall types src infile pinc f st buf rt ts a b c,
  (forall n ts a b c, pinc n = Some (PLexOk ts a b c) -> from_src src ts) ->
  from_src src rt ->
  plex_loop types src infile pinc f st buf rt = PLexOk ts a b c -> from_src src ts.
Proof.
  intros types src infile pinc f. induction f as [|f IH]; intros st buf rt ts a b c0 Hi Hrt H; [discriminate|].
  cbn [plex_loop] in H. destruct st as [rest is_ ii pw line col].
  cbn [prest pinstring pininclude pprevws pln pcl] in H.
  assert (Hfin : forall pw1 l1 c1, plex_finish types src (mkPL rest is_ ii pw line col) pw1 l1 c1 buf rt = PLexOk ts a b c0 ->
                 from_src src ts).
  { intros pw1 l1 c1 Hf. unfold plex_finish in Hf. injection Hf as E1 _ _ _. rewrite <- E1.
    rewrite <- (app_nil_r (_ ++ _)), app_nil_r.
    change (rev (ppush types src l1 c1 buf rt) ++ [mkP eof_token l1 c1 src])
      with (rev (mkP eof_token l1 c1 src :: ppush types src l1 c1 buf rt)).
    apply from_src_rev. constructor; [reflexivity|]. apply ppush_src, Hrt. }
  destruct (pnextc is_ pw rest line col) as [pw1 l1 c1|c rest1 pw1 l1 c1|]; [eapply Hfin; exact H| |discriminate].
  destruct (Ascii.eqb c cNUL); [eapply Hfin; exact H|].
  destruct (is_ && negb (Ascii.eqb c cQUOTE)); [eapply IH; [exact Hi| |exact H]; exact Hrt|].
  destruct (ii && negb (Ascii.eqb c ">"%char)); [eapply IH; [exact Hi| |exact H]; exact Hrt|].
  destruct (Ascii.eqb c cQUOTE); [eapply IH; [exact Hi| |exact H]; apply ppush_src; exact Hrt|].
  destruct (Ascii.eqb c "<"%char); [eapply IH; [exact Hi| |exact H]; apply ppush_src; exact Hrt|].
  destruct (Ascii.eqb c ">"%char).
  { destruct (pinc buf) as [[tk x y z|l' c' i' n'|]|] eqn:E; try discriminate.
    eapply IH; [exact Hi| |exact H]. apply Forall_app. split; [|exact Hrt].
    apply from_src_rev, from_src_removelast. eapply Hi. exact E. }
  destruct (is_punct c); [eapply IH; [exact Hi| |exact H]; do 2 apply ppush_src; exact Hrt|].
  destruct (Ascii.eqb c ","%char || Ascii.eqb c cSP);
    [eapply IH; [exact Hi| |exact H]; apply ppush_src; exact Hrt|].
  eapply IH; [exact Hi| |exact H]; exact Hrt.
Qed.

Lemma plex_src : forall types fs src d infile text ts a b c,
  plex types fs src d infile text = PLexOk ts a b c -> from_src src ts.
Proof.
  intros types fs src d. induction d as [|d IH]; intros infile text ts a b c H; [discriminate|].
  cbn [plex] in H. eapply plex_loop_src; [| |exact H].
  - intros n ts' a' b' c' E. cbv beta in E. destruct (fs n) as [t|]; [|discriminate E]. injection E as E. eapply IH. exact E.
  - constructor.
Qed.

(** * Counting lines and columns *)
Definition step_pos (p : nat * nat) (c : ascii) : nat * nat :=
  if Ascii.eqb c cNL then (S (fst p), 1) else (fst p, S (snd p)).
Definition pos_after (t : str) : nat * nat := (line_after t, col_after t).

Lemma pos_after_snoc : forall t c, pos_after (t ++ [c]) = step_pos (pos_after t) c.
Proof.
  intros t c. unfold pos_after, step_pos, line_after, col_after. cbn [fst snd].
  rewrite count_occ_app, rev_app_distr. cbn [rev app count_occ upto_nl].
  destruct (ascii_dec c cNL) as [E|E].
  - rewrite E, Ascii.eqb_refl. cbn [length]. f_equal; lia.
  - rewrite (eqb_no _ _ E). cbn [length]. f_equal; lia.
Qed.

(** * The lexer loop with positions *)
Section PLex.
Variable types : list str.
Variables src infile : str.
Variable inc : str -> option plexres.

(** The analogue of [LexProofs.L]; the position is that after the text [pre]. *)
Definition PL (is_ ii : bool) (rest pre : str) (pw : bool) (buf : str) (rt : list ptok)
           (out : plexres -> Prop) : Prop :=
  forall f, S (length rest) <= f ->
    out (plex_loop types src infile inc f (mkPL rest is_ ii pw (line_after pre) (col_after pre)) buf rt).

Definition pp (pre buf : str) (rt : list ptok) : list ptok :=
  ppush types src (line_after pre) (col_after pre) buf rt.

Ltac start_step Hf f :=
  intros f Hf; destruct f as [|f]; [simpl in Hf; lia|];
  cbn [plex_loop pinstring pininclude pprevws prest pln pcl].

Lemma pos_snoc_other : forall pre c, c <> cNL ->
  line_after (pre ++ [c]) = line_after pre /\ col_after (pre ++ [c]) = S (col_after pre).
Proof.
  intros pre c H. assert (E := pos_after_snoc pre c). unfold pos_after, step_pos in E.
  rewrite (eqb_no _ _ H) in E. split; [exact (f_equal fst E)|exact (f_equal snd E)].
Qed.
Lemma pos_snoc_nl : forall pre,
  line_after (pre ++ [cNL]) = S (line_after pre) /\ col_after (pre ++ [cNL]) = 1.
Proof.
  intros pre. assert (E := pos_after_snoc pre cNL). unfold pos_after, step_pos in E.
  rewrite Ascii.eqb_refl in E. split; [exact (f_equal fst E)|exact (f_equal snd E)].
Qed.

Lemma pnextc_fuel_stable : forall f i p rest l c, length rest + 2 <= f ->
  pnextc_fuel f i p rest l c = pnextc i p rest l c.
Proof.
  assert (G : forall f1 f2 i p rest l c, f1 <= f2 -> nextc_fuel f1 i p rest <> NcFuel ->
             pnextc_fuel f2 i p rest l c = pnextc_fuel f1 i p rest l c).
  { induction f1 as [|f1 IH]; intros f2 i p rest l c Hle Hn; [exfalso; apply Hn; reflexivity|].
    destruct f2 as [|f2]; [lia|]. cbn [pnextc_fuel nextc_fuel] in *.
    destruct rest as [|x r]; [reflexivity|]. destruct i; [reflexivity|].
    destruct (Ascii.eqb x cHASH).
    - destruct (skip_comment x r) as [x' r']. destruct (Ascii.eqb x' cNUL); [reflexivity|].
      apply IH; [lia|exact Hn].
    - destruct (is_ws x); [|reflexivity].
      destruct (Ascii.eqb x cNL); destruct p; try reflexivity; apply IH; try lia; exact Hn. }
  intros f i p rest l c Hf. destruct (nextc i p rest) eqn:En.
  1,2: apply G; [lia|]; fold (nextc i p rest); rewrite En; discriminate.
  assert (H1 : epc (pnextc i p rest l c) = NcFuel) by (rewrite pnextc_erase; exact En).
  assert (H2 : epc (pnextc_fuel f i p rest l c) = NcFuel)
    by (rewrite pnextc_fuel_erase, nextc_enough by exact Hf; exact En).
  destruct (pnextc i p rest l c); try discriminate.
  destruct (pnextc_fuel f i p rest l c); try discriminate. reflexivity.
Qed.

Lemma pnextc_plain : forall p c r l k, c <> cHASH -> ~ ws_char c ->
  pnextc false p (c :: r) l k = PcChar c r false l (S k).
Proof.
  intros p c r l k H1 H2. unfold pnextc. cbn [pnextc_fuel length].
  rewrite (eqb_no _ _ H1), (is_ws_false _ H2). reflexivity.
Qed.

Lemma pnextc_instring : forall p c r l k, pnextc true p (c :: r) l k = PcChar c r p l (S k).
Proof. reflexivity. Qed.

Lemma pnextc_ws_first : forall c r pre, ws_char c ->
  pnextc false false (c :: r) (line_after pre) (col_after pre) =
  PcChar cSP r true (line_after (pre ++ [c])) (col_after (pre ++ [c])).
Proof.
  intros c r pre H. unfold pnextc. cbn [pnextc_fuel length].
  rewrite (ws_not_hash _ H), (is_ws_true _ H).
  destruct (Ascii.eqb c cNL) eqn:E.
  - apply Ascii.eqb_eq in E. rewrite E. destruct (pos_snoc_nl pre) as [-> ->]. reflexivity.
  - destruct (pos_snoc_other pre c) as [-> ->]; [|reflexivity].
    intro Hc. rewrite Hc, Ascii.eqb_refl in E. discriminate.
Qed.

(** Skipping white space needs one unit of fuel less. *)
Lemma pnextc_ws_skip : forall c r pre, ws_char c ->
  pnextc false true (c :: r) (line_after pre) (col_after pre) =
  pnextc false true r (line_after (pre ++ [c])) (col_after (pre ++ [c])).
Proof.
  intros c r pre H. unfold pnextc at 1. cbn [pnextc_fuel length].
  rewrite (ws_not_hash _ H), (is_ws_true _ H).
  destruct (Ascii.eqb c cNL) eqn:E.
  - apply Ascii.eqb_eq in E. rewrite E. destruct (pos_snoc_nl pre) as [-> ->].
    reflexivity.
  - destruct (pos_snoc_other pre c) as [-> ->].
    + intro Hc. rewrite Hc, Ascii.eqb_refl in E. discriminate.
    + reflexivity.
Qed.

Lemma pnextc_fuel_hash : forall f p r l k, pnextc_fuel (S f) false p (cHASH :: r) l k =
  let (c', r') := skip_comment cHASH r in
  if Ascii.eqb c' cNUL then PcEnd p l (S k) else pnextc_fuel f false p r' l (S k).
Proof. reflexivity. Qed.

Lemma pnextc_comment : forall p txt r pre, ~ In cNL txt -> ~ In cNUL txt ->
  exists k, pnextc false p (cHASH :: txt ++ cNL :: r) (line_after pre) (col_after pre) =
            pnextc false p (cNL :: r) (line_after pre) k.
Proof.
  intros p txt r pre H1 H2. exists (S (col_after pre)). unfold pnextc at 1.
  rewrite pnextc_fuel_hash, skip_comment_nl by assumption.
  change (Ascii.eqb cNL cNUL) with false. cbv iota.
  apply pnextc_fuel_stable. cbn [length]. rewrite app_length. cbn [length]. lia.
Qed.

(** A newline forgets the column. *)
Lemma pnextc_nl_col : forall p r l k k', pnextc false p (cNL :: r) l k = pnextc false p (cNL :: r) l k'.
Proof. intros. reflexivity. Qed.

Lemma PL_end : forall is_ ii pre pw buf rt,
  PL is_ ii [] pre pw buf rt
     (eq (PLexOk (rev (mkP eof_token (line_after pre) (col_after pre) src :: pp pre buf rt)) is_ ii pw)).
Proof. intros. start_step Hf f. reflexivity. Qed.

Lemma PL_ws : forall c r pre pw buf rt out, ws_char c -> (pw = true -> buf = []) ->
  PL false false r (pre ++ [c]) true [] (pp (pre ++ [c]) buf rt) out ->
  PL false false (c :: r) pre pw buf rt out.
Proof.
  intros c r pre pw buf rt out Hc Hinv H. start_step Hf f. destruct pw.
  - rewrite (Hinv eq_refl) in *. rewrite pnextc_ws_skip by exact Hc.
    specialize (H (S f)). cbn [plex_loop pinstring pininclude pprevws prest pln pcl pp ppush] in H.
    apply H. simpl in Hf. lia.
  - rewrite pnextc_ws_first by exact Hc. cbn. apply H. simpl in Hf. lia.
Qed.

Lemma line_comment : forall pre txt, ~ In cNL txt ->
  line_after (pre ++ cHASH :: txt) = line_after pre.
Proof.
  intros pre txt H. unfold line_after. rewrite count_occ_app.
  assert (E : count_occ ascii_dec (cHASH :: txt) cNL = 0).
  { apply count_occ_not_In. intros [Hc|Hc]; [discriminate|contradiction]. }
  rewrite E. lia.
Qed.

Lemma PL_comment : forall txt r pre pw buf rt out, ~ In cNL txt -> ~ In cNUL txt -> (pw = true -> buf = []) ->
  PL false false r (pre ++ cHASH :: txt ++ [cNL]) true [] (pp (pre ++ cHASH :: txt ++ [cNL]) buf rt) out ->
  PL false false (cHASH :: txt ++ cNL :: r) pre pw buf rt out.
Proof.
  intros txt r pre pw buf rt out H1 H2 Hinv H f Hf.
  assert (HW := PL_ws cNL r (pre ++ cHASH :: txt) pw buf rt out (or_introl eq_refl) Hinv).
  rewrite <- app_assoc in HW. specialize (HW H f).
  destruct f as [|f]; [simpl in Hf; lia|].
  cbn [plex_loop pinstring pininclude pprevws prest pln pcl] in *.
  destruct (pnextc_comment pw txt r pre H1 H2) as [k E]. rewrite E.
  rewrite line_comment in HW by exact H1.
  rewrite (pnextc_nl_col pw r (line_after pre) k (col_after (pre ++ cHASH :: txt))).
  apply HW. simpl in *. rewrite app_length in Hf. simpl in Hf. lia.
Qed.

Lemma PL_comma : forall r pre pw buf rt out,
  PL false false r (pre ++ [","%char]) false [] (pp (pre ++ [","%char]) buf rt) out ->
  PL false false (","%char :: r) pre pw buf rt out.
Proof.
  intros r pre pw buf rt out H. start_step Hf f.
  rewrite pnextc_plain; [|discriminate|intros [Hc|[Hc|Hc]]; discriminate].
  unfold PL, pp in H. destruct (pos_snoc_other pre ","%char) as [E1 E2]; [discriminate|].
  rewrite E1, E2 in H. cbn. apply H. simpl in Hf. lia.
Qed.

Lemma PL_punct : forall c r pre pw buf rt out, punct_char c ->
  PL false false r (pre ++ [c]) false [] (pp (pre ++ [c]) [c] (pp (pre ++ [c]) buf rt)) out ->
  PL false false (c :: r) pre pw buf rt out.
Proof.
  intros c r pre pw buf rt out Hp H. start_step Hf f.
  assert (Hf' : S (length r) <= f) by (simpl in Hf; lia).
  apply punct_cases in Hp.
  assert (Hnl : c <> cNL) by (destruct Hp as [E|[E|[E|[E|[E|E]]]]]; rewrite E; discriminate).
  unfold PL, pp in H. destruct (pos_snoc_other pre c Hnl) as [E1 E2]. rewrite E1, E2 in H.
  rewrite pnextc_plain.
  - destruct Hp as [E|[E|[E|[E|[E|E]]]]]; rewrite E in *; cbn; apply H; exact Hf'.
  - destruct Hp as [E|[E|[E|[E|[E|E]]]]]; rewrite E; discriminate.
  - destruct Hp as [E|[E|[E|[E|[E|E]]]]]; rewrite E; intros [Hc|[Hc|Hc]]; discriminate.
Qed.

Lemma PL_bare1 : forall c r pre pw buf rt out, bare_char c ->
  PL false false r (pre ++ [c]) false (buf ++ [c]) rt out ->
  PL false false (c :: r) pre pw buf rt out.
Proof.
  intros c r pre pw buf rt out Hb H.
  destruct Hb as (B1&B2&B3&B4&B5&B6&B7&B8&B9&B10&B11&B12&B13&B14&B15).
  start_step Hf f.
  rewrite pnextc_plain; [|exact B6|intros [Hc|[Hc|Hc]]; contradiction].
  unfold PL in H. destruct (pos_snoc_other pre c B7) as [E1 E2]. rewrite E1, E2 in H.
  unfold is_punct. rewrite !eqb_no by assumption. cbn.
  apply H. simpl in Hf. lia.
Qed.

Lemma PL_bare : forall s r pre pw buf rt out, (forall c, In c s -> bare_char c) -> s <> [] ->
  PL false false r (pre ++ s) false (buf ++ s) rt out ->
  PL false false (s ++ r) pre pw buf rt out.
Proof.
  induction s as [|c s IH]; intros r pre pw buf rt out Hs Hne H; [contradiction|].
  simpl. apply PL_bare1; [apply Hs; left; reflexivity|].
  destruct s as [|c2 s].
  - exact H.
  - apply IH.
    + intros x Hx. apply Hs. right. exact Hx.
    + discriminate.
    + rewrite <- !app_assoc. exact H.
Qed.

Lemma flat_char_not_nl : forall c, flat_char c <> cNL.
Proof. intro c. unfold flat_char. destruct (ascii_dec c cNL) as [E|E]; [discriminate|exact E]. Qed.

Lemma flat_char_id : forall c, c <> cNL -> flat_char c = c.
Proof. intros c H. unfold flat_char. destruct (ascii_dec c cNL); [contradiction|reflexivity]. Qed.

Lemma flat_map_id : forall s, ~ In cNL s -> map flat_char s = s.
Proof.
  induction s as [|c s IH]; intro H; [reflexivity|]. cbn [map]. rewrite flat_char_id, IH.
  - reflexivity.
  - intro Hc. apply H. right. exact Hc.
  - intro Hc. apply H. left. exact Hc.
Qed.

Lemma PL_quote_body : forall s r pre pw buf rt out,
  (forall c, In c s -> c <> cNUL /\ c <> cQUOTE) ->
  PL false false r (pre ++ map flat_char s ++ [cQUOTE]) pw []
     (pp (pre ++ map flat_char s ++ [cQUOTE]) (buf ++ s) rt) out ->
  PL true false (s ++ cQUOTE :: r) pre pw buf rt out.
Proof.
  induction s as [|c s IH]; intros r pre pw buf rt out Hs H; cbn [app map] in *.
  - start_step Hf f. rewrite pnextc_instring.
    unfold PL, pp in H. destruct (pos_snoc_other pre cQUOTE) as [E1 E2]; [discriminate|].
    rewrite E1, E2 in H. cbn. rewrite app_nil_r in H. apply H. simpl in Hf. lia.
  - start_step Hf f. rewrite pnextc_instring.
    destruct (Hs c (or_introl eq_refl)) as [N1 N2].
    rewrite !eqb_no by assumption. cbn [andb negb].
    destruct (pos_snoc_other pre (flat_char c) (flat_char_not_nl c)) as [E1 E2].
    rewrite <- E1, <- E2. apply IH.
    + intros x Hx. apply Hs. right. exact Hx.
    + rewrite <- !app_assoc. exact H.
    + simpl in Hf. lia.
Qed.

Lemma PL_quote : forall s r pre pw buf rt out,
  (forall c, In c s -> c <> cNUL /\ c <> cQUOTE) ->
  PL false false r (pre ++ flat_text (EQuoted s)) false []
     (pp (pre ++ flat_text (EQuoted s)) s (pp (pre ++ [cQUOTE]) buf rt)) out ->
  PL false false (cQUOTE :: s ++ cQUOTE :: r) pre pw buf rt out.
Proof.
  intros s r pre pw buf rt out Hs H. start_step Hf f.
  rewrite pnextc_plain; [|discriminate|intros [Hc|[Hc|Hc]]; discriminate].
  cbn [Ascii.eqb Bool.eqb andb negb].
  assert (EF : flat_text (EQuoted s) = cQUOTE :: map flat_char s ++ [cQUOTE]).
  { unfold flat_text. cbn [elem_text map]. rewrite map_app. reflexivity. }
  rewrite EF in H.
  assert (HB := PL_quote_body s r (pre ++ [cQUOTE]) false [] (pp (pre ++ [cQUOTE]) buf rt) out Hs).
  rewrite <- app_assoc in HB. cbn [app] in HB. specialize (HB H).
  unfold PL in HB. unfold pp in HB.
  destruct (pos_snoc_other pre cQUOTE) as [E1 E2]; [discriminate|]. rewrite E1, E2 in HB.
  apply HB. simpl in Hf. lia.
Qed.

Lemma PL_incl_body : forall s r pre pw buf rt out fname,
  (forall c, In c s -> c <> cNUL /\ c <> ">"%char /\ c <> cHASH /\ ~ ws_char c) ->
  buf ++ s = fname ->
  match inc fname with
  | None => out (PLexThrow (line_after (pre ++ s ++ [">"%char])) (col_after (pre ++ s ++ [">"%char])) infile fname)
  | Some (PLexThrow a b c d) => out (PLexThrow a b c d)
  | Some PLexDiverge => out PLexDiverge
  | Some (PLexOk tk is_ ii pw') =>
      PL is_ ii r (pre ++ s ++ [">"%char]) pw' [] (rev (removelast tk) ++ rt) out
  end ->
  PL false true (s ++ ">"%char :: r) pre pw buf rt out.
Proof.
  induction s as [|c s IH]; intros r pre pw buf rt out fname Hs He H; cbn [app] in *.
  - start_step Hf f. rewrite pnextc_plain; [|discriminate|intros [Hc|[Hc|Hc]]; discriminate].
    destruct (pos_snoc_other pre ">"%char) as [E1 E2]; [discriminate|].
    cbn. rewrite app_nil_r in He. subst fname. unfold PL in H. rewrite E1, E2 in H.
    destruct (inc buf) as [[tk is_ ii pw'|a b c d|]|].
    + apply H. simpl in Hf. lia.
    + exact H.
    + exact H.
    + exact H.
  - start_step Hf f. destruct (Hs c (or_introl eq_refl)) as [N1 [N2 [N3 N4]]].
    rewrite pnextc_plain by assumption.
    rewrite !(eqb_no c cNUL), (eqb_no c ">"%char) by assumption. cbn [andb negb].
    destruct (pos_snoc_other pre c) as [E1 E2].
    { intro Hc. apply N4. left. exact Hc. }
    rewrite <- E1, <- E2.
    apply IH with (fname := fname).
    + intros x Hx. apply Hs. right. exact Hx.
    + rewrite <- app_assoc. exact He.
    + rewrite <- !app_assoc. exact H.
    + simpl in Hf. lia.
Qed.

Lemma flat_include : forall s, (forall c, In c s -> c <> cNUL /\ c <> ">"%char /\ c <> cHASH /\ ~ ws_char c) ->
  flat_text (EInclude s) = "<"%char :: s ++ [">"%char].
Proof.
  intros s Hs. unfold flat_text. apply flat_map_id. cbn [elem_text].
  intros [Hc|Hc]; [discriminate|]. apply in_app_iff in Hc. destruct Hc as [Hc|[Hc|[]]]; [|discriminate].
  apply Hs in Hc. destruct Hc as (_ & _ & _ & Hc). apply Hc. left. reflexivity.
Qed.

Lemma PL_incl : forall s r pre pw buf rt out,
  (forall c, In c s -> c <> cNUL /\ c <> ">"%char /\ c <> cHASH /\ ~ ws_char c) ->
  match inc s with
  | None => out (PLexThrow (line_after (pre ++ flat_text (EInclude s)))
                           (col_after (pre ++ flat_text (EInclude s))) infile s)
  | Some (PLexThrow a b c d) => out (PLexThrow a b c d)
  | Some PLexDiverge => out PLexDiverge
  | Some (PLexOk tk is_ ii pw') =>
      PL is_ ii r (pre ++ flat_text (EInclude s)) pw' [] (rev (removelast tk) ++ pp (pre ++ ["<"%char]) buf rt) out
  end ->
  PL false false ("<"%char :: s ++ ">"%char :: r) pre pw buf rt out.
Proof.
  intros s r pre pw buf rt out Hs H. start_step Hf f.
  rewrite pnextc_plain; [|discriminate|intros [Hc|[Hc|Hc]]; discriminate].
  cbn [Ascii.eqb Bool.eqb andb negb].
  rewrite flat_include in H by exact Hs.
  assert (HB := PL_incl_body s r (pre ++ ["<"%char]) false [] (pp (pre ++ ["<"%char]) buf rt) out s Hs eq_refl).
  rewrite <- app_assoc in HB. cbn [app] in HB. specialize (HB H).
  unfold PL in HB. unfold pp in HB.
  destruct (pos_snoc_other pre "<"%char) as [E1 E2]; [discriminate|]. rewrite E1, E2 in HB.
  apply HB. simpl in Hf. lia.
Qed.

Definition PReach (txt flat pre : str) (pw : bool) (buf : str) (rt : list ptok)
           (pw' : bool) (buf' : str) (rt' : list ptok) : Prop :=
  forall r out, PL false false r (pre ++ flat) pw' buf' rt' out -> PL false false (txt ++ r) pre pw buf rt out.

Lemma PReach_nil : forall pre pw buf rt, PReach [] [] pre pw buf rt pw buf rt.
Proof. intros pre pw buf rt r out H. rewrite app_nil_r in H. exact H. Qed.

Lemma PReach_app : forall t1 t2 f1 f2 pre a1 b1 c1 a2 b2 c2 a3 b3 c3,
  PReach t1 f1 pre a1 b1 c1 a2 b2 c2 -> PReach t2 f2 (pre ++ f1) a2 b2 c2 a3 b3 c3 ->
  PReach (t1 ++ t2) (f1 ++ f2) pre a1 b1 c1 a3 b3 c3.
Proof.
  intros t1 t2 f1 f2 pre a1 b1 c1 a2 b2 c2 a3 b3 c3 H1 H2 r out H.
  rewrite <- app_assoc. apply H1, H2. rewrite <- app_assoc. exact H.
Qed.

Lemma PReach_gap : forall g pre pw buf rt, gap_ok g -> (pw = true -> buf = []) ->
  exists pw', PReach (gap_text g) (gap_text g) pre pw buf rt pw' [] (pp (pre ++ gap_text g) buf rt).
Proof.
  intros g pre pw buf rt Hg Hinv. destruct g as [c| |txt]; simpl in *.
  - exists true. intros r out H. apply PL_ws; auto.
  - exists false. intros r out H. apply PL_comma. apply H.
  - destruct Hg as [H1 H2]. exists true. intros r out H. simpl. rewrite <- app_assoc. simpl.
    apply PL_comment; [exact H1|exact H2|exact Hinv|exact H].
Qed.

(** The word that is pending when the gaps begin is ended by the first of them. *)
Lemma PReach_gaps : forall g pre pw buf rt, Forall gap_ok g -> (pw = true -> buf = []) ->
  exists pw' buf' rt', (pw' = true -> buf' = []) /\
     (g = [] -> buf' = buf /\ rt' = rt) /\
     (forall x g', g = x :: g' -> buf' = [] /\ rt' = pp (pre ++ gap_text x) buf rt) /\
     PReach (gaps_text g) (gaps_text g) pre pw buf rt pw' buf' rt'.
Proof.
  induction g as [|x g IH]; intros pre pw buf rt Hg Hinv.
  - exists pw, buf, rt. split; [exact Hinv|]. split; [split; reflexivity|]. split; [discriminate|].
    apply PReach_nil.
  - apply Forall_cons_iff in Hg. destruct Hg as [Hx Hg].
    destruct (PReach_gap x pre pw buf rt Hx Hinv) as [pw1 H1].
    destruct (IH (pre ++ gap_text x) pw1 [] (pp (pre ++ gap_text x) buf rt) Hg (fun _ => eq_refl))
      as (pw2 & buf2 & rt2 & I1 & I2 & I3 & I4).
    exists pw2, buf2, rt2. split; [exact I1|]. split; [discriminate|]. split.
    { intros y g' E. injection E as E1 E2. subst y g'. destruct g as [|y g].
      - destruct (I2 eq_refl) as [-> ->]. split; reflexivity.
      - destruct (I3 y g eq_refl) as [-> ->]. split; reflexivity. }
    unfold gaps_text. cbn [flat_map]. eapply PReach_app; [exact H1|exact I4].
Qed.
End PLex.
