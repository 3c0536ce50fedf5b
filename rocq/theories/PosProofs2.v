From Verif Require Import Base ConfigModel LexSpec LexProofs InterpSpec InterpProofs ConfigProofs PosModel PosSpec PosProofs.

Definition pinclude types fs src d : str -> option plexres :=
  fun n => match fs n with None => None | Some c => Some (plex types fs src d n c) end.

Lemma plex_S : forall types fs src d infile text, plex types fs src (S d) infile text =
  plex_loop types src infile (pinclude types fs src d) (S (length text)) (mkPL text false false false 1 1) [] [].
Proof. reflexivity. Qed.

Lemma ppush_spec : forall types src l c s rt,
  rev (ppush types src l c s rt) =
  rev rt ++ map (fun k => mkP k l c src)
    (classify types (last_kind (erase_toks (rev rt))) (match s with [] => [] | _ => [s] end)).
Proof.
  intros types src l c s rt. destruct s as [|x s]; cbn [ppush rev classify map].
  - rewrite app_nil_r. reflexivity.
  - rewrite gettkn_word_kind. unfold erase_toks. rewrite map_rev, last_kind_rev.
    destruct rt; reflexivity.
Qed.

(** The tokens read once the pending word has been ended by what follows. *)
Definition pdone types src (pre : str) (l : layout) (tail : list gap) (buf : str) (rt : list ptok) :=
  rev (pp types src (pre ++ ender l tail) buf rt).

Lemma pdone_empty : forall types src pre l tail rt, pdone types src pre l tail [] rt = rev rt.
Proof. reflexivity. Qed.

Lemma flat_bare : forall s, (forall c, In c s -> bare_char c) -> flat_text (EBare s) = s.
Proof.
  intros s H. unfold flat_text. apply flat_map_id. cbn [elem_text]. intro Hc. apply H in Hc.
  destruct Hc as (_&_&_&_&_&_&B7&_). apply B7. reflexivity.
Qed.

Lemma flat_punct : forall c, punct_char c -> flat_text (EPunct c) = [c].
Proof.
  intros c H. unfold flat_text. apply flat_map_id. cbn [elem_text]. intros [Hc|[]].
  apply punct_cases in H. destruct H as [E|[E|[E|[E|[E|E]]]]]; rewrite E in Hc; discriminate.
Qed.

(** After the gaps in front of an element that ends a word by itself, the pending word is
    as it would be if its end had been looked up. *)
Lemma PReach_layout : forall types fs src pre l tail acc out, preads types fs src pre l tail acc out ->
  exists d0, (no_includes l -> d0 = 0) /\ forall d, d0 <= d ->
  forall infile pb buf rt pw,
    layout_ok_from pb l -> (pw = true -> buf = []) -> (buf <> [] -> pb = true) ->
    pdone types src pre l tail buf rt = acc ->
    exists pw' buf' rt', (pw' = true -> buf' = []) /\
      pdone types src (pre ++ flat_layout l) [] tail buf' rt' = out /\
      PReach types src infile (pinclude types fs src d) (layout_text l) (flat_layout l) pre pw buf rt pw' buf' rt'.
Proof.
  intros types fs src pre l tail acc out H.
  induction H as [pre tail acc | pre g e l tail acc out Hni Hr IH
                 | pre g name l tail acc out fl ftail fout Hfs Hfl Hft Hr1 IH1 Hr2 IH2].
  - exists 0. split; [reflexivity|]. intros d _ infile pb buf rt pw Hok Hinv Hpb Hd.
    exists pw, buf, rt. split; [exact Hinv|]. split.
    + cbn [flat_layout flat_map]. rewrite app_nil_r. exact Hd.
    + apply PReach_nil.
  - destruct IH as [d0 [Hd0 IH]]. exists d0. split.
    { intro Hn. apply Hd0. intros g' e' Hin. apply (Hn g' e'). right. exact Hin. }
    intros d Hd infile pb buf rt pw Hok Hinv Hpb Hdn.
    cbn [layout_ok_from] in Hok. destruct Hok as [Hg [He [Hb Hok]]].
    destruct (PReach_gaps types src infile (pinclude types fs src d) g pre pw buf rt Hg Hinv)
      as (pw1 & buf1 & rt1 & I1 & I2 & I3 & I4).
    (* pushing the pending word where the element begins gives [acc] *)
    assert (HA : forall q, (g = [] -> q = pre ++ ender ((g, e) :: l) tail) -> rev (pp types src q buf1 rt1) = acc).
    { intros q Hq. unfold pdone in Hdn. destruct g as [|x g].
      - destruct (I2 eq_refl) as [-> ->]. rewrite (Hq eq_refl). exact Hdn.
      - destruct (I3 x g eq_refl) as [-> ->]. cbn [pp ppush]. exact Hdn. }
    assert (Hstep : exists pw2 buf2 rt2, (pw2 = true -> buf2 = []) /\
       (buf2 <> [] -> is_bare e = true) /\
       pdone types src (pre ++ gaps_text g ++ flat_text e) l tail buf2 rt2 =
         acc ++ map (place src (pre ++ gaps_text g ++ token_end e l tail))
                    (classify types (last_kind (erase_toks acc)) (elem_word e)) /\
       PReach types src infile (pinclude types fs src d) (elem_text e) (flat_text e) (pre ++ gaps_text g)
              pw1 buf1 rt1 pw2 buf2 rt2).
    { destruct e as [c|s|s|n]; cbn [elem_ok is_bare] in He, Hb; cbn [elem_text].
      - unfold token_end. cbn [is_bare]. rewrite (flat_punct c He).
        exists false, [], (pp types src (pre ++ gaps_text g ++ [c]) [c] (pp types src (pre ++ gaps_text g ++ [c]) buf1 rt1)).
        split; [discriminate|]. split; [contradiction|]. split.
        + rewrite pdone_empty. unfold pp at 1. rewrite ppush_spec.
          rewrite HA by (intros ->; reflexivity). reflexivity.
        + intros r o HL. apply PL_punct; [exact He|]. rewrite <- app_assoc in *. exact HL.
      - destruct He as [He1 He2].
        assert (buf1 = []) as Hb1.
        { destruct g as [|x g]; [|destruct (I3 x g eq_refl) as [Hz _]; exact Hz].
          destruct (I2 eq_refl) as [-> _]. destruct buf as [|b buf]; [reflexivity|].
          exfalso. apply Hb; [apply Hpb; discriminate|reflexivity|reflexivity]. }
        subst buf1. exists false, s, rt1.
        split; [discriminate|]. split; [reflexivity|]. split.
        + unfold pdone. unfold token_end. cbn [is_bare]. rewrite (flat_bare s He2).
          unfold pp. rewrite ppush_spec.
          assert (HA' := HA (pre ++ ender ((g, EBare s) :: l) tail) (fun _ => eq_refl)).
          cbn [pp ppush] in HA'. rewrite HA'.
          destruct s as [|x s]; [contradiction|]. rewrite <- !app_assoc. reflexivity.
        + rewrite (flat_bare s He2). intros r o HL. apply PL_bare; [exact He2|exact He1|exact HL].
      - exists false, [], (pp types src ((pre ++ gaps_text g) ++ flat_text (EQuoted s)) s
                             (pp types src ((pre ++ gaps_text g) ++ [cQUOTE]) buf1 rt1)).
        split; [discriminate|]. split; [contradiction|]. split.
        + rewrite pdone_empty. unfold token_end. cbn [is_bare]. unfold pp at 1. rewrite ppush_spec.
          rewrite HA by (intros ->; cbn [gaps_text flat_map ender elem_text firstn]; rewrite app_nil_r; reflexivity).
          rewrite <- !app_assoc. destruct s; reflexivity.
        + intros r o HL. rewrite <- app_comm_cons, <- app_assoc. cbn [app]. apply PL_quote; [exact He|exact HL].
      - exfalso. apply (Hni n). reflexivity. }
    destruct Hstep as (pw2 & buf2 & rt2 & J1 & J2 & J3 & J4).
    destruct (IH d Hd infile (is_bare e) buf2 rt2 pw2 Hok J1 J2 J3) as (pw3 & buf3 & rt3 & K1 & K2 & K3).
    exists pw3, buf3, rt3. split; [exact K1|]. split.
    + rewrite <- K2. unfold flat_layout. cbn [flat_map fst snd]. rewrite <- !app_assoc. reflexivity.
    + unfold layout_text, flat_layout. cbn [flat_map fst snd].
      eapply PReach_app; [|rewrite <- app_assoc in *; exact K3].
      eapply PReach_app; [exact I4|exact J4].
  - destruct IH1 as [d1 [_ IH1]]. destruct IH2 as [d2 [_ IH2]].
    exists (S (max d1 d2)). split.
    { intro Hn. exfalso. apply (Hn g (EInclude name) (or_introl eq_refl) name). reflexivity. }
    intros d Hd infile pb buf rt pw Hok Hinv Hpb Hdn.
    cbn [layout_ok_from] in Hok. destruct Hok as [Hg [He [Hb Hok]]].
    destruct (PReach_gaps types src infile (pinclude types fs src d) g pre pw buf rt Hg Hinv)
      as (pw1 & buf1 & rt1 & I1 & I2 & I3 & I4).
    assert (HA : rev (pp types src ((pre ++ gaps_text g) ++ ["<"%char]) buf1 rt1) = acc).
    { unfold pdone in Hdn. destruct g as [|x g].
      - destruct (I2 eq_refl) as [-> ->]. cbn [gaps_text flat_map]. rewrite app_nil_r. exact Hdn.
      - destruct (I3 x g eq_refl) as [-> ->]. cbn [pp ppush]. exact Hdn. }
    assert (Hlex : exists pwf z, plex types fs src d name (layout_text fl ++ gaps_text ftail)
                   = PLexOk (fout ++ [z]) false false pwf).
    { destruct d as [|d]; [lia|]. rewrite plex_S.
      destruct (IH1 d ltac:(lia) name false [] [] false Hfl ltac:(discriminate)
                    (fun Hc => match Hc eq_refl with end) eq_refl)
        as (pwa & bufa & rta & A1 & A2 & A3).
      destruct (PReach_gaps types src name (pinclude types fs src d) ftail ([] ++ flat_layout fl) pwa bufa rta Hft A1)
        as (pwb & bufb & rtb & B1 & B2 & B3 & B4).
      exists pwb. eexists.
      assert (HL := A3 _ _ (B4 _ _ (PL_end types src name (pinclude types fs src d) false false _ pwb bufb rtb))).
      rewrite app_nil_r in HL. specialize (HL _ (le_n _)).
      change (line_after []) with 1 in HL. change (col_after []) with 1 in HL. rewrite <- HL.
      cbn [rev]. f_equal. f_equal. rewrite <- A2. unfold pdone. destruct ftail as [|x ft].
      - destruct (B2 eq_refl) as [-> ->]. reflexivity.
      - destruct (B3 x ft eq_refl) as [-> ->]. cbn [pp ppush ender]. reflexivity. }
    destruct Hlex as [pwf [z Hlex]].
    destruct (IH2 d ltac:(lia) infile false [] (rev fout ++ pp types src ((pre ++ gaps_text g) ++ ["<"%char]) buf1 rt1) pwf Hok
                  (fun _ => eq_refl) (fun Hc => match Hc eq_refl with end))
      as (pw2 & buf2 & rt2 & J1 & J2 & J3).
    { rewrite pdone_empty, rev_app_distr, rev_involutive, HA. reflexivity. }
    exists pw2, buf2, rt2. split; [exact J1|]. split.
    { rewrite <- J2. unfold flat_layout. cbn [flat_map fst snd]. rewrite <- !app_assoc. reflexivity. }
    unfold layout_text, flat_layout. cbn [flat_map fst snd].
    eapply PReach_app; [|rewrite <- app_assoc in *; exact J3]. eapply PReach_app; [exact I4|].
    intros r o HL. cbn [elem_text]. rewrite <- app_comm_cons, <- app_assoc. cbn [app]. apply PL_incl; [exact He|].
    unfold pinclude at 1. rewrite Hfs, Hlex, removelast_last.
    rewrite <- (app_assoc pre (gaps_text g) ["<"%char]). exact HL.
Qed.

(** Reading a whole text with positions. *)
Lemma plex_preads : forall types fs src l tail out, layout_ok l -> Forall gap_ok tail ->
  preads types fs src [] l tail [] out ->
  exists d0, (no_includes l -> d0 = 0) /\ forall d infile, d0 <= d -> exists pw,
    plex types fs src (S d) infile (layout_text l ++ gaps_text tail) =
    PLexOk (out ++ [place src (flat_layout l ++ gaps_text tail) eof_token]) false false pw.
Proof.
  intros types fs src l tail out Hl Ht Hr.
  destruct (PReach_layout _ _ _ _ _ _ _ _ Hr) as [d0 [Hd0 H]]. exists d0. split; [exact Hd0|]. intros d infile Hd.
  destruct (H d Hd infile false [] [] false Hl ltac:(discriminate)
                    (fun Hc => match Hc eq_refl with end) eq_refl)
        as (pwa & bufa & rta & A1 & A2 & A3).
  destruct (PReach_gaps types src infile (pinclude types fs src d) tail ([] ++ flat_layout l) pwa bufa rta Ht A1)
        as (pwb & bufb & rtb & B1 & B2 & B3 & B4).
  exists pwb. rewrite plex_S.
  assert (HL := A3 _ _ (B4 _ _ (PL_end types src infile (pinclude types fs src d) false false _ pwb bufb rtb))).
  rewrite app_nil_r in HL. specialize (HL _ (le_n _)).
  change (line_after []) with 1 in HL. change (col_after []) with 1 in HL. rewrite <- HL.
  cbn [rev]. f_equal. f_equal. rewrite <- A2. unfold pdone. destruct tail as [|x ft].
  - destruct (B2 eq_refl) as [-> ->]. cbn [ender gaps_text flat_map]. reflexivity.
  - destruct (B3 x ft eq_refl) as [-> ->]. cbn [pp ppush ender]. reflexivity.
Qed.

(** A file that cannot be opened: the message names the position after the closing bracket. *)
Lemma plex_missing : forall types fs src l g name rest out, layout_ok l -> Forall gap_ok g ->
  elem_ok (EInclude name) -> fs name = None -> preads types fs src [] l g [] out ->
  exists d0, (no_includes l -> d0 = 0) /\ forall d infile, d0 <= d ->
    plex types fs src (S d) infile (layout_text l ++ gaps_text g ++ elem_text (EInclude name) ++ rest) =
    PLexThrow (line_after (flat_layout l ++ gaps_text g ++ elem_text (EInclude name)))
              (col_after (flat_layout l ++ gaps_text g ++ elem_text (EInclude name))) infile name.
Proof.
  intros types fs src l g name rest out Hl Hg He Hfs Hr.
  destruct (PReach_layout _ _ _ _ _ _ _ _ Hr) as [d0 [Hd0 H]]. exists d0. split; [exact Hd0|]. intros d infile Hd.
  destruct (H d Hd infile false [] [] false Hl ltac:(discriminate)
                    (fun Hc => match Hc eq_refl with end) eq_refl)
        as (pwa & bufa & rta & A1 & A2 & A3).
  destruct (PReach_gaps types src infile (pinclude types fs src d) g ([] ++ flat_layout l) pwa bufa rta Hg A1)
        as (pwb & bufb & rtb & B1 & B2 & B3 & B4).
  rewrite plex_S.
  assert (HL : PL types src infile (pinclude types fs src d) false false (layout_text l ++ gaps_text g ++ elem_text (EInclude name) ++ rest) [] false [] []
     (eq (PLexThrow (line_after (flat_layout l ++ gaps_text g ++ elem_text (EInclude name)))
              (col_after (flat_layout l ++ gaps_text g ++ elem_text (EInclude name))) infile name))).
  { apply A3, B4. cbn [elem_text]. rewrite <- app_comm_cons, <- app_assoc. cbn [app].
    apply PL_incl; [exact He|]. unfold pinclude at 1. rewrite Hfs.
    rewrite flat_include by exact He. cbn [app]. rewrite <- !app_assoc. reflexivity. }
  specialize (HL _ (le_n _)). change (line_after []) with 1 in HL. change (col_after []) with 1 in HL.
  rewrite <- HL. reflexivity.
Qed.

(** Without includes every layout is read, and the tokens are the classified words. *)
Lemma preads_words : forall types fs src l pre tail acc, no_includes l ->
  exists out, preads types fs src pre l tail acc (acc ++ out) /\
              erase_toks out = classify types (last_kind (erase_toks acc)) (layout_words l).
Proof.
  intros types fs src l. induction l as [|[g e] l IH]; intros pre tail acc Hn.
  - exists []. rewrite app_nil_r. split; [constructor|reflexivity].
  - set (new := map (place src (pre ++ gaps_text g ++ token_end e l tail))
                  (classify types (last_kind (erase_toks acc)) (elem_word e))).
    assert (En : erase_toks new = classify types (last_kind (erase_toks acc)) (elem_word e)).
    { unfold new, erase_toks. rewrite map_map. cbn [place pt]. apply map_id. }
    destruct (IH (pre ++ gaps_text g ++ flat_text e) tail (acc ++ new)) as [out [H1 H2]].
    { intros g' e' Hin. apply (Hn g' e'). right. exact Hin. }
    exists (new ++ out). split.
    + apply preads_word; [intro n; apply (Hn g e); left; reflexivity|].
      fold new. rewrite (app_assoc acc new out). exact H1.
    + unfold erase_toks at 1. rewrite map_app. fold (erase_toks new) (erase_toks out).
      rewrite En, H2. unfold layout_words. cbn [flat_map snd]. fold (layout_words l).
      rewrite classify_app. f_equal. f_equal.
      unfold erase_toks. rewrite map_app. fold (erase_toks acc) (erase_toks new).
      rewrite En, last_kind_app. reflexivity.
Qed.

(** The token of one element of a layout without includes. *)
Lemma preads_nth : forall types fs src l1 g e l2 pre tail acc out w, no_includes (l1 ++ (g, e) :: l2) ->
  elem_word e = [w] ->
  preads types fs src pre (l1 ++ (g, e) :: l2) tail acc out ->
  exists t, nth_error out (length acc + length (layout_words l1)) = Some t /\ tval (pt t) = w /\ psrc t = src /\
    pline t = line_after (pre ++ flat_layout l1 ++ gaps_text g ++ token_end e l2 tail) /\
    pcol t = col_after (pre ++ flat_layout l1 ++ gaps_text g ++ token_end e l2 tail).
Proof.
  assert (Hpre : forall types fs src pre l tail acc out, preads types fs src pre l tail acc out ->
                 no_includes l -> exists z, out = acc ++ z).
  { intros types fs src pre l tail acc out H. induction H as [pre tail acc | pre g e l tail acc out Hni Hr IH
                 | pre g name l tail acc out fl ftail fout Hfs Hfl Hft Hr1 IH1 Hr2 IH2]; intro Hn.
    - exists []. rewrite app_nil_r. reflexivity.
    - destruct IH as [z Ez].
      { intros g' e' Hin. apply (Hn g' e'). right. exact Hin. }
      eexists. rewrite Ez, <- app_assoc. reflexivity.
    - exfalso. apply (Hn g (EInclude name) (or_introl eq_refl) name). reflexivity. }
  intros types fs src l1. induction l1 as [|[g1 e1] l1 IH]; intros g e l2 pre tail acc out w Hn Hw H.
  - cbn [app] in *. inversion H as [| pre' g' e' l' tail' acc' out' Hni Hr |
       pre' g' name l' tail' acc' out' fl ftail fout Hfs Hfl Hft Hr1 Hr2]; subst.
    + rewrite Hw in Hr. cbn [classify map] in Hr. destruct (Hpre _ _ _ _ _ _ _ _ Hr) as [z Ez].
      { intros g' e' Hin. apply (Hn g' e'). right. exact Hin. }
      eexists. rewrite Ez, <- app_assoc. cbn [layout_words flat_map length app].
      rewrite nth_error_app2 by lia. replace (length acc + 0 - length acc) with 0 by lia.
      cbn [nth_error]. split; [reflexivity|]. cbn [place pt tval psrc pline pcol flat_layout flat_map app].
      repeat split.
    + exfalso. apply (Hn g (EInclude name) (or_introl eq_refl) name). reflexivity.
  - cbn [app] in *. inversion H as [| pre' g' e' l' tail' acc' out' Hni Hr |
       pre' g' name l' tail' acc' out' fl ftail fout Hfs Hfl Hft Hr1 Hr2]; subst.
    + assert (Hn' : no_includes (l1 ++ (g, e) :: l2)).
      { intros g' e' Hin. apply (Hn g' e'). right. exact Hin. }
      destruct (IH _ _ _ _ _ _ _ _ Hn' Hw Hr) as (t & T1 & T2 & T3 & T4 & T5).
      exists t. split.
      * rewrite <- T1. f_equal. rewrite app_length, map_length. unfold layout_words. cbn [flat_map snd].
        rewrite app_length. fold (layout_words l1).
        assert (HL : forall ws p, length (classify types p ws) = length ws).
        { induction ws as [|x ws IHw]; intro p; [reflexivity|]. cbn [classify length]. rewrite IHw. reflexivity. }
        rewrite HL. lia.
      * split; [exact T2|]. split; [exact T3|]. unfold flat_layout. cbn [flat_map fst snd].
        fold (flat_layout l1). rewrite <- !app_assoc in *. split; assumption.
    + exfalso. apply (Hn g1 (EInclude name) (or_introl eq_refl) name). reflexivity.
Qed.

(** * Lines *)
Lemma line_app : forall a b, line_after (a ++ b) = line_after a + count_occ ascii_dec b cNL.
Proof. intros a b. unfold line_after. rewrite count_occ_app. lia. Qed.

Lemma flat_text_quiet : forall e, elem_ok e -> count_occ ascii_dec (flat_text e) cNL = 0.
Proof.
  intros e _. unfold flat_text. apply count_occ_not_In. intro H. apply in_map_iff in H.
  destruct H as [c [E _]]. exact (flat_char_not_nl c E).
Qed.

Lemma flat_layout_lines : forall l pb, layout_ok_from pb l -> forall a b,
  line_after a = line_after b ->
  line_after (a ++ flat_layout l) + quoted_newlines l = line_after (b ++ layout_text l).
Proof.
  induction l as [|[g e] l IH]; intros pb Hl a b E.
  - cbn [flat_layout layout_text flat_map quoted_newlines]. rewrite !app_nil_r. lia.
  - cbn [layout_ok_from] in Hl. destruct Hl as (Hg & He & _ & Hl).
    unfold flat_layout, layout_text. cbn [flat_map fst snd]. fold (flat_layout l) (layout_text l).
    assert (A : line_after ((a ++ gaps_text g ++ flat_text e) ++ flat_layout l) + quoted_newlines l =
                line_after ((a ++ gaps_text g ++ flat_text e) ++ layout_text l)).
    { exact (IH _ Hl _ _ eq_refl). }
    rewrite !app_assoc in *. rewrite !line_app in *.
    assert (B : count_occ ascii_dec (elem_text e) cNL = count_occ ascii_dec (flat_text e) cNL +
                match e with EQuoted s => count_occ ascii_dec s cNL | _ => 0 end).
    { rewrite (flat_text_quiet e He). destruct e as [c|s|s|n]; cbn [elem_text].
      - assert (Q := flat_text_quiet (EPunct c) He). rewrite (flat_punct c He) in Q. lia.
      - cbn [elem_ok] in He. destruct He as [_ He].
        assert (Q : count_occ ascii_dec s cNL = 0).
        { apply count_occ_not_In. intro Hc. apply He in Hc. destruct Hc as (_&_&_&_&_&_&B7&_). apply B7. reflexivity. }
        lia.
      - rewrite app_comm_cons, count_occ_app. cbn [count_occ].
        destruct (ascii_dec cQUOTE cNL); [discriminate|]. lia.
      - cbn [elem_ok] in He. rewrite app_comm_cons, count_occ_app. cbn [count_occ].
        destruct (ascii_dec "<"%char cNL); [discriminate|]. destruct (ascii_dec ">"%char cNL); [discriminate|].
        assert (Q : count_occ ascii_dec n cNL = 0).
        { apply count_occ_not_In. intro Hc. apply He in Hc. destruct Hc as (_&_&_&B7). apply B7. left. reflexivity. }
        lia. }
    cbn [quoted_newlines]. lia.
Qed.

Lemma ender_lines : forall pb l tail, layout_ok_from pb l -> Forall gap_ok tail ->
  count_occ ascii_dec (ender l tail) cNL = if newline_follows l tail then 1 else 0.
Proof.
  assert (G : forall g, gap_ok g -> count_occ ascii_dec (gap_text g) cNL =
    if (match g with GWs c => Ascii.eqb c cNL | GComment _ => true | _ => false end) then 1 else 0).
  { intros [c| |txt] H; cbn [gap_text count_occ].
    - destruct (ascii_dec c cNL) as [E|E]; [rewrite E, Ascii.eqb_refl; reflexivity|].
      rewrite (eqb_no _ _ E). reflexivity.
    - reflexivity.
    - destruct (ascii_dec cHASH cNL); [discriminate|]. rewrite count_occ_app. cbn [count_occ].
      destruct (ascii_dec cNL cNL); [|contradiction]. cbn [gap_ok] in H. destruct H as [H _].
      apply (count_occ_not_In ascii_dec) in H. lia. }
  intros pb l tail Hl Ht. destruct l as [|[[|g gs] e] l]; cbn [ender newline_follows].
  - destruct tail as [|g t]; [reflexivity|]. apply Forall_cons_iff in Ht. destruct Ht as [Hg _].
    rewrite G by exact Hg. destruct g; reflexivity.
  - cbn [layout_ok_from] in Hl. destruct Hl as (_ & He & _).
    assert (Q : ~ In cNL (firstn 1 (elem_text e))).
    { destruct e as [c|s|s|n]; cbn [elem_text firstn].
      - cbn [elem_ok] in He. apply punct_cases in He. intros [Hc|[]].
        destruct He as [E|[E|[E|[E|[E|E]]]]]; rewrite E in Hc; discriminate.
      - cbn [elem_ok] in He. destruct He as [_ He]. destruct s as [|c s]; [intros []|]. intros [Hc|[]].
        destruct (He c (or_introl eq_refl)) as (_&_&_&_&_&_&B7&_). contradiction.
      - intros [Hc|[]]. discriminate.
      - intros [Hc|[]]. discriminate. }
    apply (count_occ_not_In ascii_dec) in Q. rewrite Q. reflexivity.
  - cbn [layout_ok_from] in Hl. destruct Hl as (Hg & _). apply Forall_cons_iff in Hg. destruct Hg as [Hg _].
    rewrite G by exact Hg. destruct g; reflexivity.
Qed.

Lemma layout_ok_app : forall l1 l2 pb, layout_ok_from pb (l1 ++ l2) ->
  layout_ok_from pb l1 /\ exists pb', layout_ok_from pb' l2.
Proof.
  induction l1 as [|[g e] l1 IH]; intros l2 pb H.
  - split; [exact I|]. exists pb. exact H.
  - cbn [app layout_ok_from] in *. destruct H as (A & B & C & D). apply IH in D. destruct D as [D1 D2].
    repeat split; assumption.
Qed.

Lemma token_line : forall l1 g e l2 tail, layout_ok (l1 ++ (g, e) :: l2) -> Forall gap_ok tail ->
  line_after (flat_layout l1 ++ gaps_text g ++ token_end e l2 tail) + quoted_newlines l1 =
  line_after (layout_text l1 ++ gaps_text g) + (if is_bare e && newline_follows l2 tail then 1 else 0).
Proof.
  intros l1 g e l2 tail Hl Ht. apply layout_ok_app in Hl. destruct Hl as [H1 [pb H2]].
  cbn [layout_ok_from] in H2. destruct H2 as (Hg & He & _ & H2).
  assert (A := flat_layout_lines l1 _ H1 [] [] eq_refl). cbn [app] in A.
  rewrite app_assoc, line_app, line_app, line_app.
  assert (B : count_occ ascii_dec (token_end e l2 tail) cNL = if is_bare e && newline_follows l2 tail then 1 else 0).
  { unfold token_end. destruct (is_bare e); cbn [andb].
    - rewrite count_occ_app, (flat_text_quiet e He). apply (ender_lines _ _ _ H2 Ht).
    - apply (flat_text_quiet e He). }
  rewrite B. lia.
Qed.

(** The token of one word of a script. *)
Lemma word_position : forall types fs src infile d l1 g e l2 tail w,
  layout_ok (l1 ++ (g, e) :: l2) -> Forall gap_ok tail -> no_includes (l1 ++ (g, e) :: l2) -> elem_word e = [w] ->
  exists toks pw t,
    plex types fs src (S d) infile (layout_text (l1 ++ (g, e) :: l2) ++ gaps_text tail) = PLexOk toks false false pw /\
    nth_error toks (length (layout_words l1)) = Some t /\ tval (pt t) = w /\ psrc t = src /\
    pline t + quoted_newlines l1 =
      line_after (layout_text l1 ++ gaps_text g) + (if is_bare e && newline_follows l2 tail then 1 else 0) /\
    pcol t = col_after (flat_layout l1 ++ gaps_text g ++ token_end e l2 tail).
Proof.
  intros types fs src infile d l1 g e l2 tail w Hl Ht Hn Hw.
  destruct (preads_words types fs src (l1 ++ (g, e) :: l2) [] tail [] Hn) as [out [H1 H2]]. cbn [app] in H1.
  destruct (plex_preads types fs src _ tail out Hl Ht H1) as [d0 [Hd0 H]].
  destruct (H d infile) as [pw E]; [rewrite (Hd0 Hn); lia|].
  destruct (preads_nth _ _ _ _ _ _ _ _ _ _ _ _ Hn Hw H1) as (t & T1 & T2 & T3 & T4 & T5).
  cbn [length app Nat.add] in *.
  eexists. exists pw, t. split; [exact E|]. split.
  { rewrite nth_error_app1; [exact T1|]. apply nth_error_Some. rewrite T1. discriminate. }
  split; [exact T2|]. split; [exact T3|]. split; [|exact T5].
  rewrite T4. apply token_line; assumption.
Qed.
