(** C97: the positions that messages about a configuration script name. *)
From Verif Require Import Base ConfigModel LexSpec LexProofs InterpSpec InterpProofs ConfigProofs PosModel PosSpec
  PosProofs PosProofs2 PosProofs3 PosProofs4 ConfigProps.

(** The model with positions reads a text as the model without them does, and the error
    flag is set exactly when a message was printed. *)
Theorem C97_same_reading : forall types fs d infile src text,
  from_string types fs d text =
  match read_script types fs d infile src text with
  | RMissing _ _ _ _ => FThrow
  | RDiverge => FDiverge
  | RRead log (PIOk root) => FOk root (match log with [] => false | _ => true end)
  | RRead log (PIThrow _ _ _) => FThrow
  | RRead log PIUB => FUB
  | RRead log PIFuel => FDiverge
  end.
Proof. exact read_script_erase. Qed.
Print Assumptions C97_same_reading.

(** The positions of all tokens of a text, included files among them. *)
Theorem C97_positions : forall types fs src l tail out, layout_ok l -> Forall gap_ok tail ->
  preads types fs src [] l tail [] out ->
  exists d0, (no_includes l -> d0 = 0) /\ forall d infile, d0 <= d -> exists pw,
    plex types fs src (S d) infile (layout_text l ++ gaps_text tail) =
    PLexOk (out ++ [place src (flat_layout l ++ gaps_text tail) eof_token]) false false pw.
Proof. exact plex_preads. Qed.
Print Assumptions C97_positions.

(** The position of one word.  The line is that on which the word begins, one more if the word
    has no quotes and the line ends after it, less the newlines inside earlier quotes. *)
Theorem C97_word : forall types fs src infile d l1 g e l2 tail w,
  layout_ok (l1 ++ (g, e) :: l2) -> Forall gap_ok tail -> no_includes (l1 ++ (g, e) :: l2) -> elem_word e = [w] ->
  exists toks pw t,
    plex types fs src (S d) infile (layout_text (l1 ++ (g, e) :: l2) ++ gaps_text tail) = PLexOk toks false false pw /\
    nth_error toks (length (layout_words l1)) = Some t /\ tval (pt t) = w /\ psrc t = src /\
    pline t + quoted_newlines l1 =
      line_after (layout_text l1 ++ gaps_text g) + (if is_bare e && newline_follows l2 tail then 1 else 0) /\
    pcol t = col_after (flat_layout l1 ++ gaps_text g ++ token_end e l2 tail).
Proof. exact word_position. Qed.
Print Assumptions C97_word.

(** The message about a file that cannot be opened. *)
Theorem C97_missing_file : forall types fs src l g name rest out, layout_ok l -> Forall gap_ok g ->
  elem_ok (EInclude name) -> fs name = None -> preads types fs src [] l g [] out ->
  exists d0, (no_includes l -> d0 = 0) /\ forall d infile, d0 <= d ->
    read_script types fs (S d) infile src (layout_text l ++ gaps_text g ++ elem_text (EInclude name) ++ rest) =
    RMissing (line_after (flat_layout l ++ gaps_text g ++ elem_text (EInclude name)))
             (col_after (flat_layout l ++ gaps_text g ++ elem_text (EInclude name))) infile name.
Proof.
  intros types fs src l g name rest out H1 H2 H3 H4 H5.
  destruct (plex_missing types fs src l g name rest out H1 H2 H3 H4 H5) as [d0 [A B]].
  exists d0. split; [exact A|]. intros d infile Hd. unfold read_script. rewrite (B d infile Hd). reflexivity.
Qed.
Print Assumptions C97_missing_file.

(** Every message names the source the reading was started with. *)
Theorem C97_source : forall types fs d infile src text log res,
  read_script types fs d infile src text = RRead log res ->
  Forall (fun r => rfile r = src) log /\ (forall l c f, res = PIThrow l c f -> f = src).
Proof. exact messages_sources. Qed.
Print Assumptions C97_source.

(** Every message is about a token of the text: it has its position and names its kind. *)
Theorem C97_about_tokens : forall types ts log res, pinterpret types ts = (log, res) ->
  Forall (fun r => exists t, In t ts /\ about r t) log.
Proof.
  intros types ts log res H. destruct (pinterp_loop_about _ _ _ _ _ _ _ _ H) as [new [E F]].
  cbn [app] in E. rewrite E. exact F.
Qed.
Print Assumptions C97_about_tokens.

(** The first message is about the first token at which the text stops being the beginning
    of a valid script; if there is no message the script is valid or only lacks closing brackets,
    and then the exception names the end of the text. *)
Theorem C97_first_message : forall types ts e log res, no_eof (erase_toks ts) -> ttyp (pt e) = TEOF -> ts <> [] ->
  pinterpret types (ts ++ [e]) = (log, res) ->
  (exists r rest k t, log = r :: rest /\ nth_error (ts ++ [e]) k = Some t /\ about r t /\
     viable (erase_toks (firstn k ts)) /\
     (k < length ts -> ~ viable (erase_toks (firstn (S k) ts))) /\
     (k = length ts -> ~ valid (erase_toks ts))) \/
  (log = [] /\ valid (erase_toks ts) /\ exists root, res = PIOk root) \/
  (log = [] /\ viable (erase_toks ts) /\ ~ valid (erase_toks ts) /\ res = PIThrow (pline e) (pcol e) (psrc e)).
Proof. exact first_message. Qed.
Print Assumptions C97_first_message.

(** The same for texts, with the position in the text. *)
Theorem C97_first_message_text : forall types fs infile src d l tail,
  layout_ok l -> Forall gap_ok tail -> no_includes l -> layout_words l <> [] ->
  let kinds := classify types None (layout_words l) in
  exists log res,
    read_script types fs (S d) infile src (layout_text l ++ gaps_text tail) = RRead log res /\
    match log with
    | r :: _ =>
        (exists l1 g e l2 w, l = l1 ++ (g, e) :: l2 /\ elem_word e = [w] /\
           viable (firstn (length (layout_words l1)) kinds) /\
           ~ viable (firstn (S (length (layout_words l1))) kinds) /\
           rfile r = src /\
           rline r + quoted_newlines l1 =
             line_after (layout_text l1 ++ gaps_text g) + (if is_bare e && newline_follows l2 tail then 1 else 0) /\
           rcol r = col_after (flat_layout l1 ++ gaps_text g ++ token_end e l2 tail)) \/
        (viable kinds /\ ~ valid kinds /\ rfile r = src /\
           rline r = line_after (flat_layout l ++ gaps_text tail) /\
           rcol r = col_after (flat_layout l ++ gaps_text tail))
    | [] =>
        (valid kinds /\ exists root, res = PIOk root) \/
        (viable kinds /\ ~ valid kinds /\
         res = PIThrow (line_after (flat_layout l ++ gaps_text tail)) (col_after (flat_layout l ++ gaps_text tail)) src)
    end.
Proof. exact first_message_text. Qed.
Print Assumptions C97_first_message_text.

(** A script whose first word that fits nowhere stands on line 1 gets a message about line 2. *)
Theorem C97_line_refuted : exists r, exists log res,
  read_script ex_types no_files 1 (str_of "f") (str_of "f") (ex_text ("a b" ++ nl ++ "= 1; c = 2;")%string) = RRead (r :: log) res /\
  rwhat r = Expected TEquals TName /\ rline r = 2 /\ rcol r = 1.
Proof. eexists _, _, _. split; [vm_compute; reflexivity|]. repeat split. Qed.
Print Assumptions C97_line_refuted.

(** After a quoted text of two lines, a message about line 3 names line 2. *)
Theorem C97_quoted_lines_refuted : exists r, exists log res,
  read_script ex_types no_files 1 (str_of "f") (str_of "f")
    (ex_text ("a = ""x" ++ nl ++ "y"";" ++ nl ++ "; c = 2;")%string) = RRead (r :: log) res /\
  rwhat r = BadStart TEndStatement /\ rline r = 2.
Proof. eexists _, _, _. split; [vm_compute; reflexivity|]. repeat split. Qed.
Print Assumptions C97_quoted_lines_refuted.

(** An error in an included file is reported with the name of the file that includes it. *)
Definition one_file : filesys :=
  fun n => if str_eqb n (str_of "inc") then Some (ex_text (nl ++ nl ++ "b 1;" ++ nl)%string) else None.
Theorem C97_included_name_refuted : exists r, exists log res,
  read_script ex_types one_file 2 (str_of "main") (str_of "main") (ex_text "a = 1; <inc> c = 2;") = RRead (r :: log) res /\
  rwhat r = Expected TEquals TName /\ rfile r = str_of "main" /\ rline r = 3.
Proof. eexists _, _, _. split; [vm_compute; reflexivity|]. repeat split. Qed.
Print Assumptions C97_included_name_refuted.

(** A text to which the theorems apply: an error on the second line, reported there. *)
Definition ex_layout : layout :=
  [([], EBare (str_of "a")); ([GWs cSP], EPunct "="%char); ([GWs cSP], EBare (str_of "1"));
   ([], EPunct ";"%char); ([GComment (str_of " note")], EBare (str_of "b")); ([GWs cSP], EPunct ";"%char)].
Example C97_example : layout_ok ex_layout /\ no_includes ex_layout /\ layout_words ex_layout <> [] /\
  exists log res,
    read_script ex_types no_files 1 (str_of "f") (str_of "f") (layout_text ex_layout ++ gaps_text [GWs cNL]) =
    RRead (mkRep 2 4 (str_of "f") (Expected TEquals TEndStatement) :: log) res /\
    viable (firstn 5 (classify ex_types None (layout_words ex_layout))).
Proof.
  split; [|split; [|split; [|]]].
  - unfold layout_ok, ex_layout. cbn [layout_ok_from is_bare].
    assert (HB : forall c, In c ["a"%char; "b"%char; "1"%char] -> bare_char c).
    { intros c [<-|[<-|[<-|[]]]]; unfold bare_char; repeat split; discriminate. }
    assert (HE : forall c, In c ["a"%char; "b"%char; "1"%char] -> elem_ok (EBare [c])).
    { intros c Hc. split; [discriminate|]. intros d [<-|[]]. exact (HB _ Hc). }
    assert (HS : Forall gap_ok [GWs cSP]) by (constructor; [right; left; reflexivity|constructor]).
    assert (HP : forall c, In c ["="%char; ";"%char] -> elem_ok (EPunct c))
      by (intros c [<-|[<-|[]]]; cbn; auto 10).
    assert (HN : forall g, (false = true -> true = true -> g <> (@nil gap))) by discriminate.
    assert (HN2 : forall (b : bool) (g : list gap), (b = true -> false = true -> g <> [])) by discriminate.
    split; [constructor|]. split; [apply HE; cbn; auto|]. split; [apply HN|].
    split; [exact HS|]. split; [apply HP; cbn; auto|]. split; [apply HN2|].
    split; [exact HS|]. split; [apply HE; cbn; auto|]. split; [apply HN|].
    split; [constructor|]. split; [apply HP; cbn; auto|]. split; [apply HN2|].
    split. { constructor; [|constructor]. split; intros H; repeat (destruct H as [H|H]; [discriminate|]); destruct H. }
    split; [apply HE; cbn; auto|]. split; [apply HN|].
    split; [exact HS|]. split; [apply HP; cbn; auto|]. split; [apply HN2|exact I].
  - intros g e H n E. subst e. repeat (destruct H as [H|H]; [discriminate|]). destruct H.
  - discriminate.
  - eexists _, _. split; [vm_compute; reflexivity|]. apply viable_rrun. eexists. vm_compute. reflexivity.
Qed.
