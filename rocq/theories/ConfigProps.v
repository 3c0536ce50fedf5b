(** Properties C01 to C14: configuration scripts and settings.
    Only statements, references to the proofs, assumptions and examples. *)
From Verif Require Import Base ConfigModel LexSpec LexProofs InterpSpec InterpProofs
  RoundTripProofs BlockSpec BlockProofs RecoveryProofs ConfigProofs SettingsModel SettingsProofs.

(** Sample data for the examples: block types "/root", "@Grid", "@Part". *)
Definition ex_types : list str := map str_of ["/root"; "@Grid"; "@Part"]%string.
Definition no_files : filesys := fun _ => None.
Definition ex_text (s : string) : str := str_of s.
Definition nl : string := String cNL EmptyString.

(* ------------------------------------------------------------------ *)
(** C01.  Any layout of the script of a well-formed tree is read back as that tree,
    with the error flag off. *)
Theorem C01_script_round_trip : forall types fs d t l tail,
  NoDup types -> wf_tree types t -> is_root t -> tree_items types t <> [] ->
  layout_ok l -> Forall gap_ok tail -> no_includes l ->
  layout_words l = items_words (tree_items types t) ->
  exists root, from_string types fs (S d) (layout_text l ++ gaps_text tail) = FOk root false /\ erase root = t.
Proof. exact script_round_trip. Qed.
Print Assumptions C01_script_round_trip.

(** Every sequence of non-empty words (without NUL and quotes) has a layout, so the
    theorem applies to every well-formed tree whose texts avoid these two characters. *)
Theorem C01_layout_exists : forall ws,
  (forall w, In w ws -> w <> [] /\ forall c, In c w -> c <> cNUL /\ c <> cQUOTE) ->
  exists l, layout_ok l /\ no_includes l /\ layout_words l = ws.
Proof. exact words_layout. Qed.
Print Assumptions C01_layout_exists.

Definition ex_tree : atree :=
  AT 0 (str_of "<root>") [] [(str_of "a", [str_of "1"; str_of "x y"])]
     [AT 1 (str_of "g") (str_of "lin") [(str_of "n", [str_of "10"])]
         [AT 2 (str_of "p") [] [(str_of "m", [str_of "2"])] []];
      AT 1 (str_of "h") [] [] []].
Example C01_example : from_string ex_types no_files 1
  (ex_text ("a = 1, ""x y""; # note" ++ nl ++ "@Grid g (lin) { n=10; @Part p {m = 2 ;}}@Grid h{}"))
  = FOk (CB 0 (str_of "<root>") [] [mkSet (str_of "a") [str_of "1"; str_of "x y"] false]
           [CB 1 (str_of "g") (str_of "lin") [mkSet (str_of "n") [str_of "10"] false]
              [CB 2 (str_of "p") [] [mkSet (str_of "m") [str_of "2"] false] []];
            CB 1 (str_of "h") [] [] []]) false.
Proof. vm_compute. reflexivity. Qed.
Ltac ex_in H := cbn [In] in H; repeat (destruct H as [H|H]; [try (inversion H; clear H); subst|]); try contradiction.
Ltac ex_plain := split; [discriminate|reflexivity].
Ltac ex_name := split; [ex_plain|vm_compute; intuition discriminate].
Ltac ex_wf := apply wf_AT;
  [ repeat constructor; vm_compute; intuition discriminate
  | intros m vs H; ex_in H; (split; [ex_name|]; split; [discriminate|]; intros v Hv; ex_in Hv; ex_plain)
  | repeat constructor; vm_compute; intuition discriminate
  | intros b H; ex_in H; (split; [vm_compute; lia|]; split; [ex_plain|]; split; [ex_plain|];
      first [left; reflexivity | right; ex_name])
  | repeat (apply Forall_cons; [ex_wf|]); apply Forall_nil ].
Example C01_nonvacuous : NoDup ex_types /\ wf_tree ex_types ex_tree /\ is_root ex_tree /\ tree_items ex_types ex_tree <> [].
Proof.
  split; [repeat constructor; vm_compute; intuition discriminate|]. split; [unfold ex_tree; ex_wf|].
  split; [repeat split|discriminate].
Qed.

(** Two limits of the syntax: a quoted punctuation character is read as punctuation,
    and an empty pair of quotes is not a value. *)
Theorem C01_quoted_punctuation_refuted :
  exists root, from_string ex_types no_files 1 (ex_text "a = "";"" ;") = FOk root true.
Proof. eexists. vm_compute. reflexivity. Qed.
Print Assumptions C01_quoted_punctuation_refuted.
Theorem C01_empty_value_refuted :
  exists root, from_string ex_types no_files 1 (ex_text "a = """" ; b = 1;") = FOk root true.
Proof. eexists. vm_compute. reflexivity. Qed.
Print Assumptions C01_empty_value_refuted.

(* ------------------------------------------------------------------ *)
(** C02.  The tokens read depend only on the words, never on the layout. *)
Theorem C02_layout_insensitive : forall types fs l tail d, layout_ok l -> Forall gap_ok tail -> no_includes l ->
  exists pw, lex types fs (S d) (layout_text l ++ gaps_text tail) =
             LexOk (classify types None (layout_words l) ++ [eof_token]) false false pw.
Proof. exact lex_words. Qed.
Print Assumptions C02_layout_insensitive.

Example C02_example :
  let l : layout := [([GWs cTAB; GComment (str_of " c")], EBare (str_of "a")); ([], EPunct "="%char);
            ([GComma; GWs cNL], EQuoted (str_of "x # ; y")); ([], EPunct ";"%char)] in
  layout_ok l /\ no_includes l /\ layout_words l = map str_of ["a"; "="; "x # ; y"; ";"]%string.
Proof.
  cbv zeta. split; [|split; [|reflexivity]].
  - unfold layout_ok. cbn [layout_ok_from].
    split; [repeat constructor; vm_compute; intuition discriminate|].
    split; [split; [discriminate|]; intros c H; ex_in H; repeat split; discriminate|].
    split; [discriminate|].
    split; [constructor|]. split; [left; reflexivity|]. split; [discriminate|].
    split; [repeat constructor|]. split; [intros c H; vm_compute in H; ex_in H; split; discriminate|]. split; [discriminate|].
    split; [constructor|]. split; [vm_compute; auto 10|]. split; [discriminate|exact I].
  - intros g e H n. ex_in H; discriminate.
Qed.

(* ------------------------------------------------------------------ *)
(** C03.  A comment that runs into the end of the text: its last character is read
    as part of the script ... *)
Theorem C03_comment_eof_leaks : forall types fs l g txt d, layout_ok l -> Forall gap_ok g -> no_includes l ->
  ~ In cNL txt -> ~ In cNUL txt -> txt <> [] ->
  lex types fs (S d) (layout_text l ++ gaps_text g ++ cHASH :: txt) =
  lex types fs (S d) (layout_text l ++ gaps_text g ++ [last txt cHASH]).
Proof. exact lex_comment_eof. Qed.
Print Assumptions C03_comment_eof_leaks.

(** ... and if that character is '#', or the comment is empty, reading never ends:
    no number of iterations is enough. *)
Theorem C03_comment_eof_hangs : forall fuel prevws txt, ~ In cNL txt -> ~ In cNUL txt -> last txt cHASH = cHASH ->
  nextc_fuel fuel false prevws (cHASH :: txt) = NcFuel.
Proof. exact nextc_comment_hang. Qed.
Print Assumptions C03_comment_eof_hangs.

Theorem C03_script_hangs : forall types fs l g txt d, layout_ok l -> Forall gap_ok g -> no_includes l ->
  ~ In cNL txt -> ~ In cNUL txt -> last txt cHASH = cHASH ->
  lex types fs (S d) (layout_text l ++ gaps_text g ++ cHASH :: txt) = LexDiverge.
Proof. exact lex_comment_hang. Qed.
Print Assumptions C03_script_hangs.

(** A user expects a final comment to be ignored; it is not. *)
Theorem C03_final_comment_ignored_refuted :
  exists r1 r2, from_string ex_types no_files 1 (ex_text "a = 1; # bad }") = FOk r1 true /\
                from_string ex_types no_files 1 (ex_text "a = 1; ") = FOk r2 false.
Proof. eexists. eexists. split; vm_compute; reflexivity. Qed.
Print Assumptions C03_final_comment_ignored_refuted.
Example C03_example : lex ex_types no_files 1 (ex_text "a = 1; # done #") = LexDiverge.
Proof. vm_compute. reflexivity. Qed.
Example C03_example_newline : lex ex_types no_files 1 (ex_text ("a = 1; # done #" ++ nl))
  = LexOk [mkTok TName (str_of "a"); mkTok TEquals (str_of "="); mkTok TValue (str_of "1");
           mkTok TEndStatement (str_of ";"); eof_token] false false true.
Proof. vm_compute. reflexivity. Qed.

(* ------------------------------------------------------------------ *)
(** C04.  Reading stops unless the text (or an included file) ends in '#'; a larger
    iteration bound never changes anything; text after a NUL is not looked at. *)
Theorem C04_lexer_total : forall types fs d text, lex types fs (S d) text = LexDiverge ->
  (exists q, text = q ++ [cHASH]) \/
  (exists name content, fs name = Some content /\ lex types fs d content = LexDiverge).
Proof. exact lex_diverges. Qed.
Print Assumptions C04_lexer_total.
Theorem C04_char_bound : forall f i p rest, length rest + 2 <= f -> nextc_fuel f i p rest = nextc i p rest.
Proof. exact nextc_enough. Qed.
Print Assumptions C04_char_bound.
Theorem C04_loop_bound : forall types inc f st buf rt, S (length (lrest st)) <= f ->
  lex_loop types inc f st buf rt = lex_loop types inc (S (length (lrest st))) st buf rt.
Proof. exact lex_loop_enough. Qed.
Print Assumptions C04_loop_bound.
Theorem C04_nul_ends_text : forall types fs d a b1 b2,
  lex types fs d (a ++ cNUL :: b1) = lex types fs d (a ++ cNUL :: b2).
Proof. exact lex_nul. Qed.
Print Assumptions C04_nul_ends_text.
(** The interpreter finishes on every token stream. *)
Theorem C04_interpreter_total : forall types ts, interpret types ts <> IFuel.
Proof. exact interpret_total. Qed.
Print Assumptions C04_interpreter_total.
Example C04_example : lex ex_types no_files 1 (ex_text "{{{ ""open # string") =
  LexOk [mkTok TBlockStart (str_of "{"); mkTok TBlockStart (str_of "{"); mkTok TBlockStart (str_of "{");
         mkTok TName (str_of "open # string"); eof_token] true false false.
Proof. vm_compute. reflexivity. Qed.

(* ------------------------------------------------------------------ *)
(** C05.  The error flag stays off exactly for derivable token streams, and then the
    tree is the meaning of the derivation. *)
Theorem C05_error_flag : forall types ts v, no_eof ts -> ts <> [] ->
  (forall r, interpret types (ts ++ [mkTok TEOF v]) = IOk r false ->
     exists items, Derives ts items /\ erase r = meaning types items) /\
  (forall items, Derives ts items -> exists r, interpret types (ts ++ [mkTok TEOF v]) = IOk r false /\
     erase r = meaning types items).
Proof. exact interpret_meaning. Qed.
Print Assumptions C05_error_flag.
Theorem C05_from_string : forall types fs d l tail, layout_ok l -> Forall gap_ok tail -> no_includes l ->
  layout_words l <> [] ->
  (forall r, from_string types fs (S d) (layout_text l ++ gaps_text tail) = FOk r false ->
     exists items, Derives (classify types None (layout_words l)) items /\ erase r = meaning types items) /\
  (forall items, Derives (classify types None (layout_words l)) items ->
     exists r, from_string types fs (S d) (layout_text l ++ gaps_text tail) = FOk r false /\ erase r = meaning types items).
Proof. exact from_string_meaning. Qed.
Print Assumptions C05_from_string.
Example C05_example_ok : exists items, Derives (classify ex_types None (map str_of
   ["a"; "="; "1"; "2"; ";"; "@Grid"; "g"; "("; "s"; ")"; "{"; "a"; "="; "3"; ";"; "}"]%string)) items
   /\ items = [ISet (str_of "a") [str_of "1"; str_of "2"]; IBlk (str_of "@Grid") (str_of "g") (str_of "s") [ISet (str_of "a") [str_of "3"]]].
Proof.
  eexists. split; [|reflexivity].
  apply (D_set (str_of "a") (str_of "=") (str_of "1") [str_of "2"] (str_of ";")).
  apply (D_blk (str_of "@Grid") (str_of "g") [mkTok TLPar (str_of "("); mkTok TName (str_of "s"); mkTok TRPar (str_of ")")]
     (str_of "s") (str_of "{") (str_of "}") [mkTok TName (str_of "a"); mkTok TEquals (str_of "="); mkTok TValue (str_of "3"); mkTok TEndStatement (str_of ";")]
     [ISet (str_of "a") [str_of "3"]] [] []).
  - constructor.
  - apply (D_set (str_of "a") (str_of "=") (str_of "3") [] (str_of ";")). constructor.
  - constructor.
Qed.
Example C05_example_bad : exists r, from_string ex_types no_files 1 (ex_text "a 1; b = 2;") = FOk r true.
Proof. eexists. vm_compute. reflexivity. Qed.

(* ------------------------------------------------------------------ *)
(** C06.  Recovery stays inside the stream whenever the last token before the end
    is ';', '{' or '}', whatever errors there are before it. *)
Theorem C06_recovery_in_stream : forall types body t v, no_eof (body ++ [t]) ->
  ttyp t = TEndStatement \/ ttyp t = TBlockStart \/ ttyp t = TBlockEnd ->
  interpret types (body ++ [t; mkTok TEOF v]) <> IUB.
Proof. exact recovery_in_stream. Qed.
Print Assumptions C06_recovery_in_stream.
(** It leaves the stream for the empty configuration and after any valid script
    that is followed by a lone name. *)
Theorem C06_empty_refuted : from_string ex_types no_files 1 [] = FUB.
Proof. vm_compute. reflexivity. Qed.
Print Assumptions C06_empty_refuted.
Theorem C06_trailing_name_refuted : forall types ts items n v, Derives ts items ->
  interpret types (ts ++ [mkTok TName n; mkTok TEOF v]) = IUB.
Proof. exact interp_ub_name. Qed.
Print Assumptions C06_trailing_name_refuted.
Example C06_example : exists r, from_string ex_types no_files 1 (ex_text "= = ; a = } b = 2 ; c }") = FOk r true.
Proof. eexists. vm_compute. reflexivity. Qed.

(* ------------------------------------------------------------------ *)
(** C07.  After any history of operations on a block: names and keys are the distinct
    ones in order of first use, values are those of the last definition, the
    secondary type of a sub-block is that of its first definition. *)
Theorem C07_unique_last_wins : forall ty bn sec ops,
  let b := run_block ty bn sec ops in
  map sname (cb_sets b) = first_occ str_dec (set_names ops) /\
  (forall x, In x (cb_sets b) -> values_of (sname x) ops <> [] /\ svals x = last (values_of (sname x) ops) []) /\
  map (fun c => (cb_type c, cb_name c)) (cb_subs b) = first_occ key_dec (sub_keys ops) /\
  (forall c, In c (cb_subs b) -> secs_of (cb_type c) (cb_name c) ops <> [] /\
     cb_sec c = hd [] (secs_of (cb_type c) (cb_name c) ops) /\ cb_sets c = [] /\ cb_subs c = []) /\
  NoDup (map sname (cb_sets b)) /\ NoDup (map (fun c => (cb_type c, cb_name c)) (cb_subs b)).
Proof.
  exact (fun ty bn sec ops => conj (run_set_names ty bn sec ops) (conj (run_values ty bn sec ops)
    (conj (run_sub_keys ty bn sec ops) (conj (run_sub_sec ty bn sec ops)
    (conj (run_names_NoDup ty bn sec ops)
     (eq_ind_r (fun l => NoDup l) (first_occ_NoDup _ key_dec (sub_keys ops)) (run_sub_keys ty bn sec ops))))))).
Qed.
Print Assumptions C07_unique_last_wins.
(** Everything FromString returns, with or without errors, is unique at every level. *)
Theorem C07_parsed_unique : forall types fs d text r e, from_string types fs d text = FOk r e -> uniq r.
Proof. exact from_string_uniq. Qed.
Print Assumptions C07_parsed_unique.
(** GetSecondaryType of a sub-block: the text of its first definition, or its name if that
    definition had none. *)
Theorem C07_secondary_type : forall ty bn sec ops c, In c (cb_subs (run_block ty bn sec ops)) ->
  (hd [] (secs_of (cb_type c) (cb_name c) ops) = [] -> get_secondary_type c = cb_name c) /\
  (hd [] (secs_of (cb_type c) (cb_name c) ops) <> [] -> get_secondary_type c = hd [] (secs_of (cb_type c) (cb_name c) ops)).
Proof.
  intros ty bn sec ops c H. destruct (run_sub_sec ty bn sec ops c H) as (_ & E & _).
  rewrite <- E. unfold get_secondary_type. destruct (cb_sec c); split; intro X; [reflexivity|contradiction|discriminate|reflexivity].
Qed.
Print Assumptions C07_secondary_type.
Example C07_example :
  cb_sets (run_block 0 [] [] [OpSet (str_of "a") [str_of "1"]; OpSet (str_of "b") [str_of "2"]; OpSet (str_of "a") [str_of "3"]])
  = [mkSet (str_of "a") [str_of "3"] true; mkSet (str_of "b") [str_of "2"] false].
Proof. vm_compute. reflexivity. Qed.

(* ------------------------------------------------------------------ *)
(** C08.  A setting is reported as untouched exactly when it was defined once and not
    retrieved after that. *)
Theorem C08_untouched_report : forall ty bn sec ops n,
  (exists x, In x (get_untouched (cb_sets (run_block ty bn sec ops))) /\ sname x = n) <->
  (exists pre v post, ops = pre ++ OpSet n v :: post /\
     (forall w, ~ In (OpSet n w) pre) /\ (forall w, ~ In (OpSet n w) post) /\ ~ In (OpGet n) post).
Proof. exact untouched_report. Qed.
Print Assumptions C08_untouched_report.
Theorem C08_has_untouched : forall sets, has_untouched sets = true <-> get_untouched sets <> [].
Proof. exact has_untouched_spec. Qed.
Print Assumptions C08_has_untouched.
(** "Never retrieved implies reported" fails for settings defined twice. *)
Theorem C08_redefined_refuted : exists ops n, In n (set_names ops) /\ ~ In (OpGet n) ops /\
  forall x, In x (get_untouched (cb_sets (run_block 0 [] [] ops))) -> sname x <> n.
Proof.
  exists [OpSet (str_of "a") [str_of "1"]; OpSet (str_of "a") [str_of "2"]], (str_of "a").
  split; [left; reflexivity|]. split; [intros [H|[H|[]]]; discriminate|]. intros x H. vm_compute in H. contradiction.
Qed.
Print Assumptions C08_redefined_refuted.
Example C08_example : map sname (get_untouched (cb_sets (run_block 0 [] []
  [OpSet (str_of "a") []; OpSet (str_of "b") []; OpGet (str_of "a"); OpGet (str_of "c")]))) = [str_of "b"].
Proof. vm_compute. reflexivity. Qed.

(* ------------------------------------------------------------------ *)
(** C09.  Merging [b] into [this], for blocks with unique contents (all that can be
    built, see C07_parsed_unique), looked at by path and name. *)
Theorem C09_merge_values : forall p b this allow n, uniq b ->
  setting_at p n (fst (merge b this allow)) =
  match setting_at p n b, setting_at p n this with
  | Some v, Some _ => Some v
  | Some v, None => if allow then Some v else None
  | None, m => m
  end.
Proof. exact merge_setting_at. Qed.
Print Assumptions C09_merge_values.
Theorem C09_merge_unknown : forall b this x, uniq b ->
  (In x (snd (merge b this false)) <->
   exists p b' this', block_at p b = Some b' /\ block_at p this = Some this' /\
     ((In x (map sname (cb_sets b')) /\ ~ In x (map sname (cb_sets this'))) \/
      (exists ty, In (ty, x) (map (fun c => (cb_type c, cb_name c)) (cb_subs b')) /\
                  ~ In (ty, x) (map (fun c => (cb_type c, cb_name c)) (cb_subs this'))))).
Proof. exact merge_unknown_In. Qed.
Print Assumptions C09_merge_unknown.
Theorem C09_merge_allowed : forall b this, uniq b -> snd (merge b this true) = [].
Proof. exact merge_unknown_allowed. Qed.
Print Assumptions C09_merge_allowed.
Theorem C09_merge_unique : forall b this allow, uniq b -> uniq this -> uniq (fst (merge b this allow)).
Proof. exact merge_uniq. Qed.
Print Assumptions C09_merge_unique.
Definition ex_blk (n : string) s sub := CB 1 (str_of n) [] s sub.
Definition ex_set (n v : string) := mkSet (str_of n) [str_of v] false.
Example C09_example :
  let this := CB 0 [] [] [ex_set "a" "1"; ex_set "b" "2"] [ex_blk "g" [ex_set "x" "3"] []] in
  let b := CB 0 [] [] [ex_set "a" "9"; ex_set "c" "8"] [ex_blk "g" [ex_set "y" "7"; ex_set "x" "6"] []; ex_blk "h" [ex_set "z" "5"] []] in
  uniq b /\ snd (merge b this false) = map str_of ["c"; "y"; "h"]%string /\
  fst (merge b this false) = CB 0 [] [] [ex_set "a" "9"; ex_set "b" "2"] [ex_blk "g" [ex_set "x" "6"] []].
Proof.
  cbv zeta. split; [|split; vm_compute; reflexivity].
  repeat constructor; vm_compute; intuition discriminate.
Qed.

(* ------------------------------------------------------------------ *)
(** C10.  Block types registered in any order, with failed attempts in between. *)
Theorem C10_registry : forall names,
  let types := reg_all initial_types names in
  NoDup types /\ types = first_occ str_dec (str_of "/root" :: names) /\
  (forall n, In n types <-> n = str_of "/root" \/ In n names) /\
  (forall n, In n types -> register_block_type types n = Throw) /\
  (forall n, ~ In n types -> register_block_type types n = Ok (types ++ [n], length types) /\
     forall later, string_to_block_type (reg_all (types ++ [n]) later) n = length types) /\
  (forall n, ~ In n types -> string_to_block_type types n = 0) /\
  (forall later n, In n types ->
     string_to_block_type (reg_all types later) n = string_to_block_type types n).
Proof. exact registry_history. Qed.
Print Assumptions C10_registry.
Example C10_example :
  reg_all initial_types (map str_of ["@A"; "@B"; "@A"; "@C"]%string) = map str_of ["/root"; "@A"; "@B"; "@C"]%string
  /\ string_to_block_type (map str_of ["/root"; "@A"; "@B"; "@C"]%string) (str_of "@C") = 3.
Proof. split; vm_compute; reflexivity. Qed.

(* ------------------------------------------------------------------ *)
(** C11.  Boolean settings. *)
Theorem C11_is_bool : forall vals, script_is_bool vals = Ok true <->
  exists v, vals = [v] /\
    (In v (map str_of ["yes"; "Yes"; "YES"; "true"; "True"; "TRUE"]%string) \/
     In v (map str_of ["no"; "No"; "NO"; "false"; "False"; "FALSE"]%string)).
Proof. exact is_bool_spec. Qed.
Print Assumptions C11_is_bool.
Theorem C11_is_bool_never_throws : forall vals, exists b, script_is_bool vals = Ok b.
Proof. exact is_bool_total. Qed.
Print Assumptions C11_is_bool_never_throws.
Theorem C11_get_bool : forall v,
  (string_to_bool v = Ok true <-> In v (map str_of ["yes"; "Yes"; "YES"; "true"; "True"; "TRUE"]%string)) /\
  (string_to_bool v = Ok false <-> In v (map str_of ["no"; "No"; "NO"; "false"; "False"; "FALSE"]%string)) /\
  (string_to_bool v = Throw <->
     ~ In v (map str_of ["yes"; "Yes"; "YES"; "true"; "True"; "TRUE"]%string) /\
     ~ In v (map str_of ["no"; "No"; "NO"; "false"; "False"; "FALSE"]%string)).
Proof. exact (fun v => conj (string_to_bool_true v) (conj (string_to_bool_false v) (string_to_bool_throw v))). Qed.
Print Assumptions C11_get_bool.
Example C11_example : script_is_bool [str_of "No"] = Ok true /\ script_get_bool [str_of "No"] 0 = Ok false
  /\ script_is_bool [str_of "nO"] = Ok false /\ script_get_bool [str_of "nO"] 0 = Throw.
Proof. repeat split; vm_compute; reflexivity. Qed.

(* ------------------------------------------------------------------ *)
(** C12.  Integer settings; [numeral s neg m] says that the whole text is white space,
    sign and digits of value [m]. *)
Open Scope Z_scope.
Theorem C12_is_int32 : forall s, is_int32 [s] = Ok true <->
  exists neg m, numeral s neg m /\ - 2 ^ 31 <= signed neg m < 2 ^ 31.
Proof.
  exact (fun s => iff_trans (conj (fun H : Ok (whole (sto_signed 32 s)) = Ok true => match H in _ = o return match o with Ok b => whole (sto_signed 32 s) = b | _ => True end with eq_refl => eq_refl end)
     (fun H => f_equal Ok H)) (whole_signed 32 s)).
Qed.
Print Assumptions C12_is_int32.
Theorem C12_is_int64 : forall s, is_int64 [s] = Ok true <->
  exists neg m, numeral s neg m /\ - 2 ^ 63 <= signed neg m < 2 ^ 63.
Proof.
  exact (fun s => iff_trans (conj (fun H : Ok (whole (sto_signed 64 s)) = Ok true => match H in _ = o return match o with Ok b => whole (sto_signed 64 s) = b | _ => True end with eq_refl => eq_refl end)
     (fun H => f_equal Ok H)) (whole_signed 64 s)).
Qed.
Print Assumptions C12_is_int64.
Theorem C12_get_signed : forall s neg m, numeral s neg m ->
  (- 2 ^ 31 <= signed neg m < 2 ^ 31 -> get_int32 [s] 0%nat = Ok (signed neg m)) /\
  (- 2 ^ 63 <= signed neg m < 2 ^ 63 -> get_int64 [s] 0%nat = Ok (signed neg m)) /\
  (~ (- 2 ^ 31 <= signed neg m < 2 ^ 31) -> get_int32 [s] 0%nat = Throw) /\
  (~ (- 2 ^ 63 <= signed neg m < 2 ^ 63) -> get_int64 [s] 0%nat = Throw).
Proof. exact get_signed_spec. Qed.
Print Assumptions C12_get_signed.
(** Unsigned 64-bit values are reduced modulo 2^64 (a minus sign is accepted), and the
    32-bit variant accepts the same texts and reduces modulo 2^32. *)
Theorem C12_is_unsigned : forall s,
  (is_uint64 [s] = Ok true <-> exists neg m, numeral s neg m /\ m < 2 ^ 64) /\ is_uint32 [s] = is_uint64 [s].
Proof. exact is_unsigned_spec. Qed.
Print Assumptions C12_is_unsigned.
Theorem C12_get_unsigned : forall s neg m, numeral s neg m -> m < 2 ^ 64 ->
  get_uint64 [s] 0%nat = Ok (signed neg m mod 2 ^ 64) /\ get_uint32 [s] 0%nat = Ok (signed neg m mod 2 ^ 32).
Proof. exact get_unsigned_spec. Qed.
Print Assumptions C12_get_unsigned.
(** Every integer has a text, so none of this is vacuous. *)
Theorem C12_every_integer_has_a_text : forall z, exists s, numeral s (z <? 0) (Z.abs z).
Proof. exact numeral_exists. Qed.
Print Assumptions C12_every_integer_has_a_text.
(** IsUnsignedInteger32 does not mean "fits in 32 bits". *)
Theorem C12_uint32_refuted : is_uint32 [str_of "4294967297"] = Ok true /\ get_uint32 [str_of "4294967297"] 0%nat = Ok 1
  /\ is_uint32 [str_of "-1"] = Ok true /\ get_uint32 [str_of "-1"] 0%nat = Ok 4294967295.
Proof. repeat split; vm_compute; reflexivity. Qed.
Print Assumptions C12_uint32_refuted.
Example C12_example : is_int32 [str_of "-2147483648"] = Ok true /\ get_int32 [str_of "-2147483648"] 0%nat = Ok (-2147483648)
  /\ is_int32 [str_of "2147483648"] = Ok false /\ is_int32 [str_of "12x"] = Ok false /\ get_int32 [str_of "12x"] 0%nat = Ok 12
  /\ is_int32 [str_of ""] = Ok false.
Proof. repeat split; vm_compute; reflexivity. Qed.
Close Scope Z_scope.

(* ------------------------------------------------------------------ *)
(** C13.  The numeric vector of an SFile-backed setting has twice as many entries as
    the setting: zeros first, then the values in order. *)
Theorem C13_numeric_vector_doubled : forall d v, sf_numeric_vector d = Ok v ->
  length v = 2 * sf_count d /\ firstn (sf_count d) v = repeat (QArith_base.inject_Z 0) (sf_count d) /\
  (forall i, i < sf_count d -> exists q, nth_error v (sf_count d + i) = Some q /\ sf_get_scalar d i = Ok q).
Proof. exact sf_numeric_vector_doubled. Qed.
Print Assumptions C13_numeric_vector_doubled.
Theorem C13_length_refuted : exists d v, sf_numeric_vector d = Ok v /\ length v <> sf_count d.
Proof. exists (SI32 [5%Z; 7%Z]). eexists. split; [vm_compute; reflexivity|]. vm_compute. discriminate. Qed.
Print Assumptions C13_length_refuted.
(** Overwriting an SFile-backed setting doubles as well; texts are all replaced by the first. *)
Theorem C13_overwrite_doubled : forall s d, sf_overwrite s = Ok d -> sf_count d = 2 * sf_count s.
Proof. exact sf_overwrite_doubled. Qed.
Print Assumptions C13_overwrite_doubled.
Theorem C13_overwrite_text : forall l d, sf_overwrite (SStr l) = Ok d ->
  exists t, d = SStr t /\ forall i, i < length l ->
    nth_error t i = Some [] /\ nth_error t (length l + i) = nth_error l 0.
Proof. exact sf_overwrite_text. Qed.
Print Assumptions C13_overwrite_text.
Example C13_example : sf_numeric_vector (SI32 [5%Z; 7%Z]) = Ok (map QArith_base.inject_Z [0%Z; 0%Z; 5%Z; 7%Z])
  /\ sf_overwrite (SStr [str_of "a"; str_of "b"]) = Ok (SStr (map str_of [""; ""; "a"; "a"]%string)).
Proof. split; vm_compute; reflexivity. Qed.

(* ------------------------------------------------------------------ *)
(** C14.  Includes: the tokens of the file are spliced in (relation [reads]), for any
    depth; [d0] is the nesting depth needed. *)
Theorem C14_include_splices : forall types fs l tail out, layout_ok l -> Forall gap_ok tail ->
  reads types fs l [] out ->
  exists d0, (no_includes l -> d0 = 0) /\ forall d, d0 <= d -> exists pw,
    lex types fs (S d) (layout_text l ++ gaps_text tail) = LexOk (out ++ [eof_token]) false false pw.
Proof. exact lex_reads. Qed.
Print Assumptions C14_include_splices.
Theorem C14_missing_file_throws : forall types fs l g name rest out d0, layout_ok l -> Forall gap_ok g ->
  reads types fs l [] out ->
  (forall c, In c name -> c <> cNUL /\ c <> ">"%char /\ c <> cHASH /\ ~ ws_char c) ->
  fs name = None ->
  exists d, d0 <= d /\
  lex types fs (S d) (layout_text l ++ gaps_text g ++ "<"%char :: name ++ ">"%char :: rest) = LexThrow.
Proof. exact include_missing. Qed.
Print Assumptions C14_missing_file_throws.
(** A file that includes itself is never read to the end, whatever the depth. *)
Theorem C14_self_include_refuted : forall types fs name d rest,
  (forall c, In c name -> c <> cNUL /\ c <> ">"%char /\ c <> cHASH /\ ~ ws_char c) ->
  fs name = Some ("<"%char :: name ++ ">"%char :: rest) ->
  lex types fs d ("<"%char :: name ++ ">"%char :: rest) = LexDiverge.
Proof. exact include_self_diverges. Qed.
Print Assumptions C14_self_include_refuted.
(** A file that leaves a string open changes how the including text is read. *)
Theorem C14_open_string_refuted : exists fs, from_string ex_types fs 2 (ex_text "<f> a = 1;") = FOk root_block true.
Proof.
  exists (fun n => if str_eqb n (str_of "f") then Some (str_of """x") else None). vm_compute. reflexivity.
Qed.
Print Assumptions C14_open_string_refuted.
Example C14_example :
  let fs : filesys := fun n => if str_eqb n (str_of "f") then Some (str_of "b = 2; <g>")
                    else if str_eqb n (str_of "g") then Some (str_of "c = 3;") else None in
  from_string ex_types fs 3 (ex_text "a = 1; <f> d = 4;") =
  FOk (CB 0 (str_of "<root>") [] [mkSet (str_of "a") [str_of "1"] false; mkSet (str_of "b") [str_of "2"] false;
        mkSet (str_of "c") [str_of "3"] false; mkSet (str_of "d") [str_of "4"] false] []) false.
Proof. vm_compute. reflexivity. Qed.

(* ------------------------------------------------------------------ *)
(** C69.  Tokens at which no statement can start (stray '=', ';', values, '{', ...), between
    statements at any depth or right after a setting's name, are skipped: every statement
    around them takes effect as if they were not there, and the error flag is set. *)
Theorem C69_errors_contained : forall types ts items e v, Recovers ts items e -> ts <> [] ->
  exists r, interpret types (ts ++ [mkTok TEOF v]) = IOk r e /\ erase r = meaning types items.
Proof. exact interpret_recovers. Qed.
Print Assumptions C69_errors_contained.
Theorem C69_error_free : forall ts items, Derives ts items -> Recovers ts items false.
Proof. exact derives_recovers. Qed.
Print Assumptions C69_error_free.
(** A missing ';' is not contained: the setting is stored but the next one is lost. *)
Theorem C69_missing_semicolon_refuted : forall types n e v vs n2 e2 v2 s2 vE,
  exists r, interpret types ((mkTok TName n :: mkTok TEquals e :: map (mkTok TValue) (v :: vs)) ++
     [mkTok TName n2; mkTok TEquals e2; mkTok TValue v2; mkTok TEndStatement s2; mkTok TEOF vE]) = IOk r true /\
  erase r = meaning types [ISet n (v :: vs)].
Proof. exact missing_semicolon. Qed.
Print Assumptions C69_missing_semicolon_refuted.
Example C69_example : exists r, from_string ex_types no_files 1 (ex_text "= = ; @Grid g { x = 1; ; { } ; y ; z = 2 ; ") = FOk r true /\
  exists r', from_string ex_types no_files 1 (ex_text "a = 1 b = 2 ; c = 3 ;") = FOk r' true /\
  map sname (cb_sets r') = map str_of ["a"; "c"]%string /\ map sname (cb_sets r) = map str_of ["z"]%string.
Proof. eexists. split; [vm_compute; reflexivity|]. eexists. split; [vm_compute; reflexivity|]. vm_compute. split; reflexivity. Qed.

(* ------------------------------------------------------------------ *)
(** C70.  A copy of a block answers every question like the original, at every depth, except
    that all its settings count as unused. *)
Theorem C70_copy : forall b, looks_like b (copy_block b).
Proof. exact copy_looks_like. Qed.
Print Assumptions C70_copy.
Theorem C70_copy_unused : forall b, get_untouched (cb_sets (copy_block b)) = cb_sets (copy_block b) /\
  map (fun s => (sname s, svals s)) (cb_sets (copy_block b)) = map (fun s => (sname s, svals s)) (cb_sets b).
Proof.
  intros [t n s sets subs]. cbn [copy_block cb_sets]. split.
  - induction sets as [|x l IH]; [reflexivity|]. cbn [map get_untouched filter copy_setting stouched negb]. f_equal. exact IH.
  - rewrite map_map. reflexivity.
Qed.
Print Assumptions C70_copy_unused.
Example C70_example : let b := CB 1 (str_of "g") [] [mkSet (str_of "a") [str_of "1"] true] [] in
  copy_block b = CB 1 (str_of "g") (str_of "g") [mkSet (str_of "a") [str_of "1"] false] [].
Proof. vm_compute. reflexivity. Qed.
