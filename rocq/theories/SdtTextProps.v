(** Property C114: SDT files that were not written by softlib.
    Only statements, references to the proofs, assumptions and examples.

    [rnd] is the rounding of a decimal number to a double (None: out of range); it is a
    function of the number, not of the way it is written as a fraction.  [mem] is the
    largest number of elements that can be allocated. *)
From Verif Require Import Base SettingsModel SettingsProofs SdtModel NumText DoubleText SdtSpec SdtProofs SdtReadProofs
  SdtUseProofs SdtTextSpec SdtTextProofs.
From Coq Require Import ZArith QArith.
Local Open Scope Z_scope.

(** Opening a text succeeds exactly if it is a sequence of definitions in the SDT language. *)
Theorem C114_language : forall rnd mem, (forall p q, (p == q)%Q -> rnd p = rnd q) -> mem < 2 ^ 64 -> forall text,
  (exists r, opens rnd mem text r) <-> exists lines ds, lines_are text lines /\ sdt_lines rnd mem lines ds [].
Proof. exact text_language. Qed.
Print Assumptions C114_language.

(** Every variable then has the value of its first definition in the text. *)
Theorem C114_values : forall rnd mem, (forall p q, (p == q)%Q -> rnd p = rnd q) -> mem < 2 ^ 64 -> forall text lines ds r,
  lines_are text lines -> sdt_lines rnd mem lines ds [] -> opens rnd mem text r -> forall n,
    result r (RDoubles n) = match matrix_of n ds with Some (c, rows) => Ok (VMat (Z.of_nat (length rows)) c rows) | None => Throw end /\
    result r (RString n) = match string_of n ds with Some v => Ok (VStr v) | None => Throw end /\
    (exists b, result r (RHas n) = Ok (VBool b) /\ (b = true <-> matrix_of n ds <> None \/ string_of n ds <> None)).
Proof. exact text_values. Qed.
Print Assumptions C114_values.

(** The newline at the end of the last line makes no difference. *)
Theorem C114_final_newline : forall rnd mem text last, text <> [] -> last <> newline -> (exists t, text = t ++ [last]) ->
  load rnd mem (text ++ [newline]) = load rnd mem text.
Proof. exact text_final_newline. Qed.
Print Assumptions C114_final_newline.

(** Neither do carriage returns at the ends of the lines that are not empty. *)
Theorem C114_carriage_returns : forall rnd mem, (forall p q, (p == q)%Q -> rnd p = rnd q) -> mem < 2 ^ 64 ->
  forall text text' lines r, lines_are text lines ->
  lines_are text' (map (fun l => match l with [] => [] | _ => l ++ [ascii_of_nat 13] end) lines) ->
  opens rnd mem text r -> opens rnd mem text' r.
Proof. exact text_cr. Qed.
Print Assumptions C114_carriage_returns.

(** A line of white space between definitions is not taken for an empty line: the file is
    refused.  So is the empty line of a file with carriage returns. *)
Theorem C114_white_line_refuted : forall rnd mem, (forall p q, (p == q)%Q -> rnd p = rnd q) -> mem < 2 ^ 64 ->
  forall text lines ds l rest, lines_are text lines -> sdt_lines rnd mem lines ds (l :: rest) ->
  l <> [] -> (forall c, In c l -> white c) -> load rnd mem text = Some Throw.
Proof. exact text_white_line. Qed.
Print Assumptions C114_white_line_refuted.

(** * A case that meets the hypotheses *)
Definition reduced : Q -> option Q := fun q => Some (Qred q).
Lemma reduced_respects : forall p q, (p == q)%Q -> reduced p = reduced q.
Proof. intros p q H. unfold reduced. rewrite (Qred_complete p q H). reflexivity. Qed.
Definition ex_lines : list str := map str_of
  ["  @matrix	B 2 3 columns: r, z, phi"; "1 -2.5e0 +.5"; "  4E2	7.  0.125 and so on"; ""; "@string name 0"; "72 105 -223 x 33"; "@matrix B 1 0"]%string.
Definition ex_text : str := flat_map (fun l => l ++ [newline]) (firstn 6 ex_lines) ++ str_of "@matrix B 1 0".
Definition ex_defs : list sdt_def :=
  [SMat (str_of "B") 3 [[1; -5 # 2; 1 # 2]; [400; 7; 1 # 8]]%Q; SStr (str_of "name") (str_of "Hi!"); SMat (str_of "B") 0 [[]]].
Example C114_example : lines_are ex_text ex_lines /\ sdt_lines reduced 1000 ex_lines ex_defs [] /\
  exists r, opens reduced 1000 ex_text r /\ result r (RDoubles (str_of "B")) = Ok (VMat 2 3 [[1; -5 # 2; 1 # 2]; [400; 7; 1 # 8]]%Q) /\
    result r (RString (str_of "name")) = Ok (VStr (str_of "Hi!")).
Proof.
  assert (O : load reduced 1000 ex_text = Some (Ok (puts ex_defs (Store [] [])))) by (vm_compute; reflexivity).
  split; [exact (lines_of_are ex_text)|]. split.
  - unfold ex_lines, ex_defs. cbn [map].
    apply (sl_matrix reduced 1000 _ (str_of "B") 2 3 _ _ (map str_of [""; "@string name 0"; "72 105 -223 x 33"; "@matrix B 1 0"]%string)); [|lia|lia| |reflexivity|].
    + apply declares_iff. do 4 eexists. repeat (split; [vm_compute; reflexivity|]). vm_compute. reflexivity.
    + refine (proj1 (load_rows_ok reduced 2 3 6 0 _ _ _ _)). vm_compute. reflexivity.
    + cbn [map]. change (str_of "") with (@nil ascii). apply sl_blank. apply sl_string.
      * do 4 eexists. split; [apply get_word_iff; vm_compute; reflexivity|].
        split; [apply get_word_iff; vm_compute; reflexivity|apply get_u64_iff; vm_compute; reflexivity].
      * exact (load_chars_ok (length (str_of "72 105 -223 x 33")) (str_of "72 105 -223 x 33") (le_n _)).
      * apply (sl_matrix reduced 1000 _ (str_of "B") 1 0 [] [[]] []); [|lia|lia| |reflexivity|constructor].
        -- apply declares_iff. do 4 eexists. repeat (split; [vm_compute; reflexivity|]). vm_compute. reflexivity.
        -- apply rows_missing; [reflexivity|constructor].
  - exists (open_store (puts ex_defs (Store [] []))). split; [eexists; split; [exact O|reflexivity]|]. split; vm_compute; reflexivity.
Qed.
(** With carriage returns before all newlines, a file written by softlib is refused. *)
Example C114_white_example :
  load reduced 1000 (flat_map (fun c => if Ascii.eqb c newline then [ascii_of_nat 13; c] else [c])
    (write_file [WScalar (str_of "a") (NInt 1); WScalar (str_of "b") (NInt 2)])) = Some Throw /\
  sdt_lines reduced 1000 (map str_of ["@matrix a 1 1"; "1"; " "]%string) [SMat (str_of "a") 1 [[1%Q]]] [str_of " "].
Proof.
  split; [vm_compute; reflexivity|]. cbn [map].
  apply (sl_matrix reduced 1000 _ (str_of "a") 1 1 _ _ [str_of " "]); [|lia|lia| |reflexivity|constructor].
  - apply declares_iff. do 4 eexists. repeat (split; [vm_compute; reflexivity|]). vm_compute. reflexivity.
  - refine (proj1 (load_rows_ok reduced 1 1 1 0 _ _ _ _)). vm_compute. reflexivity.
Qed.
