(** Specification vocabulary for positions in configuration scripts. *)
From Verif Require Import Base ConfigModel LexSpec InterpSpec PosModel.

(** Where an editor shows the character that follows the text [t]: line numbers and
    columns start at 1. *)
Definition line_after (t : str) : nat := S (count_occ ascii_dec t cNL).
Fixpoint upto_nl (t : str) : str :=
  match t with
  | [] => []
  | c :: r => if ascii_dec c cNL then [] else c :: upto_nl r
  end.
Definition col_after (t : str) : nat := S (length (upto_nl (rev t))).

(** The text of an element as far as line counting sees it: the newlines inside a
    quoted text count as ordinary characters. *)
Definition flat_char (c : ascii) : ascii := if ascii_dec c cNL then cSP else c.
Definition flat_text (e : elem) : str := map flat_char (elem_text e).
Definition flat_layout (l : layout) : str :=
  flat_map (fun p => gaps_text (fst p) ++ flat_text (snd p)) l.

(** What ends a word without quotes: the gap that follows it (a whole comment, with its
    newline), else the first character of the element that follows it. *)
Definition ender (l : layout) (tail : list gap) : str :=
  match l with
  | [] => match tail with [] => [] | g :: _ => gap_text g end
  | (g :: _, _) :: _ => gap_text g
  | ([], e) :: _ => firstn 1 (elem_text e)
  end.

(** The text up to which an element has been read when its token is made. *)
Definition token_end (e : elem) (l : layout) (tail : list gap) : str :=
  if is_bare e then flat_text e ++ ender l tail else flat_text e.

Definition erase_toks (l : list ptok) : list token := map pt l.

Definition place (src t : str) (k : token) : ptok := mkP k (line_after t) (col_after t) src.

(** Reading a layout with positions: [pre] is the text before it.  The tokens of an
    included file have the positions they have in that file. *)
Inductive preads (types : list str) (fs : filesys) (src : str) :
  str -> layout -> list gap -> list ptok -> list ptok -> Prop :=
| preads_nil : forall pre tail acc, preads types fs src pre [] tail acc acc
| preads_word : forall pre g e l tail acc out,
    (forall n, e <> EInclude n) ->
    preads types fs src (pre ++ gaps_text g ++ flat_text e) l tail
      (acc ++ map (place src (pre ++ gaps_text g ++ token_end e l tail))
                  (classify types (last_kind (erase_toks acc)) (elem_word e))) out ->
    preads types fs src pre ((g, e) :: l) tail acc out
| preads_include : forall pre g name l tail acc out fl ftail fout,
    fs name = Some (layout_text fl ++ gaps_text ftail) ->
    layout_ok fl -> Forall gap_ok ftail ->
    preads types fs src [] fl ftail [] fout ->
    preads types fs src (pre ++ gaps_text g ++ flat_text (EInclude name)) l tail (acc ++ fout) out ->
    preads types fs src pre ((g, EInclude name) :: l) tail acc out.

(** A sequence of tokens with which some valid script begins. *)
Definition viable (ts : list token) : Prop := exists rest items, Derives (ts ++ rest) items.

(** A complete valid script. *)
Definition valid (ts : list token) : Prop := exists items, Derives ts items.

(** A message is about a token: it carries the position of the token, and says what it
    found there. *)
Definition about (r : report) (t : ptok) : Prop :=
  rline r = pline t /\ rcol r = pcol t /\ rfile r = psrc t /\
  match rwhat r with
  | Expected w g => g = ttyp (pt t)
  | BadStart g => g = ttyp (pt t)
  | Mismatched => ttyp (pt t) = TBlockEnd
  end.

(** Whether the line ends right after an element (a comment runs to the end of its line). *)
Definition newline_follows (l : layout) (tail : list gap) : bool :=
  match l with
  | [] => match tail with GWs c :: _ => Ascii.eqb c cNL | GComment _ :: _ => true | _ => false end
  | (GWs c :: _, _) :: _ => Ascii.eqb c cNL
  | (GComment _ :: _, _) :: _ => true
  | _ => false
  end.

(** The number of newlines inside quotes. *)
Fixpoint quoted_newlines (l : layout) : nat :=
  match l with
  | [] => 0
  | (_, e) :: r => match e with EQuoted s => count_occ ascii_dec s cNL | _ => 0 end + quoted_newlines r
  end.
