(** Specification vocabulary for the lexical structure of configuration scripts.
    Nothing in this file depends on how the lexer works; it only fixes what a
    "layout" of a sequence of words is and how words are classified. *)
From Verif Require Import Base ConfigModel.

(** A character that may occur in an unquoted word. *)
Definition bare_char (c : ascii) : Prop :=
  c <> cNUL /\ c <> cQUOTE /\ c <> "<"%char /\ c <> ">"%char /\ c <> ","%char /\
  c <> cHASH /\ c <> cNL /\ c <> cSP /\ c <> cTAB /\
  c <> "="%char /\ c <> "("%char /\ c <> ")"%char /\
  c <> "{"%char /\ c <> "}"%char /\ c <> ";"%char.

Definition punct_char (c : ascii) : Prop :=
  In c ["="%char; "("%char; ")"%char; "{"%char; "}"%char; ";"%char].

Definition ws_char (c : ascii) : Prop := c = cNL \/ c = cSP \/ c = cTAB.

(** What may stand between two words. *)
Inductive gap : Type :=
| GWs (c : ascii)            (* a space, tab or newline *)
| GComma                     (* a comma *)
| GComment (txt : str).      (* a comment up to and including its newline *)

Definition gap_ok (g : gap) : Prop :=
  match g with
  | GWs c => ws_char c
  | GComma => True
  | GComment txt => ~ In cNL txt /\ ~ In cNUL txt
  end.

Definition gap_text (g : gap) : str :=
  match g with
  | GWs c => [c]
  | GComma => [","%char]
  | GComment txt => cHASH :: txt ++ [cNL]
  end.

(** The visible elements of a script. *)
Inductive elem : Type :=
| EPunct (c : ascii)         (* = ( ) { } ; *)
| EBare (s : str)            (* word *)
| EQuoted (s : str)          (* "any text" *)
| EInclude (name : str).     (* <file> *)

Definition elem_ok (e : elem) : Prop :=
  match e with
  | EPunct c => punct_char c
  | EBare s => s <> [] /\ (forall c, In c s -> bare_char c)
  | EQuoted s => forall c, In c s -> c <> cNUL /\ c <> cQUOTE
  | EInclude s => forall c, In c s -> c <> cNUL /\ c <> ">"%char /\ c <> cHASH /\ ~ ws_char c
  end.

Definition elem_text (e : elem) : str :=
  match e with
  | EPunct c => [c]
  | EBare s => s
  | EQuoted s => cQUOTE :: s ++ [cQUOTE]
  | EInclude s => "<"%char :: s ++ [">"%char]
  end.

(** A layout: elements, each preceded by any number of gaps. *)
Definition layout := list (list gap * elem).

Definition gaps_text (g : list gap) : str := flat_map gap_text g.

Definition layout_text (l : layout) : str :=
  flat_map (fun p => gaps_text (fst p) ++ elem_text (snd p)) l.

Definition is_bare (e : elem) : bool := match e with EBare _ => true | _ => false end.

(** Two unquoted words in a row must be separated.  An include must not directly
    follow... it may: the "<" ends the word. *)
Fixpoint layout_ok_from (prev_bare : bool) (l : layout) : Prop :=
  match l with
  | [] => True
  | (g, e) :: r =>
      Forall gap_ok g /\ elem_ok e /\
      (prev_bare = true -> is_bare e = true -> g <> []) /\
      layout_ok_from (is_bare e) r
  end.
Definition layout_ok (l : layout) : Prop := layout_ok_from false l.

(** The word an element stands for; an empty pair of quotes stands for nothing. *)
Definition elem_word (e : elem) : list str :=
  match e with
  | EPunct c => [[c]]
  | EBare s => [s]
  | EQuoted [] => []
  | EQuoted s => [s]
  | EInclude _ => []
  end.

Definition layout_words (l : layout) : list str := flat_map (fun p => elem_word (snd p)) l.

Definition no_includes (l : layout) : Prop :=
  forall g e, In (g, e) l -> forall n, e <> EInclude n.

(** Classification of words into token kinds: the six punctuation words are
    themselves, a word after '=' or after a value is a value, a word after a block
    type is a block name, and any other word is a block type if registered and a
    name otherwise. *)
Definition punct_kind (s : str) : option ttype :=
  match s with
  | [c] => if Ascii.eqb c "="%char then Some TEquals
           else if Ascii.eqb c "("%char then Some TLPar
           else if Ascii.eqb c ")"%char then Some TRPar
           else if Ascii.eqb c "{"%char then Some TBlockStart
           else if Ascii.eqb c "}"%char then Some TBlockEnd
           else if Ascii.eqb c ";"%char then Some TEndStatement
           else None
  | _ => None
  end.

Definition word_kind (types : list str) (prev : option ttype) (s : str) : ttype :=
  match punct_kind s with
  | Some k => k
  | None =>
      match prev with
      | Some TEquals | Some TValue => TValue
      | Some TBlockType => TBlockName
      | _ => if in_dec (list_eq_dec ascii_dec) s types then TBlockType else TName
      end
  end.

Fixpoint classify (types : list str) (prev : option ttype) (ws : list str) : list token :=
  match ws with
  | [] => []
  | w :: r => let k := word_kind types prev w in mkTok k w :: classify types (Some k) r
  end.

Definition last_kind (ts : list token) : option ttype :=
  match rev ts with [] => None | t :: _ => Some (ttyp t) end.

(** Reading a layout in which files may be included: [reads types fs l acc out]
    says that after the tokens [acc], the layout [l] extends them to [out].
    An included file is read on its own and its tokens are spliced in. *)
Inductive reads (types : list str) (fs : filesys) : layout -> list token -> list token -> Prop :=
| reads_nil : forall acc, reads types fs [] acc acc
| reads_word : forall g e l acc out,
    (forall n, e <> EInclude n) ->
    reads types fs l (acc ++ classify types (last_kind acc) (elem_word e)) out ->
    reads types fs ((g, e) :: l) acc out
| reads_include : forall g name l acc out fl ftail fout,
    fs name = Some (layout_text fl ++ gaps_text ftail) ->
    layout_ok fl -> Forall gap_ok ftail ->
    reads types fs fl [] fout ->
    reads types fs l (acc ++ fout) out ->
    reads types fs ((g, EInclude name) :: l) acc out.
