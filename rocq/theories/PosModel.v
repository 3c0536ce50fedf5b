(** Model of the positions that the configuration-script reader attaches to its
    tokens and of the messages it prints.
    Sources: src/Configuration/Script/Lexer.cpp, Interpreter.cpp, ConfigToken.cpp,
    include/softlib/ConfigurationException.h.
    ConfigModel models the same functions without positions; PosProofs shows that
    forgetting the positions of this model gives that one. *)
From Verif Require Import Base ConfigModel.

(** ConfigurationScript.h:28-48, ConfigToken.cpp:13-36 [ConfigToken]: a token together
    with the line, the character position and the source it was made with. *)
Record ptok : Type := mkP { pt : token; pline : nat; pcol : nat; psrc : str }.

(** Lexer.cpp:33-77 [nextc]: what it returns and the counters it leaves behind. *)
Inductive pcres : Type :=
| PcEnd (prevws : bool) (line col : nat)
| PcChar (c : ascii) (rest : str) (prevws : bool) (line col : nat)
| PcFuel.

(** Lexer.cpp:33-77 [nextc] with [linecounter] and [charpos]: line 39 counts every
    character taken in the loop, lines 46-54 skip a comment without counting,
    lines 57-59 count a newline; characters inside a string return on line 41 before
    newlines are looked at. *)
Fixpoint pnextc_fuel (fuel : nat) (instring prevws : bool) (rest : str) (line col : nat) : pcres :=
  match fuel with
  | O => PcFuel
  | S f =>
      match rest with
      | [] => PcEnd prevws line col
      | c :: r =>
          if instring then PcChar c r prevws line (S col)
          else if Ascii.eqb c cHASH then
            let (c', r') := skip_comment c r in
            if Ascii.eqb c' cNUL then PcEnd prevws line (S col)
            else pnextc_fuel f instring prevws r' line (S col)
          else if is_ws c then
            let (line', col') := if Ascii.eqb c cNL then (S line, 1) else (line, S col) in
            if prevws then pnextc_fuel f instring prevws r line' col'
            else PcChar cSP r true line' col'
          else PcChar c r false line (S col)
      end
  end.

(** Lexer.cpp:33-77; the number of iterations is bounded as in [ConfigModel.nextc]. *)
Definition pnextc (instring prevws : bool) (rest : str) (line col : nat) : pcres :=
  pnextc_fuel (S (S (length rest))) instring prevws rest line col.

(** Lexer.cpp:78-124 [gettkn], [pushbuffer]: a token carries the values of the counters at
    the time it is made and the name [file] of the text being read. *)
Definition ppush (types : list str) (src : str) (line col : nat) (buffer : str)
           (rtkns : list ptok) : list ptok :=
  match buffer with
  | [] => rtkns
  | _ => mkP (gettkn types buffer (match rtkns with [] => None | t :: _ => Some (ttyp (pt t)) end))
             line col src :: rtkns
  end.

(** Lexer.cpp:18-27, the fields of the object that drive the lexer. *)
Record plexst : Type := mkPL
  { prest : str; pinstring : bool; pininclude : bool; pprevws : bool; pln : nat; pcl : nat }.

(** Lexer.cpp:134-251 [include_file], [Lex]: tokens and flags, or the position, the file and the
    name in the message "Unable to open included configuration file". *)
Inductive plexres : Type :=
| PLexOk (tkns : list ptok) (instring ininclude prevws : bool)
| PLexThrow (line col : nat) (infile name : str)
| PLexDiverge.

(** Lexer.cpp:240-250, the end of [Lex]. *)
Definition plex_finish (types : list str) (src : str) (st : plexst) (prevws : bool)
           (line col : nat) (buffer : str) (rtkns : list ptok) : plexres :=
  PLexOk (rev (mkP eof_token line col src :: ppush types src line col buffer rtkns))
         (pinstring st) (pininclude st) prevws.

(** Lexer.cpp:182-238, the loop of [Lex], and 134-177 [include_file]: the counters are saved
    and restored around an included file; [src] is the field [file], which
    [include_file] leaves alone, and [infile] the field [filename], which it sets. *)
Fixpoint plex_loop (types : list str) (src infile : str) (include : str -> option plexres)
         (fuel : nat) (st : plexst) (buffer : str) (rtkns : list ptok) : plexres :=
  match fuel with
  | O => PLexDiverge
  | S f =>
      match pnextc (pinstring st) (pprevws st) (prest st) (pln st) (pcl st) with
      | PcFuel => PLexDiverge
      | PcEnd pw line col => plex_finish types src st pw line col buffer rtkns
      | PcChar c rest pw line col =>
          if Ascii.eqb c cNUL then plex_finish types src st pw line col buffer rtkns
          else if pinstring st && negb (Ascii.eqb c cQUOTE) then
            plex_loop types src infile include f
                      (mkPL rest (pinstring st) (pininclude st) pw line col) (buffer ++ [c]) rtkns
          else if pininclude st && negb (Ascii.eqb c ">"%char) then
            plex_loop types src infile include f
                      (mkPL rest (pinstring st) (pininclude st) pw line col) (buffer ++ [c]) rtkns
          else if Ascii.eqb c cQUOTE then
            plex_loop types src infile include f
                      (mkPL rest (negb (pinstring st)) (pininclude st) pw line col)
                      [] (ppush types src line col buffer rtkns)
          else if Ascii.eqb c "<"%char then
            plex_loop types src infile include f (mkPL rest (pinstring st) true pw line col)
                      [] (ppush types src line col buffer rtkns)
          else if Ascii.eqb c ">"%char then
            match include buffer with
            | None => PLexThrow line col infile buffer
            | Some (PLexThrow l' c' i' n') => PLexThrow l' c' i' n'
            | Some PLexDiverge => PLexDiverge
            | Some (PLexOk tkns is' ii' pw') =>
                plex_loop types src infile include f (mkPL rest is' ii' pw' line col)
                          [] (rev (removelast tkns) ++ rtkns)
            end
          else if is_punct c then
            plex_loop types src infile include f
                      (mkPL rest (pinstring st) (pininclude st) pw line col)
                      [] (ppush types src line col [c] (ppush types src line col buffer rtkns))
          else if Ascii.eqb c ","%char || Ascii.eqb c cSP then
            plex_loop types src infile include f
                      (mkPL rest (pinstring st) (pininclude st) pw line col)
                      [] (ppush types src line col buffer rtkns)
          else
            plex_loop types src infile include f
                      (mkPL rest (pinstring st) (pininclude st) pw line col) (buffer ++ [c]) rtkns
      end
  end.

(** Lexer.cpp:18-27, 134-251 [initbuffer], [include_file], [Lex]. *)
Fixpoint plex (types : list str) (fs : filesys) (src : str) (depth : nat) (infile text : str) : plexres :=
  match depth with
  | O => PLexDiverge
  | S d =>
      plex_loop types src infile
        (fun name => match fs name with None => None | Some c => Some (plex types fs src d name c) end)
        (S (length text)) (mkPL text false false false 1 1) [] []
  end.

(** Interpreter.cpp:76-82, 191-197, the three kinds of message. *)
Inductive complaint : Type :=
| Expected (want got : ttype)            (* "Expected %s but got %s" *)
| BadStart (got : ttype)                 (* "Syntax error: Expected name or block-type, but got %s" *)
| Mismatched.                            (* "Syntax error: Mismatched '{'." *)

(** ConfigurationException.h:17-29: a message and the position in front of it. *)
Record report : Type := mkRep { rline : nat; rcol : nat; rfile : str; rwhat : complaint }.

(** Interpreter.cpp:51-68 [currcharpos], [currfile], [currline] of the current token. *)
Definition at_token (t : ptok) (w : complaint) : report := mkRep (pline t) (pcol t) (psrc t) w.

(** Interpreter.cpp:143-203, result of the body of the try block. *)
Inductive psres : Type :=
| PSOk (ts : list ptok) (root : cblock) (path : list nat)
| PSExn (r : report) (ts : list ptok) (root : cblock) (path : list nat)
| PSUB.

(** Interpreter.cpp:20-26 [advance]. *)
Definition padvance (ts : list ptok) : outcome (bool * list ptok) :=
  match ts with
  | [] => UB
  | t :: r =>
      if ttype_eqb (ttyp (pt t)) TEOF then Ok (false, ts)
      else match r with
           | [] => UB
           | t' :: _ => Ok (negb (ttype_eqb (ttyp (pt t')) TEOF), r)
           end
  end.

(** Interpreter.cpp:101-107 [tokent_n]. *)
Definition ptokent_n (ts : list ptok) : outcome ttype :=
  match ts with
  | [] => UB
  | t :: r =>
      if ttype_eqb (ttyp (pt t)) TEOF then Ok TEOF
      else match r with [] => UB | t' :: _ => Ok (ttyp (pt t')) end
  end.

(** Interpreter.cpp:38-49 [advanceTo], as [ConfigModel.advance_to]. *)
Fixpoint padvance_to (ts : list ptok) : outcome (list ptok) :=
  match ts with
  | [] => UB
  | t :: r =>
      match r with
      | [] => UB
      | t' :: _ =>
          if is_restart (ttyp (pt t')) then Ok ts
          else if ttype_eqb (ttyp (pt t)) TEOF then Ok ts
          else if ttype_eqb (ttyp (pt t')) TEOF then Ok r
          else padvance_to r
      end
  end.

(** Interpreter.cpp:76-82 [expect]: the message names the token that was found. *)
Definition pexpect (ty : ttype) (ts : list ptok) (root : cblock) (path : list nat)
           (k : list ptok -> psres) : psres :=
  match padvance ts with
  | UB | Throw => PSUB
  | Ok (more, ts') =>
      match ts' with
      | [] => PSUB
      | t :: _ => if more && ttype_eqb (ttyp (pt t)) ty then k ts'
                  else PSExn (at_token t (Expected ty (ttyp (pt t)))) ts' root path
      end
  end.

(** Interpreter.cpp:147-148, the value of the current token. *)
Definition pcur (ts : list ptok) : str := match ts with [] => [] | t :: _ => tval (pt t) end.

(** Interpreter.cpp:157-162. *)
Fixpoint pcollect (ts : list ptok) (acc : list str) : outcome (list ptok * list str) :=
  match ts with
  | [] => UB
  | t :: r =>
      if ttype_eqb (ttyp (pt t)) TEOF then Ok (ts, acc)
      else match r with
           | [] => UB
           | t' :: _ =>
               if ttype_eqb (ttyp (pt t')) TValue then pcollect r (acc ++ [tval (pt t')])
               else Ok (ts, acc)
           end
  end.

(** Interpreter.cpp:146-166. *)
Definition pstmt_setting (ts : list ptok) (root : cblock) (path : list nat) : psres :=
  let name := pcur ts in
  pexpect TEquals ts root path (fun ts1 =>
  pexpect TValue ts1 root path (fun ts2 =>
    match pcollect ts2 [pcur ts2] with
    | Ok (ts3, vals) =>
        let root' := upd_at path (block_add_setting (mkSet name vals false)) root in
        pexpect TEndStatement ts3 root' path (fun ts4 => PSOk ts4 root' path)
    | _ => PSUB
    end)).

(** Interpreter.cpp:184-187. *)
Definition popen_block (blockt : nat) (name sec : str)
           (ts : list ptok) (root : cblock) (path : list nat) : psres :=
  pexpect TBlockStart ts root path (fun ts' =>
    match get_at path root with
    | None => PSUB
    | Some b =>
        let (b', i) := add_sub_block b blockt name sec in
        PSOk ts' (upd_at path (fun _ => b') root) (path ++ [i])
    end).

(** Interpreter.cpp:167-188. *)
Definition pstmt_block (types : list str) (ts : list ptok) (root : cblock) (path : list nat) : psres :=
  let blockt := string_to_block_type types (pcur ts) in
  pexpect TBlockName ts root path (fun ts1 =>
    let name := pcur ts1 in
    match ptokent_n ts1 with
    | UB | Throw => PSUB
    | Ok ty =>
        if ttype_eqb ty TLPar then
          match padvance ts1 with
          | UB | Throw => PSUB
          | Ok (_, ts2) =>
              pexpect TName ts2 root path (fun ts3 =>
                let sec := pcur ts3 in
                pexpect TRPar ts3 root path (fun ts4 =>
                  popen_block blockt name sec ts4 root path))
          end
        else popen_block blockt name [] ts1 root path
    end).

(** Interpreter.cpp:145-197, the switch; lines 189-193 and 194-197 throw at the
    current token. *)
Definition pstmt (types : list str) (ts : list ptok) (root : cblock) (path : list nat) : psres :=
  match ts with
  | [] => PSUB
  | t :: _ =>
      match ttyp (pt t) with
      | TName => pstmt_setting ts root path
      | TBlockType => pstmt_block types ts root path
      | TBlockEnd =>
          match path with
          | [] => PSExn (at_token t Mismatched) ts root path
          | _ => PSOk ts root (removelast path)
          end
      | ty => PSExn (at_token t (BadStart ty)) ts root path
      end
  end.

(** Interpreter.cpp:133-212, outcome of [Interpret]: the tree, or the position of the final
    "Mismatched '{'. Document was not closed.", which is that of the current token. *)
Inductive pires : Type :=
| PIOk (root : cblock)
| PIThrow (line col : nat) (file : str)
| PIUB
| PIFuel.

(** Interpreter.cpp:207-211; the loop has left the stream at a token. *)
Definition pfinish (ts : list ptok) (root : cblock) (path : list nat) : pires :=
  match path, ts with
  | [], _ => PIOk root
  | _, t :: _ => PIThrow (pline t) (pcol t) (psrc t)
  | _, [] => PIUB
  end.

(** Interpreter.cpp:143-204; the messages printed, in order, and the outcome.  A message is
    printed (line 200) before [advanceTo] is called. *)
Fixpoint pinterp_loop (types : list str) (fuel : nat) (ts : list ptok)
         (root : cblock) (path : list nat) (log : list report) : list report * pires :=
  match fuel with
  | O => (log, PIFuel)
  | S f =>
      let next ts root path log :=
        match padvance ts with
        | Ok (true, ts') => pinterp_loop types f ts' root path log
        | Ok (false, ts') => (log, pfinish ts' root path)
        | _ => (log, PIUB)
        end in
      match pstmt types ts root path with
      | PSUB => (log, PIUB)
      | PSOk ts' root' path' => next ts' root' path' log
      | PSExn r ts' root' path' =>
          match padvance_to ts' with
          | Ok ts'' => next ts'' root' path' (log ++ [r])
          | _ => (log ++ [r], PIUB)
          end
      end
  end.

(** Interpreter.cpp:133-212 [Interpret]. *)
Definition pinterpret (types : list str) (ts : list ptok) : list report * pires :=
  pinterp_loop types (S (length ts)) ts root_block [] [].

(** ConfigurationScript.cpp:66-80 [FromString]: either the lexer throws (position, file and missing
    name), or the messages and outcome of [Interpret]. *)
Inductive pread : Type :=
| RMissing (line col : nat) (infile name : str)
| RDiverge
| RRead (log : list report) (res : pires).

(** ConfigurationScript.cpp:66-80 [FromString] with source name [src] on an object whose field
    [filename] is [infile]. *)
Definition read_script (types : list str) (fs : filesys) (depth : nat) (infile src text : str) : pread :=
  match plex types fs src depth infile text with
  | PLexThrow l c i n => RMissing l c i n
  | PLexDiverge => RDiverge
  | PLexOk tkns _ _ _ => let (log, res) := pinterpret types tkns in RRead log res
  end.
