(** Model of the configuration-script reader of softlib:
    lexer, interpreter, configuration block tree and block type registry.
    Sources: src/Configuration/Script/Lexer.cpp, Interpreter.cpp,
    ConfigurationScript.cpp, src/Configuration/ConfigBlock.cpp,
    src/Configuration/Configuration.cpp. *)
From Verif Require Import Base.

(** * Tokens *)

(** include/softlib/Configuration/ConfigurationScript.h:12-25 [conftoken_t].
    CTKN_INVALID is never produced by the lexer and is left out. *)
Inductive ttype : Type :=
| TName | TValue | TEquals | TBlockType | TBlockName | TLPar | TRPar
| TBlockStart | TBlockEnd | TEndStatement | TEOF.

Definition ttype_eqb (a b : ttype) : bool :=
  match a, b with
  | TName, TName | TValue, TValue | TEquals, TEquals | TBlockType, TBlockType
  | TBlockName, TBlockName | TLPar, TLPar | TRPar, TRPar
  | TBlockStart, TBlockStart | TBlockEnd, TBlockEnd
  | TEndStatement, TEndStatement | TEOF, TEOF => true
  | _, _ => false
  end.

(** ConfigurationScript.h:28-48 [ConfigToken]: type and text.
    Simplification: the parent/next links and the line, column and file name
    (used only in error messages) are left out. *)
Record token : Type := mkTok { ttyp : ttype; tval : str }.

(** * Block type registry *)

(** Configuration.h:122 [blocktypes], Configuration.cpp:43-50 [IsBlockType]. *)
Fixpoint is_block_type (types : list str) (name : str) : bool :=
  match types with
  | [] => false
  | t :: ts => str_eqb name t || is_block_type ts name
  end.

(** Configuration.cpp:104-111 [StringToBlockType]: index of the first match,
    0 when there is none. *)
Fixpoint string_to_block_type_from (i : nat) (types : list str) (name : str) : nat :=
  match types with
  | [] => 0
  | t :: ts => if str_eqb t name then i else string_to_block_type_from (S i) ts name
  end.
Definition string_to_block_type (types : list str) (name : str) : nat :=
  string_to_block_type_from 0 types name.

(** Configuration.cpp:83-90 [RegisterBlockType]: throws on duplicates,
    otherwise appends and returns size()-1. *)
Definition register_block_type (types : list str) (name : str) : outcome (list str * nat) :=
  if is_block_type types name then Throw
  else let types' := types ++ [name] in Ok (types', length types' - 1).

(** Configuration.cpp:25-28, constructor: registers "/root". *)
Definition initial_types : list str := [str_of "/root"].

(** * Lexer *)

(** Lexer.cpp:46-54, the loop that skips a comment, together with the
    [cnfbufferpos--] after it.  The buffer is represented by the suffix that
    starts at [cnfbufferpos]; [last] is the character just consumed.
    The result is the final value of [c] and the suffix after the decrement:
    when the buffer is exhausted the decrement steps back onto the last
    character that was consumed; otherwise it steps back onto the NUL or newline. *)
Fixpoint skip_comment (last : ascii) (rest : str) : ascii * str :=
  match rest with
  | [] => (last, [last])
  | c :: r =>
      if Ascii.eqb c cNUL || Ascii.eqb c cNL then (c, c :: r)
      else skip_comment c r
  end.

Inductive ncres : Type :=
| NcEnd  (prevws : bool)                          (* nextc returned 0 because of the end of the buffer *)
| NcChar (c : ascii) (rest : str) (prevws : bool) (* nextc returned c (which may be NUL) *)
| NcFuel.                                         (* loop did not finish within the fuel *)

(** Lexer.cpp:57-64. *)
Definition is_ws (c : ascii) : bool :=
  Ascii.eqb c cNL || Ascii.eqb c cSP || Ascii.eqb c cTAB.

(** Lexer.cpp:33-77 [nextc].  The test for an exhausted buffer on line 35 and the
    loop condition on line 74 have the same effect (return 0), so both are the
    [\[\]] case.  linecounter/charpos are left out (error messages only). *)
Fixpoint nextc_fuel (fuel : nat) (instring prevws : bool) (rest : str) : ncres :=
  match fuel with
  | O => NcFuel
  | S f =>
      match rest with
      | [] => NcEnd prevws
      | c :: r =>
          if instring then NcChar c r prevws
          else if Ascii.eqb c cHASH then
            let (c', r') := skip_comment c r in
            if Ascii.eqb c' cNUL then NcEnd prevws
            else nextc_fuel f instring prevws r'
          else if is_ws c then
            if prevws then nextc_fuel f instring prevws r
            else NcChar cSP r true
          else NcChar c r false
      end
  end.

(** The number of loop iterations never exceeds length+1 unless the loop is
    endless (theorem C04), so this fuel loses nothing (Lexer.cpp:33-77). *)
Definition nextc (instring prevws : bool) (rest : str) : ncres :=
  nextc_fuel (S (S (length rest))) instring prevws rest.

(** Lexer.cpp:78-111 [gettkn]; [prev] is the type of the previous token, if any. *)
Definition gettkn (types : list str) (s : str) (prev : option ttype) : token :=
  if str_eqb s (str_of "=") then mkTok TEquals s
  else if str_eqb s (str_of "(") then mkTok TLPar s
  else if str_eqb s (str_of ")") then mkTok TRPar s
  else if str_eqb s (str_of "{") then mkTok TBlockStart s
  else if str_eqb s (str_of "}") then mkTok TBlockEnd s
  else if str_eqb s (str_of ";") then mkTok TEndStatement s
  else
    match prev with
    | Some TEquals | Some TValue => mkTok TValue s
    | Some TBlockType => mkTok TBlockName s
    | _ => if is_block_type types s then mkTok TBlockType s else mkTok TName s
    end.

(** Lexer.cpp:112-124 [pushbuffer]; the token vector is kept in reverse,
    so its head is [tkns.back()]. *)
Definition pushbuffer (types : list str) (buffer : str) (rtkns : list token) : list token :=
  match buffer with
  | [] => rtkns
  | _ => gettkn types buffer (match rtkns with [] => None | t :: _ => Some (ttyp t) end) :: rtkns
  end.

Record lexst : Type := mkLex
  { lrest : str;          (* characters from cnfbufferpos on *)
    linstring : bool; lininclude : bool; lprevws : bool }.

(** Lexer.cpp:182-251. *)
Inductive lexres : Type :=
| LexOk (tkns : list token) (instring ininclude prevws : bool)
     (* tokens in order, ending in EOF; the flags left behind in the object *)
| LexThrow                       (* include_file could not open the file *)
| LexDiverge.                    (* does not finish *)

(** Lexer.cpp:217-222. *)
Definition is_punct (c : ascii) : bool :=
  Ascii.eqb c "="%char || Ascii.eqb c "("%char || Ascii.eqb c ")"%char
  || Ascii.eqb c "{"%char || Ascii.eqb c "}"%char || Ascii.eqb c ";"%char.

(** Lexer.cpp:244-248. *)
Definition eof_token : token := mkTok TEOF (str_of "<EOF>").

(** Lexer.cpp:240-250, the end of [Lex]. *)
Definition lex_finish (types : list str) (st : lexst) (prevws : bool)
           (buffer : str) (rtkns : list token) : lexres :=
  LexOk (rev (eof_token :: pushbuffer types buffer rtkns))
        (linstring st) (lininclude st) prevws.

(** Lexer.cpp:190-238, the main loop of [Lex], one iteration per unit of fuel.
    [include] is [include_file] (Lexer.cpp:134-177): it yields [None] when the
    file cannot be opened, otherwise the result of lexing its contents. *)
Fixpoint lex_loop (types : list str) (include : str -> option lexres)
         (fuel : nat) (st : lexst) (buffer : str) (rtkns : list token) : lexres :=
  match fuel with
  | O => LexDiverge
  | S f =>
      match nextc (linstring st) (lprevws st) (lrest st) with
      | NcFuel => LexDiverge
      | NcEnd pw => lex_finish types st pw buffer rtkns
      | NcChar c rest pw =>
          if Ascii.eqb c cNUL then lex_finish types st pw buffer rtkns
          else if linstring st && negb (Ascii.eqb c cQUOTE) then
            lex_loop types include f (mkLex rest (linstring st) (lininclude st) pw)
                     (buffer ++ [c]) rtkns
          else if lininclude st && negb (Ascii.eqb c ">"%char) then
            lex_loop types include f (mkLex rest (linstring st) (lininclude st) pw)
                     (buffer ++ [c]) rtkns
          else if Ascii.eqb c cQUOTE then
            lex_loop types include f (mkLex rest (negb (linstring st)) (lininclude st) pw)
                     [] (pushbuffer types buffer rtkns)
          else if Ascii.eqb c "<"%char then
            lex_loop types include f (mkLex rest (linstring st) true pw)
                     [] (pushbuffer types buffer rtkns)
          else if Ascii.eqb c ">"%char then
            match include buffer with
            | None => LexThrow
            | Some LexThrow => LexThrow
            | Some LexDiverge => LexDiverge
            | Some (LexOk tkns is' ii' pw') =>
                (* pop_back of the EOF token; position restored, flags not *)
                lex_loop types include f (mkLex rest is' ii' pw')
                         [] (rev (removelast tkns) ++ rtkns)
            end
          else if is_punct c then
            lex_loop types include f (mkLex rest (linstring st) (lininclude st) pw)
                     [] (pushbuffer types [c] (pushbuffer types buffer rtkns))
          else if Ascii.eqb c ","%char || Ascii.eqb c cSP then
            lex_loop types include f (mkLex rest (linstring st) (lininclude st) pw)
                     [] (pushbuffer types buffer rtkns)
          else
            lex_loop types include f (mkLex rest (linstring st) (lininclude st) pw)
                     (buffer ++ [c]) rtkns
      end
  end.

(** The files that can be opened, by name (Lexer.cpp:135-145, ConfigurationScript.cpp:26-34). *)
Definition filesys := str -> option str.

(** Lexer.cpp:182-251 [Lex] with [initbuffer] (18-27).  [depth] bounds the depth
    of nested includes; exceeding it is reported as divergence (the real code
    recurses without bound). *)
Fixpoint lex (types : list str) (fs : filesys) (depth : nat) (text : str) : lexres :=
  match depth with
  | O => LexDiverge
  | S d =>
      lex_loop types
        (fun name => match fs name with None => None | Some c => Some (lex types fs d c) end)
        (S (length text)) (mkLex text false false false) [] []
  end.

(** * Settings and blocks *)

(** Configuration.h:17-68 [Setting] and SettingScript.cpp: name, values, touched flag. *)
Record setting : Type := mkSet { sname : str; svals : list str; stouched : bool }.

(** Configuration.h:71-115 [ConfigBlock].  The parent pointer is represented by
    the position in the tree. *)
Inductive cblock : Type :=
| CB (ty : nat) (name sec : str) (sets : list setting) (subs : list cblock).

Definition cb_type (b : cblock) : nat := match b with CB t _ _ _ _ => t end.
Definition cb_name (b : cblock) : str := match b with CB _ n _ _ _ => n end.
Definition cb_sec  (b : cblock) : str := match b with CB _ _ s _ _ => s end.
Definition cb_sets (b : cblock) : list setting := match b with CB _ _ _ s _ => s end.
Definition cb_subs (b : cblock) : list cblock := match b with CB _ _ _ _ s => s end.

(** ConfigBlock.cpp:205-212 [HasSetting]. *)
Fixpoint has_setting (sets : list setting) (name : str) : bool :=
  match sets with
  | [] => false
  | s :: r => str_eqb (sname s) name || has_setting r name
  end.

(** ConfigBlock.cpp:164-173 [GetSetting]: the first setting of that name is
    touched and returned; [None] is nullptr. *)
Fixpoint get_setting (sets : list setting) (name : str) : list setting * option setting :=
  match sets with
  | [] => ([], None)
  | s :: r =>
      if str_eqb (sname s) name then
        let s' := mkSet (sname s) (svals s) true in (s' :: r, Some s')
      else let (r', o) := get_setting r name in (s :: r', o)
  end.

(** SettingScript.cpp:130-132 [OverwriteValues], applied to the first setting of
    that name (ConfigBlock.cpp:356-363 [MergeSetting]). *)
Fixpoint overwrite_setting (sets : list setting) (name : str) (vals : list str) : list setting :=
  match sets with
  | [] => []
  | s :: r =>
      if str_eqb (sname s) name then mkSet (sname s) vals (stouched s) :: r
      else s :: overwrite_setting r name vals
  end.

(** ConfigBlock.cpp:54-67 [AddSetting]: an existing setting is obtained through
    GetSetting (which touches it) and its values are overwritten. *)
Definition add_setting (sets : list setting) (s : setting) : list setting :=
  if has_setting sets (sname s) then
    overwrite_setting (fst (get_setting sets (sname s))) (sname s) (svals s)
  else sets ++ [s].

(** ConfigBlock.cpp:188-197 [GetUntouchedSettings]. *)
Definition get_untouched (sets : list setting) : list setting :=
  filter (fun s => negb (stouched s)) sets.

(** ConfigBlock.cpp:271-278 [HasUntouchedSettings]. *)
Fixpoint has_untouched (sets : list setting) : bool :=
  match sets with
  | [] => false
  | s :: r => if negb (stouched s) then true else has_untouched r
  end.

(** ConfigBlock.cpp:259-261 [HasTypeAndName]. *)
Definition has_type_and_name (b : cblock) (ty : nat) (name : str) : bool :=
  Nat.eqb (cb_type b) ty && str_eqb (cb_name b) name.

(** ConfigBlock.cpp:127-134 [GetConfigBlock] / 221-228 [HasSubBlock]: index of the
    first sub-block with that type and name. *)
Fixpoint find_sub (subs : list cblock) (ty : nat) (name : str) : option nat :=
  match subs with
  | [] => None
  | b :: r =>
      if has_type_and_name b ty name then Some 0
      else match find_sub r ty name with Some i => Some (S i) | None => None end
  end.

(** ConfigBlock.cpp:73-88 [AddSubBlock]: returns the index of the (new or
    existing) sub-block.  The secondary type of a block that already exists is
    left alone. *)
Definition add_sub_block (b : cblock) (ty : nat) (name sec : str) : cblock * nat :=
  match b with
  | CB t n s sets subs =>
      match find_sub subs ty name with
      | Some i => (b, i)
      | None => (CB t n s sets (subs ++ [CB ty name sec [] []]), length subs)
      end
  end.

(** ConfigBlock.cpp:144-149 [GetSecondaryType]. *)
Definition get_secondary_type (b : cblock) : str :=
  match cb_sec b with [] => cb_name b | s => s end.

(** A block inside the tree is denoted by the list of sub-block indices from the root
    (Interpreter.cpp:133-193). *)
Fixpoint get_at (p : list nat) (b : cblock) : option cblock :=
  match p with
  | [] => Some b
  | i :: p' => match nth_error (cb_subs b) i with
               | Some c => get_at p' c
               | None => None
               end
  end.

(** Interpreter.cpp:133-193. *)
Fixpoint upd_nth {A} (i : nat) (f : A -> A) (l : list A) : list A :=
  match l, i with
  | [], _ => []
  | x :: r, O => f x :: r
  | x :: r, S j => x :: upd_nth j f r
  end.

(** Interpreter.cpp:133-193. *)
Fixpoint upd_at (p : list nat) (f : cblock -> cblock) (b : cblock) : cblock :=
  match p with
  | [] => f b
  | i :: p' => match b with
               | CB t n s sets subs => CB t n s sets (upd_nth i (upd_at p' f) subs)
               end
  end.

(** * Interpreter *)

(** The token iterator is the list of tokens from the current one on. *)

(** Interpreter.cpp:20-26 [advance]; incrementing past the last element is UB. *)
Definition advance (ts : list token) : outcome (bool * list token) :=
  match ts with
  | [] => UB
  | t :: r =>
      if ttype_eqb (ttyp t) TEOF then Ok (false, ts)
      else match r with
           | [] => UB
           | t' :: _ => Ok (negb (ttype_eqb (ttyp t') TEOF), r)
           end
  end.

(** Interpreter.cpp:101-107 [tokent_n]. *)
Definition tokent_n (ts : list token) : outcome ttype :=
  match ts with
  | [] => UB
  | t :: r =>
      if ttype_eqb (ttyp t) TEOF then Ok TEOF
      else match r with [] => UB | t' :: _ => Ok (ttyp t') end
  end.

(** Interpreter.cpp:38-49 [advanceTo] with the types used on line 201.  The read of
    [*(tknstream+1)] happens before any test for EOF: when the current token is
    the last one it is out of range (UB).  The recursion is on the stream itself:
    [advance()] either moves on by one or ends the loop. *)
Definition is_restart (ty : ttype) : bool :=
  match ty with TName | TBlockType | TBlockEnd => true | _ => false end.

Fixpoint advance_to (ts : list token) : outcome (list token) :=
  match ts with
  | [] => UB
  | t :: r =>
      match r with
      | [] => UB                                   (* *(tknstream+1) is out of range *)
      | t' :: _ =>
          if is_restart (ttyp t') then Ok ts       (* return true: stop just before *)
          else if ttype_eqb (ttyp t) TEOF then Ok ts      (* advance() = false *)
          else if ttype_eqb (ttyp t') TEOF then Ok r      (* advance() = false, now at EOF *)
          else advance_to r
      end
  end.

(** Result of the body of the try block (Interpreter.cpp:144-203). *)
Inductive sres : Type :=
| SOk (ts : list token) (root : cblock) (path : list nat)
| SExn (ts : list token) (root : cblock) (path : list nat)   (* ConfigurationException thrown *)
| SUB.

(** Interpreter.cpp:76-82 [expect]. *)
Definition expect (ty : ttype) (ts : list token) (root : cblock) (path : list nat)
           (k : list token -> sres) : sres :=
  match advance ts with
  | UB | Throw => SUB
  | Ok (more, ts') =>
      match ts' with
      | [] => SUB
      | t :: _ => if more && ttype_eqb (ttyp t) ty then k ts' else SExn ts' root path
      end
  end.

Definition cur_val (ts : list token) : str :=
  match ts with [] => [] | t :: _ => tval t end.

(** Interpreter.cpp:157-162, the loop collecting further values; [ts] is positioned
    on the last value read. *)
Fixpoint collect_values (ts : list token) (acc : list str) : outcome (list token * list str) :=
  match ts with
  | [] => UB
  | t :: r =>
      if ttype_eqb (ttyp t) TEOF then Ok (ts, acc)
      else match r with
           | [] => UB
           | t' :: _ =>
               if ttype_eqb (ttyp t') TValue then collect_values r (acc ++ [tval t'])
               else Ok (ts, acc)
           end
  end.

Definition block_add_setting (s : setting) (b : cblock) : cblock :=
  match b with CB t n sec sets subs => CB t n sec (add_setting sets s) subs end.

(** Interpreter.cpp:146-166, case CTKN_NAME.  The setting is added before the ';' is checked. *)
Definition stmt_setting (ts : list token) (root : cblock) (path : list nat) : sres :=
  let name := cur_val ts in
  expect TEquals ts root path (fun ts1 =>
  expect TValue ts1 root path (fun ts2 =>
    match collect_values ts2 [cur_val ts2] with
    | Ok (ts3, vals) =>
        let root' := upd_at path (block_add_setting (mkSet name vals false)) root in
        expect TEndStatement ts3 root' path (fun ts4 => SOk ts4 root' path)
    | _ => SUB
    end)).

(** Interpreter.cpp:184-187, the end of case CTKN_BLOCKTYPE. *)
Definition open_block (blockt : nat) (name sec : str)
           (ts : list token) (root : cblock) (path : list nat) : sres :=
  expect TBlockStart ts root path (fun ts' =>
    match get_at path root with
    | None => SUB                                 (* dangling [blck]; never happens *)
    | Some b =>
        let (b', i) := add_sub_block b blockt name sec in
        SOk ts' (upd_at path (fun _ => b') root) (path ++ [i])
    end).

(** Interpreter.cpp:167-188, case CTKN_BLOCKTYPE. *)
Definition stmt_block (types : list str) (ts : list token) (root : cblock) (path : list nat) : sres :=
  let blockt := string_to_block_type types (cur_val ts) in
  expect TBlockName ts root path (fun ts1 =>
    let name := cur_val ts1 in
    match tokent_n ts1 with
    | UB | Throw => SUB
    | Ok ty =>
        if ttype_eqb ty TLPar then
          match advance ts1 with
          | UB | Throw => SUB
          | Ok (_, ts2) =>
              expect TName ts2 root path (fun ts3 =>
                let sec := cur_val ts3 in
                expect TRPar ts3 root path (fun ts4 =>
                  open_block blockt name sec ts4 root path))
          end
        else open_block blockt name [] ts1 root path
    end).

(** Interpreter.cpp:189-193, case CTKN_BLOCK_END: the root has no parent. *)
Definition stmt_end (ts : list token) (root : cblock) (path : list nat) : sres :=
  match path with
  | [] => SExn ts root path
  | _ => SOk ts root (removelast path)
  end.

(** Interpreter.cpp:145-197, the switch. *)
Definition stmt (types : list str) (ts : list token) (root : cblock) (path : list nat) : sres :=
  match ts with
  | [] => SUB
  | t :: _ =>
      match ttyp t with
      | TName => stmt_setting ts root path
      | TBlockType => stmt_block types ts root path
      | TBlockEnd => stmt_end ts root path
      | _ => SExn ts root path
      end
  end.

Inductive ires : Type :=
| IOk (root : cblock) (err : bool)     (* Interpret returned; err is the error flag *)
| IThrow (err : bool)                  (* "Document was not closed." *)
| IUB
| IFuel.

(** Interpreter.cpp:207-211, the end of [Interpret]. *)
Definition interp_finish (root : cblock) (path : list nat) (err : bool) : ires :=
  match path with [] => IOk root err | _ => IThrow err end.

(** Interpreter.cpp:143-204, the do-while loop, one iteration per unit of fuel. *)
Fixpoint interp_loop (types : list str) (fuel : nat) (ts : list token)
         (root : cblock) (path : list nat) (err : bool) : ires :=
  match fuel with
  | O => IFuel
  | S f =>
      let next ts root path err :=
        match advance ts with
        | Ok (true, ts') => interp_loop types f ts' root path err
        | Ok (false, _) => interp_finish root path err
        | _ => IUB
        end in
      match stmt types ts root path with
      | SUB => IUB
      | SOk ts' root' path' => next ts' root' path' err
      | SExn ts' root' path' =>
          match advance_to ts' with
          | Ok ts'' => next ts'' root' path' true
          | _ => IUB
          end
      end
  end.

Definition root_block : cblock := CB 0 (str_of "<root>") [] [] [].

(** Interpreter.cpp:133-212 [Interpret]. *)
Definition interpret (types : list str) (ts : list token) : ires :=
  interp_loop types (S (length ts)) ts root_block [] false.

Inductive fsres : Type :=
| FOk (root : cblock) (err : bool)
| FThrow
| FUB
| FDiverge.

(** ConfigurationScript.cpp:66-80 [FromString], on a fresh object (error flag off). *)
Definition from_string (types : list str) (fs : filesys) (depth : nat) (text : str) : fsres :=
  match lex types fs depth text with
  | LexThrow => FThrow
  | LexDiverge => FDiverge
  | LexOk tkns _ _ _ =>
      match interpret types tkns with
      | IOk root err => FOk root err
      | IThrow _ => FThrow
      | IUB => FUB
      | IFuel => FDiverge
      end
  end.

(** * Copying and merging blocks *)

(** SettingScript.cpp:15,40-42 [Copy]: the copy is untouched. *)
Definition copy_setting (s : setting) : setting := mkSet (sname s) (svals s) false.

(** ConfigBlock.cpp:14-29, copy constructor: the stored secondary type of the copy
    is what GetSecondaryType returns for the source. *)
Fixpoint copy_block (b : cblock) : cblock :=
  match b with
  | CB t n s sets subs =>
      CB t n (get_secondary_type (CB t n s sets subs)) (map copy_setting sets) (map copy_block subs)
  end.

(** ConfigBlock.cpp:317-327, the settings part of [Merge]: new list of settings of
    [this] and the names pushed to [unknown].  A new setting is the same object
    as in the other block; ownership is not modelled here. *)
Fixpoint merge_settings (mine : list setting) (theirs : list setting) (allow_new : bool)
  : list setting * list str :=
  match theirs with
  | [] => (mine, [])
  | s :: r =>
      if has_setting mine (sname s) then
        merge_settings (overwrite_setting mine (sname s) (svals s)) r allow_new
      else if allow_new then merge_settings (add_setting mine s) r allow_new
      else let (m, u) := merge_settings mine r allow_new in (m, sname s :: u)
  end.

(** ConfigBlock.cpp:311-355 [Merge].  [nullptr] and the empty list of unknown names
    are both represented by [\[\]]: the C++ code never returns an empty vector
    (lines 324, 338, 349 allocate only when pushing). *)
Fixpoint merge (cb : cblock) (this : cblock) (allow_new : bool) {struct cb} : cblock * list str :=
  match cb with
  | CB _ _ _ csets csubs =>
      match this with
      | CB t n sec sets subs =>
          let (sets', unk) := merge_settings sets csets allow_new in
          let fix merge_subs (theirs : list cblock) (mine : list cblock) : list cblock * list str :=
            match theirs with
            | [] => (mine, [])
            | b :: r =>
                match find_sub mine (cb_type b) (cb_name b) with
                | Some i =>
                    match nth_error mine i with
                    | Some m =>
                        let (m', u1) := merge b m allow_new in
                        let (mine', u2) := merge_subs r (upd_nth i (fun _ => m') mine) in
                        (mine', u1 ++ u2)
                    | None => merge_subs r mine
                    end
                | None =>
                    if allow_new then merge_subs r (mine ++ [copy_block b])
                    else let (mine', u2) := merge_subs r mine in (mine', cb_name b :: u2)
                end
            end in
          let (subs', unk') := merge_subs csubs subs in
          (CB t n sec sets' subs', unk ++ unk')
      end
  end.
