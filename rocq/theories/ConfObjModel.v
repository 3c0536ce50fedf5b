(** Model of configuration objects over their lifetime: where they read from, what a failed
    read leaves behind, copies, and simple queries of blocks.
    Sources: src/Configuration/Configuration.cpp, Script/ConfigurationScript.cpp,
    ConfigBlock.cpp, include/softlib/Configuration.h. *)
From Verif Require Import Base ConfigModel PosModel.

(** Configuration.h:118-123 [Configuration]: the four fields that outlive a call.  The fields of
    the lexer and interpreter (ConfigurationScript.h:108-126) are set anew by each read. *)
Record conf : Type := mkConf { cfile : str; croot : cblock; ctypes : list str; cerr : bool }.

(** Configuration.cpp:25-28, Configuration.h:123, the constructor. *)
Definition new_conf : conf := mkConf [] root_block initial_types false.

(** Configuration.cpp:29-34, the copy constructor. *)
Definition copy_conf (c : conf) : conf :=
  mkConf (cfile c) (copy_block (croot c)) (ctypes c) (cerr c).

(** Configuration.cpp:83-98, ConfigurationScript.cpp:22-80, what a call shows to its caller. *)
Inductive cobs : Type :=
| BDone                                   (* returned nothing *)
| BMade (k : nat)                         (* a new object *)
| BType (ty : nat)                        (* RegisterBlockType returned *)
| BDuplicate                              (* RegisterBlockType threw *)
| BOpened                                 (* FromFile: "has already been opened" *)
| BNoFile                                 (* FromFile: "Unable to open configuration file" *)
| BMissing (line col : nat) (infile name : str)  (* "Unable to open included configuration file" *)
| BRead (log : list report)               (* returned, after printing these messages *)
| BNotClosed (log : list report) (line col : nat) (file : str)  . (* "Document was not closed." *)

(** ConfigurationScript.cpp:66-80 [FromString] on an object: the lexer may throw with the field
    [filename] still naming the included file it was in (Lexer.cpp:148-174); [Interpret] sets the error flag for each
    message (Interpreter.cpp:202) and may throw at the end; only then is [root] assigned. *)
Definition conf_string (fs : filesys) (d : nat) (c : conf) (src text : str) : outcome (option (conf * cobs)) :=
  match read_script (ctypes c) fs d (cfile c) src text with
  | RMissing l k infile name => Ok (Some (mkConf infile (croot c) (ctypes c) (cerr c), BMissing l k infile name))
  | RDiverge => Ok None
  | RRead log res =>
      let err := match log with [] => cerr c | _ => true end in
      match res with
      | PIOk root => Ok (Some (mkConf (cfile c) root (ctypes c) err, BRead log))
      | PIThrow l k f => Ok (Some (mkConf (cfile c) (croot c) (ctypes c) err, BNotClosed log l k f))
      | PIUB => UB
      | PIFuel => Ok None
      end
  end.

(** ConfigurationScript.cpp:22-38 [FromFile]. *)
Definition conf_file (fs : filesys) (d : nat) (c : conf) (name : str) : outcome (option (conf * cobs)) :=
  match cfile c with
  | _ :: _ => Ok (Some (c, BOpened))
  | [] =>
      match fs name with
      | None => Ok (Some (c, BNoFile))
      | Some text => conf_string fs d (mkConf name (croot c) (ctypes c) (cerr c)) name text
      end
  end.

(** ConfigurationScript.cpp:43-58, the stream [cin]: what is still to be read, and whether a read
    has met its end. *)
Record cin : Type := mkCin { cin_rest : str; cin_eof : bool }.

(** ConfigurationScript.cpp:44, _FROMSTDIN_BUFSIZE. *)
Definition chunk : nat := 1000.

(** ConfigurationScript.cpp:50-51: read a chunk; meeting the end sets eof. *)
Definition cin_read (s : cin) : str * cin :=
  (firstn chunk (cin_rest s), mkCin (skipn chunk (cin_rest s)) (length (cin_rest s) <? chunk)%nat).

(** ConfigurationScript.cpp:48-52, the loop; [None] in the buffer is the null pointer.  Line 49 makes room for
    one more chunk and the final NUL. *)
Fixpoint cin_loop (fuel : nat) (s : cin) (buf : option str) : option (cin * option str) :=
  match fuel with
  | O => None
  | S f =>
      if cin_eof s then Some (s, buf)
      else let (t, s') := cin_read s in
           cin_loop f s' (Some (match buf with None => t | Some b => b ++ t end))
  end.

(** ConfigurationScript.cpp:54-56, string(buf): up to the first NUL. *)
Fixpoint upto_nul (t : str) : str :=
  match t with
  | [] => []
  | c :: r => if Ascii.eqb c cNUL then [] else c :: upto_nul r
  end.

(** ConfigurationScript.cpp:43-58 [FromStdin]: writing the NUL through the null pointer is undefined.  The
    number of iterations is at most length / chunk + 2. *)
Definition conf_stdin (fs : filesys) (d : nat) (c : conf) (s : cin) : outcome (option (conf * cobs * cin)) :=
  match cin_loop (S (S (length (cin_rest s)))) s None with
  | None => Ok None
  | Some (_, None) => UB
  | Some (s', Some b) =>
      obind (conf_string fs d c (str_of "stdin") (upto_nul b)) (fun r =>
        Ok (match r with None => None | Some (c', o) => Some (c', o, s') end))
  end.

(** Configuration.cpp:83-98, ConfigurationScript.cpp:22-80: calls, and what happens outside the program. *)
Inductive cop : Type :=
| CNew                                    (* ConfigurationScript() *)
| CCopy (i : nat)                         (* ConfigurationScript(const Configuration&) *)
| CRegister (i : nat) (name : str)
| CFromFile (i : nat) (name : str)
| CFromString (i : nat) (text src : str)
| CFromStdin (i : nat)
| CSetError (i : nat)
| EFile (name : str) (text : option str)  (* a file appears, changes or goes *)
| EStdin (text : str).                    (* more input arrives on an open stream *)

(** ConfigurationScript.cpp:22-58: the objects, the files and the standard input. *)
Record cworld : Type := mkCW { w_objs : list conf; w_fs : filesys; w_cin : cin }.

(** Configuration.cpp:25-34: the objects of a program that has just started. *)
Definition c_start (fs : filesys) (input : str) : cworld := mkCW [] fs (mkCin input false).

(** Configuration.cpp:29-98: replace object [i]. *)
Definition put_obj (w : cworld) (i : nat) (c : conf) : cworld :=
  mkCW (upd_nth i (fun _ => c) (w_objs w)) (w_fs w) (w_cin w).

(** Configuration.cpp:29-98: a call on an object that does not exist is undefined. *)
Definition the_obj (w : cworld) (i : nat) : outcome conf :=
  match nth_error (w_objs w) i with Some c => Ok c | None => UB end.

(** Configuration.cpp:25-98, ConfigurationScript.cpp:22-80: one call; [Ok None] is a call that does not return
    (or needs a deeper nesting of includes than [d]). *)
Definition c_step (d : nat) (w : cworld) (o : cop) : outcome (option (cworld * cobs)) :=
  match o with
  | CNew => Ok (Some (mkCW (w_objs w ++ [new_conf]) (w_fs w) (w_cin w), BMade (length (w_objs w))))
  | CCopy i =>
      obind (the_obj w i) (fun c =>
        Ok (Some (mkCW (w_objs w ++ [copy_conf c]) (w_fs w) (w_cin w), BMade (length (w_objs w)))))
  | CRegister i name =>
      obind (the_obj w i) (fun c =>
        match register_block_type (ctypes c) name with
        | Ok (types, n) => Ok (Some (put_obj w i (mkConf (cfile c) (croot c) types (cerr c)), BType n))
        | _ => Ok (Some (w, BDuplicate))
        end)
  | CFromFile i name =>
      obind (the_obj w i) (fun c =>
        obind (conf_file (w_fs w) d c name) (fun r =>
          Ok (match r with None => None | Some (c', b) => Some (put_obj w i c', b) end)))
  | CFromString i text src =>
      obind (the_obj w i) (fun c =>
        obind (conf_string (w_fs w) d c src text) (fun r =>
          Ok (match r with None => None | Some (c', b) => Some (put_obj w i c', b) end)))
  | CFromStdin i =>
      obind (the_obj w i) (fun c =>
        obind (conf_stdin (w_fs w) d c (w_cin w)) (fun r =>
          Ok (match r with
              | None => None
              | Some (c', b, s') => Some (mkCW (upd_nth i (fun _ => c') (w_objs w)) (w_fs w) s', b)
              end)))
  | CSetError i =>
      obind (the_obj w i) (fun c => Ok (Some (put_obj w i (mkConf (cfile c) (croot c) (ctypes c) true), BDone)))
  | EFile name text =>
      Ok (Some (mkCW (w_objs w) (fun n => if str_eqb n name then text else w_fs w n) (w_cin w), BDone))
  | EStdin text =>
      Ok (Some (mkCW (w_objs w) (w_fs w)
                  (if cin_eof (w_cin w) then w_cin w else mkCin (cin_rest (w_cin w) ++ text) false), BDone))
  end.

(** Configuration.cpp:25-98: a sequence of calls with what each of them showed. *)
Fixpoint c_run (d : nat) (w : cworld) (ops : list cop) : outcome (option (cworld * list cobs)) :=
  match ops with
  | [] => Ok (Some (w, []))
  | o :: r =>
      obind (c_step d w o) (fun x =>
        match x with
        | None => Ok None
        | Some (w', b) =>
            obind (c_run d w' r) (fun y =>
              Ok (match y with None => None | Some (w'', bs) => Some (w'', b :: bs) end))
        end)
  end.

(** ConfigBlock.cpp:109-118 [GetAllSubBlocksOfType]. *)
Fixpoint subs_of_type (subs : list cblock) (ty : nat) : list cblock :=
  match subs with
  | [] => []
  | b :: r => if Nat.eqb (cb_type b) ty then b :: subs_of_type r ty else subs_of_type r ty
  end.

(** ConfigBlock.cpp:236 [HasSubBlocks] without argument. *)
Definition has_sub_blocks (b : cblock) : bool := (0 <? length (cb_subs b))%nat.

(** ConfigBlock.cpp:237-244 [HasSubBlocks] with a type. *)
Fixpoint has_subs_of_type (subs : list cblock) (ty : nat) : bool :=
  match subs with
  | [] => false
  | b :: r => if Nat.eqb (cb_type b) ty then true else has_subs_of_type r ty
  end.

(** ConfigBlock.cpp:380-382, the comparison operator. *)
Definition block_equal (a b : cblock) : bool := has_type_and_name a (cb_type b) (cb_name b).

(** ConfigBlock.cpp:391-397, operator[], with SettingScript.cpp:94 [GetString]; [at] throws. *)
Definition block_index (b : cblock) (name : str) : cblock * outcome str :=
  match b with
  | CB t n sec sets subs =>
      let (sets', r) := get_setting sets name in
      (CB t n sec sets' subs,
       match r with
       | None => Throw
       | Some s => match svals s with [] => Throw | v :: _ => Ok v end
       end)
  end.
