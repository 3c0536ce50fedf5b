(** Model of SDT files on disk: opening, closing, writing and reading through objects.
    Sources: src/SFile/SFile_SDT.cpp, src/SFile/SFile_SDT.load.cpp.
    [perm f a]: the operating system lets the program open the file [f] with the access
    [a].  Disk errors while writing are not modelled; different names are different files.
    Every write call ends with a flush (endl), so files change at the end of the call. *)
From Verif Require Import Base SettingsModel SdtModel.
From Coq Require Import ZArith QArith.
Local Open Scope Z_scope.

(** SFile.h:17-21. *)
Inductive fmode : Type := MRead | MUpdate | MWrite.
(** What the stream was opened for (SFile_SDT.cpp:53, 58, 61). *)
Inductive faccess : Type := AIn | AInOut | AOut.

(** std::fstream: the open file, its access and position; whether the next operation is
    carried out at all (no failbit or badbit is set) (SFile_SDT.h:23). *)
Record stream : Type := Stream { s_file : option (str * faccess * nat); s_good : bool }.
(** An SFile_SDT object: its stream and the variables found so far (SFile_SDT.h:22-29). *)
Record sdt : Type := Sdt { o_stream : stream; o_vars : reader }.
(** A new object (SFile.cpp:52). *)
Definition new_sdt : sdt := Sdt (Stream None true) (Reader [] []).

(** The files and the objects of the program (SFile_SDT.cpp:48-66). *)
Record world : Type := World { w_fs : str -> option str; w_obj : nat -> sdt }.
Definition set_file (fs : str -> option str) (f text : str) : str -> option str :=
  fun g => if str_eqb g f then Some text else fs g.
Definition set_obj (ob : nat -> sdt) (i : nat) (o : sdt) : nat -> sdt :=
  fun j => if Nat.eqb j i then o else ob j.

(** SFile_SDT.load.cpp:16-51 [Load] on an object that may already have variables: a name
    that exists keeps its old value (86, 111), and what was added before an exception
    stays. *)
Fixpoint load_into (rnd : Q -> option Q) (mem : Z) (fuel : nat) (type : str) (ls : list str) (rd : reader)
  : option (outcome unit * reader) :=
  match fuel with
  | O => None
  | S f =>
    match ls with
    | [] => Some (Ok tt, rd)
    | [] :: ls' => load_into rnd mem f type ls' rd
    | line :: ls' =>
        let '(type', s) := match get_word line with Some (w, r) => (w, r) | None => (type, []) end in
        if str_eqb type' (str_of "@matrix") then
          match get_word s with
          | None => Some (Throw, rd)
          | Some (name, s1) =>
            match get_u64 s1 with
            | None => Some (Throw, rd)
            | Some (rows, s2) =>
              match get_u64 s2 with
              | None => Some (Throw, rd)
              | Some (cols, _) =>
                match load_matrix rnd mem rows cols ls' with
                | Ok (m, ls'') =>
                    load_into rnd mem f type' ls'' (Reader (emplace name (Cell m true true) (r_mats rd)) (r_strs rd))
                | Throw => Some (Throw, rd)
                | UB => Some (UB, rd)
                end
              end
            end
          end
        else if str_eqb type' (str_of "@string") then
          match get_word s with
          | None => Some (Throw, rd)
          | Some (name, s1) =>
            match get_u64 s1 with
            | None => Some (Throw, rd)
            | Some (_, _) =>
                let '(v, ls'') := load_string ls' in
                load_into rnd mem f type' ls'' (Reader (r_mats rd) (emplace name v (r_strs rd)))
            end
          end
        else Some (Throw, rd)
    end
  end.

(** std::fstream::open: fails when a file is already open or cannot be opened; only a
    successful call clears the error state (SFile_SDT.cpp:53, 58, 61). *)
Definition stream_open (perm : str -> faccess -> bool) (fs : str -> option str) (st : stream) (f : str) (a : faccess)
  : stream * (str -> option str) :=
  match s_file st with
  | Some _ => (Stream (s_file st) false, fs)
  | None =>
      match a, fs f with
      | AOut, _ => if perm f a then (Stream (Some (f, a, O)) true, set_file fs f []) else (Stream None false, fs)
      | _, None => (Stream None false, fs)
      | _, Some _ => if perm f a then (Stream (Some (f, a, O)) true, fs) else (Stream None false, fs)
      end
  end.
(** std::fstream::close: closing twice sets failbit (SFile_SDT.cpp:71-73). *)
Definition stream_close (st : stream) : stream :=
  match s_file st with Some _ => Stream None (s_good st) | None => Stream None false end.

(** Bytes of a file after [text] was written at [pos]; a gap is filled with zero bytes
    (SFile_SDT.cpp:329-339, 374, 418-424). *)
Definition overlay (pos : nat) (text old : str) : str :=
  firstn pos old ++ repeat cNUL (pos - length old) ++ text ++ skipn (pos + length text) old.
(** [sdtfile << text]: nothing is written after an error, to a closed file or to a file
    opened for reading; no error is reported (SFile_SDT.cpp:329-339, 374, 418-424). *)
Definition stream_write (fs : str -> option str) (st : stream) (text : str) : stream * (str -> option str) :=
  match text with
  | [] => (st, fs)
  | _ =>
    if s_good st then
      match s_file st with
      | Some (f, AIn, p) => (Stream (s_file st) false, fs)
      | Some (f, a, p) =>
          (Stream (Some (f, a, p + length text)%nat) true,
           set_file fs f (overlay p text (match fs f with Some t => t | None => [] end)))
      | None => (Stream None false, fs)
      end
    else (st, fs)
  end.

(** SFile_SDT.cpp:48-66 [Open].  After an exception of Load the stream stays open (54-55
    are not both reached); its error state is then of no consequence. *)
Definition sdt_open (rnd : Q -> option Q) (mem : Z) (perm : str -> faccess -> bool)
    (fs : str -> option str) (o : sdt) (f : str) (m : fmode) : outcome unit * sdt * (str -> option str) :=
  match m with
  | MRead =>
      let (st, fs') := stream_open perm fs (o_stream o) f AIn in
      if s_good st then
        match fs' f with
        | None => (Ok tt, Sdt (stream_close (Stream (s_file st) false)) (o_vars o), fs')
        | Some text =>
            match load_into rnd mem (S (length (lines_of text))) [] (lines_of text) (o_vars o) with
            | Some (Ok _, rd) => (Ok tt, Sdt (stream_close (Stream (s_file st) false)) rd, fs')
            | Some (Throw, rd) => (Throw, Sdt (Stream (s_file st) false) rd, fs')
            | Some (UB, rd) => (UB, Sdt (Stream (s_file st) false) rd, fs')
            | None => (UB, o, fs')
            end
        end
      else (Ok tt, Sdt (stream_close st) (o_vars o), fs')
  | MUpdate =>
      let (st, fs') := stream_open perm fs (o_stream o) f AInOut in (Ok tt, Sdt st (o_vars o), fs')
  | MWrite =>
      let (st, fs') := stream_open perm fs (o_stream o) f AOut in (Ok tt, Sdt st (o_vars o), fs')
  end.

(** The calls of a program on its objects (SFile_SDT.cpp:48-425). *)
Inductive call : Type :=
| CNew (i : nat)                            (* SFile.cpp:52 *)
| COpen (i : nat) (f : str) (m : fmode)     (* 48-66 *)
| CClose (i : nat)                          (* 71-73 *)
| CWrite (i : nat) (c : wcall)              (* 324-425 *)
| CWriteMulti (i : nat) (name : str)        (* 381-395 *)
| CRead (i : nat) (c : rcall)               (* 81-312 *)
| CReadMulti (i : nat) (name : str).        (* 196-198 *)

(** SFile_SDT.cpp:48-425. *)
Inductive answer : Type := Done | Got (v : rvalue).

(** SFile_SDT.cpp:48-425. *)
Definition do_call (rnd : Q -> option Q) (mem : Z) (perm : str -> faccess -> bool) (w : world) (c : call)
  : outcome answer * world :=
  match c with
  | CNew i => (Ok Done, World (w_fs w) (set_obj (w_obj w) i new_sdt))
  | COpen i f m =>
      let '(r, o, fs) := sdt_open rnd mem perm (w_fs w) (w_obj w i) f m in
      (obind r (fun _ => Ok Done), World fs (set_obj (w_obj w) i o))
  | CClose i =>
      let o := w_obj w i in
      (Ok Done, World (w_fs w) (set_obj (w_obj w) i (Sdt (stream_close (o_stream o)) (o_vars o))))
  | CWrite i c =>
      let o := w_obj w i in
      let (st, fs) := stream_write (w_fs w) (o_stream o) (write_call c) in
      (Ok Done, World fs (set_obj (w_obj w) i (Sdt st (o_vars o))))
  | CWriteMulti _ _ => (Throw, w)
  | CRead i c =>
      let o := w_obj w i in
      let (r, rd) := do_read (o_vars o) c in
      (obind r (fun v => Ok (Got v)), World (w_fs w) (set_obj (w_obj w) i (Sdt (o_stream o) rd)))
  | CReadMulti _ _ => (Throw, w)
  end.

(** A program catches exceptions and goes on; [None]: undefined behaviour on the way
    (SFile_SDT.cpp:48-425). *)
Fixpoint do_calls (rnd : Q -> option Q) (mem : Z) (perm : str -> faccess -> bool) (w : world) (cs : list call)
  : option world :=
  match cs with
  | [] => Some w
  | c :: r => match do_call rnd mem perm w c with
              | (UB, _) => None
              | (_, w') => do_calls rnd mem perm w' r
              end
  end.

(** SFile.h:54-62. *)
Inductive dtype : Type := TUndefined | TDouble | TInt (t : ityp) | TString.
(** SFile_SDT.cpp:96-106 [GetDataType]. *)
Definition data_type (rd : reader) (name : str) (hint : dtype) : dtype :=
  match find name (r_mats rd) with
  | Some _ => match hint with TString | TUndefined => TDouble | _ => hint end
  | None => match find name (r_strs rd) with Some _ => TString | None => TUndefined end
  end.
