(** Specification vocabulary for configuration objects. *)
From Verif Require Import Base ConfigModel PosModel ConfObjModel.

(** The object a call may change. *)
Definition acts_on (o : cop) : option nat :=
  match o with
  | CRegister i _ | CFromFile i _ | CFromString i _ _ | CFromStdin i | CSetError i => Some i
  | CNew | CCopy _ | EFile _ _ | EStdin _ => None
  end.

(** The messages a call printed. *)
Definition printed (b : cobs) : list report :=
  match b with BRead log | BNotClosed log _ _ _ => log | _ => [] end.

(** Whether a call was a read that came back with a tree. *)
Definition returned (b : cobs) : bool := match b with BRead _ => true | _ => false end.

(** Whether a call of FromFile got as far as opening the file. *)
Definition got_open (b : cobs) : bool := match b with BOpened | BNoFile => false | _ => true end.

(** The part of a text in front of its first NUL. *)
Definition cut_at_nul (t u : str) : Prop := ~ In cNUL u /\ (t = u \/ exists r, t = u ++ cNUL :: r).

(** The text a reading call reads. *)
Definition reads_text (w : cworld) (o : cop) (text : str) : Prop :=
  match o with
  | CFromFile _ n => w_fs w n = Some text
  | CFromString _ t _ => t = text
  | CFromStdin _ => cut_at_nul (cin_rest (w_cin w)) text
  | _ => False
  end.

(** The name under which a reading call reports. *)
Definition source_of (o : cop) : str :=
  match o with CFromFile _ n => n | CFromString _ _ s => s | CFromStdin _ => str_of "stdin" | _ => [] end.

(** The block types an object was given, in order. *)
Fixpoint registered (i : nat) (h : list (cop * cobs)) : list str :=
  match h with
  | (CRegister j n, BType _) :: r => if Nat.eqb j i then n :: registered i r else registered i r
  | _ :: r => registered i r
  | [] => []
  end.

(** A file without a name cannot be opened. *)
Definition no_nameless (fs : filesys) (ops : list cop) : Prop :=
  fs [] = None /\ forall t, ~ In (EFile [] (Some t)) ops.

(** The same tree, with all settings untouched. *)
Inductive same_untouched : cblock -> cblock -> Prop :=
| SameU : forall t n s s' sets sets' subs subs',
    get_secondary_type (CB t n s sets subs) = get_secondary_type (CB t n s' sets' subs') ->
    Forall2 (fun a b => sname b = sname a /\ svals b = svals a /\ stouched b = false) sets sets' ->
    Forall2 same_untouched subs subs' ->
    same_untouched (CB t n s sets subs) (CB t n s' sets' subs').
