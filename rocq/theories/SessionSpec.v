(** Vocabulary for SDT files on disk. *)
From Verif Require Import Base SettingsModel SdtModel SessionModel.

(** The object has no file open. *)
Definition closed (o : sdt) : Prop := s_file (o_stream o) = None.
(** The object has the file open, not only for reading. *)
Definition writes_to (o : sdt) (f : str) : Prop :=
  exists a p, s_file (o_stream o) = Some (f, a, p) /\ a <> AIn.
(** An object without variables. *)
Definition no_vars (o : sdt) : Prop := r_mats (o_vars o) = [] /\ r_strs (o_vars o) = [].

(** The object of a call. *)
Definition on (c : call) : nat :=
  match c with
  | CNew i | COpen i _ _ | CClose i | CWrite i _ | CWriteMulti i _ | CRead i _ | CReadMulti i _ => i
  end.
(** Calls that leave the object [i] as it is open and do not open [f] for writing through
    another object. *)
Definition leaves (i : nat) (f : str) (c : call) : Prop :=
  match c with
  | CNew j | CClose j => j <> i
  | COpen j g m => j <> i /\ (g = f -> m = MRead)
  | _ => True
  end.
(** The write calls made on the object, in order. *)
Definition written (i : nat) (cs : list call) : list wcall :=
  flat_map (fun c => match c with CWrite j x => if Nat.eqb j i then [x] else [] | _ => [] end) cs.

(** The variables of the file [new] behind those found before. *)
Definition behind (old : reader) (new : store) : reader :=
  Reader (r_mats old ++ r_mats (open_store new)) (r_strs old ++ st_strs new).
