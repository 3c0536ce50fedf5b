(** Vocabulary for CODE, GO+CODE and DREAM distribution functions in files. *)
From Coq Require Import Reals QArith Qreals ZArith String.
From Verif Require Import Base ErrSpec SettingsModel SdtModel SessionModel SFileModel TypedModel HdfModel HdfSpec DomainModel NumericModel CodeModel CodeSpec LoaderModel LoaderSpec FieldFileSpec DistFileSpec.
Local Open Scope Z_scope.

(** The variable [n] of the group [path], which may be given with or without a slash at its end;
    the empty path is the whole file. *)
Inductive in_path : str -> str -> str -> Prop :=
| ip_root : forall n, in_path [] n n
| ip_slash : forall p n, in_path (p ++ ["/"%char]) n (p ++ "/"%char :: n)
| ip_plain : forall p c n, c <> "/"%char -> in_path (p ++ [c]) n ((p ++ [c]) ++ "/"%char :: n).
(** The variables of a CODE distribution function in a group of a file. *)
Definition code_in (v : view) (path : str) (m : cfile) : Prop := forall n full, in_path path n full ->
  (n = str_of "y" -> variable v full (cf_y m)) /\ (n = str_of "delta" -> variable v full (cf_delta m)) /\
  (n = str_of "nref" -> variable v full (cf_nref m)) /\ (n = str_of "Tref" -> variable v full (cf_Tref m)) /\
  (n = str_of "Nxi" -> variable v full (cf_Nxi m)) /\ (n = str_of "f" -> variable v full (cf_f m)).
(** The group of radius [i] at time [t]: "t0/r0/", "t0/r1/", ..., "t12/r10/", ... *)
Definition for_slice (t : Z) (i : nat) (full : str) : Prop :=
  exists a b, numeral t a /\ numeral (Z.of_nat i) b /\ full = "t"%char :: a ++ "/"%char :: "r"%char :: b ++ ["/"%char].
(** The variables of a GO+CODE file; [nt] is the number of times. *)
Definition gocode_in (v : view) (magic : option bool) (r : option (marray R)) (nt : option R) (files : Z -> nat -> cfile) : Prop :=
  match magic with
  | None => missing v (str_of "type")
  | Some b => exists t, has_text v (str_of "type") t /\ (b = true <-> t = str_of "distribution/gocode")
  end /\
  variable v (str_of "r") r /\
  match nt with
  | None => missing v (str_of "nt")
  | Some x => exists a, variable v (str_of "nt") (Some a) /\ number (Some a) x
  end /\
  forall rs x t i d, vector r rs -> nt = Some x -> (0 <= IZR t < x)%R -> (i < length rs)%nat -> for_slice t i d -> code_in v d (files t i).
(** The variables of a DREAM file: arrays that may be the distribution named [distname] or one of the two found without
    a name, and the grids. *)
Definition dream_names (distname : string) : list string := ["/eqsys/f_re"; "/eqsys/f_hot"; full_name distname]%string.
Definition dream_grids : list string := ["/grid/t"; "/grid/r"; "/grid/runaway/p1"; "/grid/runaway/p2"; "/grid/hottail/p1"; "/grid/hottail/p2"]%string.
Definition dream_in (v : view) (d : dream) (distname : string) : Prop :=
  (forall n, In n (dream_names distname) ->
     match dr_array d n with
     | None => has d n = false /\ missing v (str_of n)
     | Some (dims, l) => has d n = true /\ exists q, has_multi v (str_of n) dims q /\ l = map Q2R q
     end) /\
  (forall n, In n dream_grids ->
     match dr_vec d n with
     | None => missing v (str_of n)
     | Some l => exists a, has_array v (str_of n) a /\ l = map Q2R (ma_data a)
     end).
