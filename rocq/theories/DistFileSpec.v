(** Vocabulary for distribution functions in files. *)
From Coq Require Import Reals QArith Qreals ZArith.
From Verif Require Import Base ErrSpec SettingsModel SdtModel SessionModel SFileModel TypedModel HdfModel HdfSpec DomainModel NumericModel CodeModel CodeSpec LoaderModel FieldFileSpec.
Local Open Scope Z_scope.

(** What a file holds: missing variables, texts, arrays of numbers with one or two dimensions, and
    arrays with any number of dimensions. *)
Record view : Type := View
  { missing : str -> Prop; has_text : str -> str -> Prop; has_array : str -> marray Q -> Prop; has_multi : str -> list nat -> list Q -> Prop }.
(** HDF5 and MAT files. *)
Definition hdf_view (k : kind) (x : hfile) : view :=
  View (fun n => find n (h_sets x) = None) (text_in k x) (array_in x)
       (fun n dims l => exists d, find n (h_sets x) = Some d /\ d_type d <> HString /\ d_dims d = map Z.of_nat dims /\ d_data d = l).
(** SDT files, after they have been read. *)
Definition sdt_view (rd : reader) : view :=
  View (fun n => fst (do_read rd (RHas n)) = Ok (VBool false)) (sdt_text rd) (sdt_array rd) (fun _ _ _ => False).

(** A variable that is missing, or an array of numbers. *)
Definition variable (v : view) (n : str) (o : option (marray R)) : Prop :=
  match o with
  | None => missing v n
  | Some a => exists q, has_array v n q /\ length (ma_data q) = (ma_rows q * ma_cols q)%nat /\
      ma_rows a = ma_rows q /\ ma_cols a = ma_cols q /\ ma_data a = map Q2R (ma_data q)
  end.
(** The name of a variable for radius number [i]: "r0/p", "r1/p", ..., "r10/p", ... *)
Definition for_radius (i : nat) (name full : str) : Prop := exists d, numeral (Z.of_nat i) d /\ full = "r"%char :: d ++ "/"%char :: name.
(** The variables of a SOFT file. *)
Definition soft_in (v : view) (magic : option bool) (r : option (marray R)) (groups : nat -> sgroup) : Prop :=
  match magic with
  | None => missing v (str_of "type")
  | Some b => exists t, has_text v (str_of "type") t /\ (b = true <-> t = str_of "distribution/soft")
  end /\
  variable v (str_of "r") r /\
  forall rs i n, vector r rs -> (i < length rs)%nat ->
    (for_radius i (str_of "p") n -> variable v n (sg_p (groups i))) /\
    (for_radius i (str_of "xi") n -> variable v n (sg_xi (groups i))) /\
    (for_radius i (str_of "f") n -> variable v n (sg_f (groups i))).
(** The variables of an old SOFT file. *)
Definition depr_in (v : view) (d : depr) : Prop :=
  variable v (str_of "r") (dp_r d) /\ variable v (str_of "p") (dp_p d) /\ variable v (str_of "xi") (dp_xi d) /\ variable v (str_of "f") (dp_f d) /\
  variable v (str_of "fp0") (dp_fp0 d) /\ variable v (str_of "fxi0") (dp_fxi0 d) /\ variable v (str_of "fr0") (dp_fr0 d) /\
  match dp_units d with None => missing v (str_of "punits") | Some u => has_text v (str_of "punits") (str_of u) end.
(** The variables of a LUKE file. *)
Definition luke_in (v : view) (l : luke) : Prop :=
  variable v (str_of "xrhoG") (lk_r l) /\ variable v (str_of "pn") (lk_p l) /\ variable v (str_of "betath_ref") (lk_beta l) /\
  variable v (str_of "mhu") (lk_xi l) /\
  match lk_f l with
  | None => missing v (str_of "f") \/ exists dims data, has_multi v (str_of "f") dims data /\ (3 < length dims)%nat
  | Some (dims, data) => exists q, has_multi v (str_of "f") dims q /\ (length dims <= 3)%nat /\ data = map Q2R q
  end.

(** A write to the file [f] that went well, some time before; since then nobody created the file
    anew. *)
Definition written (rn : attr -> str) (rs : dataset -> str) (f : str) (now : hworld) (k : kind) (a : hwrite) : Prop :=
  exists w1 i w2 tr, v_obj w1 i = Some (HObj k (PFile f true)) /\ do_hcall rn rs w1 (HWr i a) = (Ok HDone, w2) /\
    run rn rs w2 tr now /\ Forall (fun e => ~ rewrites f (fst e)) tr.
(** Calls that write an array: as a list, as rows, or as an array with dimensions. *)
Inductive array_write : hwrite -> str -> marray Q -> Prop :=
| aw_list : forall n l, array_write (WNums HDouble n l) n (MArray 1 (length l) l)
| aw_rows : forall n nc rows, rows <> [] -> Forall (fun r => length r = nc) rows -> array_write (WRows HDouble n nc rows) n (MArray (length rows) nc (concat rows))
| aw_multi : forall n r c l, r <> 0%nat -> length l = (r * c)%nat -> array_write (WMulti HDouble n [Z.of_nat r; Z.of_nat c] l) n (MArray r c l).
(** A file that a program has written, as a reader of kind [k'] sees it. *)
Definition written_view (rn : attr -> str) (rs : dataset -> str) (f : str) (now : hworld) (k' : kind) : view :=
  View (fun n => exists x, v_fs now f = FHdf x /\ find n (h_sets x) = None)
       (fun n t => ~ In cNUL t /\ exists k, (k, k') <> (KMat, KHdf) /\ written rn rs f now k (WText n t))
       (fun n a => exists k c, written rn rs f now k c /\ array_write c n a)
       (fun n dims l => exists k, written rn rs f now k (WMulti HDouble n (map Z.of_nat dims) l)).
