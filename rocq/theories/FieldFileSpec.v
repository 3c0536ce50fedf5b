(** Vocabulary for numeric magnetic fields in files. *)
From Coq Require Import Reals QArith Qreals ZArith.
From Verif Require Import Base SettingsModel SdtModel SessionModel SFileModel TypedModel HdfModel DomainModel NumericModel FieldFileModel.
Local Open Scope Z_scope.

(** A variable of a file that is an array of numbers with [rows] rows, at least one (a vector:
    one row), in the order in which the numbers are stored. *)
Definition array_in (x : hfile) (n : str) (a : marray Q) : Prop :=
  exists d, find n (h_sets x) = Some d /\ d_type d <> HString /\ d_data d = ma_data a /\
  length (ma_data a) = (ma_rows a * ma_cols a)%nat /\ ma_rows a <> 0%nat /\
  (d_dims d = [Z.of_nat (ma_rows a); Z.of_nat (ma_cols a)] \/ ma_rows a = 1%nat /\ d_dims d = [Z.of_nat (ma_cols a)]).
(** A variable that is a list of numbers: a vector, one row, or one column. *)
Definition list_in (x : hfile) (n : str) (l : list Q) : Prop :=
  exists a, array_in x n a /\ ma_data a = l /\ (ma_rows a = 1%nat \/ ma_cols a = 1%nat).
(** A text that is there in the way the kind of file has texts. *)
Definition text_in (k : kind) (x : hfile) (n s : str) : Prop :=
  ~ In cNUL s /\ exists d, find n (h_sets x) = Some d /\
  match k with
  | KHdf => d_type d = HString /\ d_data d = text_data s
  | KMat => d = Dataset HString [Z.of_nat (length s)] (text_data s) \/
            d = Dataset HU16 [Z.of_nat (length s); 1] (map (fun c => inject_Z (ushort_of_char c)) s)
  end.
(** A variable that is there, or is not. *)
Definition maybe {A : Type} (x : hfile) (n : str) (P : hfile -> str -> A -> Prop) (v : option A) : Prop :=
  match v with Some a => P x n a | None => find n (h_sets x) = None end.
(** Numbers as coordinates. *)
Definition axis_in (x : hfile) (n : str) (l : list R) : Prop := exists q, list_in x n q /\ l = map Q2R q.
Definition contour_in (x : hfile) (n : str) (a : marray R) : Prop :=
  exists q, array_in x n q /\ ma_rows a = ma_rows q /\ ma_cols a = ma_cols q /\ ma_data a = map Q2R (ma_data q).
(** A file that holds the given variables of a magnetic field (and may hold others). *)
Definition holds (k : kind) (x : hfile) (m : mfile Q str) : Prop :=
  maybe x (str_of "name") (text_in k) (f_name Q str m) /\ maybe x (str_of "desc") (text_in k) (f_desc Q str m) /\
  maybe x (str_of "maxis") axis_in (f_maxis Q str m) /\
  maybe x (str_of "r") list_in (f_r Q str m) /\ maybe x (str_of "z") list_in (f_z Q str m) /\
  maybe x (str_of "Br") array_in (f_Br Q str m) /\ maybe x (str_of "Bphi") array_in (f_Bphi Q str m) /\
  maybe x (str_of "Bz") array_in (f_Bz Q str m) /\ maybe x (str_of "Psi") array_in (f_Psi Q str m) /\
  maybe x (str_of "verBr") list_in (f_verBr Q str m) /\ maybe x (str_of "verBphi") list_in (f_verBphi Q str m) /\
  maybe x (str_of "verBz") list_in (f_verBz Q str m) /\
  maybe x (str_of "wall") contour_in (f_wall Q str m) /\ maybe x (str_of "separatrix") contour_in (f_sep Q str m).
(** The variables without which a field cannot be loaded. *)
Definition required : list str := map str_of ["name"; "desc"; "maxis"; "r"; "z"; "Br"; "Bphi"; "Bz"]%string.

(** The same for SDT files: what has been read from the file. *)
Definition sdt_text (rd : reader) (n s : str) : Prop := fst (do_read rd (RString n)) = Ok (VStr s).
Definition sdt_array (rd : reader) (n : str) (a : marray Q) : Prop :=
  exists rows, fst (do_read rd (RDoubles n)) = Ok (VMat (Z.of_nat (ma_rows a)) (Z.of_nat (ma_cols a)) rows) /\ rows <> [] /\ concat rows = ma_data a.
Definition sdt_list (rd : reader) (n : str) (l : list Q) : Prop :=
  exists a, sdt_array rd n a /\ ma_data a = l /\ (ma_rows a = 1%nat \/ ma_cols a = 1%nat).
Definition sdt_maybe {A : Type} (rd : reader) (n : str) (P : reader -> str -> A -> Prop) (v : option A) : Prop :=
  match v with Some a => P rd n a | None => fst (do_read rd (RDoubles n)) = Throw end.
Definition sdt_holds (rd : reader) (m : mfile Q str) : Prop :=
  (match f_name Q str m with Some s => sdt_text rd (str_of "name") s | None => fst (do_read rd (RString (str_of "name"))) = Throw end) /\
  (match f_desc Q str m with Some s => sdt_text rd (str_of "desc") s | None => fst (do_read rd (RString (str_of "desc"))) = Throw end) /\
  sdt_maybe rd (str_of "maxis") (fun rd n l => exists q, sdt_list rd n q /\ l = map Q2R q) (f_maxis Q str m) /\
  sdt_maybe rd (str_of "r") sdt_list (f_r Q str m) /\ sdt_maybe rd (str_of "z") sdt_list (f_z Q str m) /\
  sdt_maybe rd (str_of "Br") sdt_array (f_Br Q str m) /\ sdt_maybe rd (str_of "Bphi") sdt_array (f_Bphi Q str m) /\
  sdt_maybe rd (str_of "Bz") sdt_array (f_Bz Q str m) /\ sdt_maybe rd (str_of "Psi") sdt_array (f_Psi Q str m) /\
  sdt_maybe rd (str_of "verBr") sdt_list (f_verBr Q str m) /\ sdt_maybe rd (str_of "verBphi") sdt_list (f_verBphi Q str m) /\
  sdt_maybe rd (str_of "verBz") sdt_list (f_verBz Q str m) /\
  sdt_maybe rd (str_of "wall") (fun rd n a => exists q, sdt_array rd n q /\ ma_rows a = ma_rows q /\ ma_cols a = ma_cols q /\ ma_data a = map Q2R (ma_data q)) (f_wall Q str m) /\
  sdt_maybe rd (str_of "separatrix") (fun rd n a => exists q, sdt_array rd n q /\ ma_rows a = ma_rows q /\ ma_cols a = ma_cols q /\ ma_data a = map Q2R (ma_data q)) (f_sep Q str m).

(** Data that can be saved: tables of the size of the grid, with flux; texts without NUL. *)
Definition savable (d : fdata) : Prop :=
  let n := (length (e_R d) * length (e_Z d))%nat in
  n <> 0%nat /\ length (e_Br d) = n /\ length (e_Bphi d) = n /\ length (e_Bz d) = n /\
  (exists psi, e_Psi d = Some psi /\ length psi = n) /\ ~ In cNUL (e_name d) /\ ~ In cNUL (e_desc d).
