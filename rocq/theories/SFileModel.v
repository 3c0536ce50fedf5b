(** Model of the format-independent part of SFile and of the HDF5/MAT back ends.
    Sources: src/SFile/SFile.cpp, SFile_HDF5.cpp, SFile_MAT.HDF5.cpp.
    The HDF5 library itself is modelled as a table of named data sets that returns
    what was written and refuses to create a name twice. *)
From Verif Require Import Base SettingsModel SdtModel.
From Coq Require Import ZArith QArith.
Local Open Scope Z_scope.

(** * File types (SFile.cpp) *)
Inductive ftype : Type := FUnknown | FHdf5 | FMatlab | FSdt.

(** SFile.cpp:69-77 [GetFileType]. *)
Definition file_type (ext : str) : ftype :=
  if str_eqb ext (str_of "h5") then FHdf5
  else if str_eqb ext (str_of "hdf5") then FHdf5
  else if str_eqb ext (str_of "mat") then FMatlab
  else if str_eqb ext (str_of "sdt") then FSdt
  else if str_eqb ext (str_of "out") then FSdt
  else FUnknown.
(** [filename.find_last_of(".")] and [filename.substr(i+1)] (SFile.cpp:134-139). *)
Fixpoint after_last_dot (s : str) : option str :=
  match s with
  | [] => None
  | c :: r => match after_last_dot r with
              | Some e => Some e
              | None => if Ascii.eqb c "."%char then Some r else None
              end
  end.
(** SFile.cpp:134-139 [TypeOfFile]. *)
Definition type_of_file (name : str) : ftype :=
  match after_last_dot name with
  | None => FUnknown
  | Some ext => file_type ext
  end.
(** SFile.cpp:25-62 [Create]: which implementation is constructed; [hdf5] is the build
    option SOFT_HDF5. *)
Definition create (hdf5 : bool) (name : str) : outcome ftype :=
  match type_of_file name with
  | FHdf5 => if hdf5 then Ok FHdf5 else Throw
  | FMatlab => Ok FMatlab
  | FSdt => Ok FSdt
  | FUnknown => Throw
  end.

(** * Multi-dimensional arrays (SFile.cpp:97-124) *)
(** [for (i = 0; i < ndims; i++) nel *= dims[i]]: 64-bit product (SFile.cpp:104-106). *)
Definition prod64 (dims : list Z) : Z := fold_left (fun a d => (a * d) mod 2 ^ 64) dims 1.
(** The loop of lines 109-121 over dims[ndims-1], ..., dims[1]; every table is the list of
    its entries, each entry being the element of the next table (or of the data) that
    it points to (SFile.cpp:110-121). *)
Fixpoint build_tables (rdims : list Z) (nel : Z) (acc : list (list Z)) : outcome (list (list Z)) :=
  match rdims with
  | [] => Ok acc
  | n :: r => if n =? 0 then UB (* division by zero *)
              else let nel' := nel / n in
                   build_tables r nel' (map (fun j => Z.of_nat j * n) (seq 0 (Z.to_nat nel')) :: acc)
  end.
(** With fewer than two dimensions [ndims-2] wraps around and dims[] is read out of range
    (SFile.cpp:97-124). *)
Definition multi_tables (dims : list Z) : outcome (list (list Z)) :=
  match dims with
  | _ :: _ :: _ => build_tables (rev (tl dims)) (prod64 dims) []
  | _ => UB
  end.
(** [arr[i1][i2]...[ik]] as an index into the data (SFile.cpp:97-124). *)
Fixpoint deref (ts : list (list Z)) (off : Z) (idx : list Z) : outcome Z :=
  match ts, idx with
  | t :: ts', i :: idx' =>
      if off + i <? 0 then UB else
      match nth_error t (Z.to_nat (off + i)) with
      | None => UB
      | Some p => deref ts' p idx'
      end
  | [], [i] => Ok (off + i)
  | _, _ => UB
  end.

(** * HDF5 data sets *)
(** SFile_HDF5.cpp:90-115. *)
Inductive htype : Type := HDouble | HI32 | HI64 | HU32 | HU64 | HString | HU16.
(** SFile_HDF5.cpp:371-487. *)
Record dataset : Type := Dataset { d_type : htype; d_dims : list Z; d_data : list Q }.
(** SFile_HDF5.h:20-21. *)
Definition h5 : Type := list (str * dataset).

(** [createDataSet] followed by [write]: an existing name is an error
    (SFile_HDF5.cpp:376-380).  Names in structs need the struct to exist: see HdfModel. *)
Definition h5_create (f : h5) (name : str) (d : dataset) : outcome h5 :=
  match find name f with Some _ => Throw | None => Ok (f ++ [(name, d)]) end.

(** SFile_HDF5.cpp:70-79 [HasVariable]. *)
Definition h5_has (f : h5) (name : str) : bool := match find name f with Some _ => true | None => false end.
(** SFile_HDF5.cpp:90-115 [GetDataType]; [None] is SFILE_DATA_UNDEFINED. *)
Inductive sdtype : Type := SDouble | SInt32 | SInt64 | SUInt32 | SUInt64 | SString.
Definition h5_type (f : h5) (name : str) : option sdtype :=
  match find name f with
  | None => None
  | Some d => Some (match d_type d with
      | HI32 => SInt32 | HI64 => SInt64 | HU32 => SUInt32 | HU64 => SUInt64
      | HDouble => SDouble | HString => SString | HU16 => SString end)
  end.

(** SFile_HDF5.cpp:371-381 [WriteNumArray]: [arr[0]] is the start of contiguous rows. *)
Definition h5_write_array (t : htype) (f : h5) (name : str) (ncols : nat) (rows : list (list Q)) : outcome h5 :=
  match rows with
  | [] => UB (* arr[0] of an empty table *)
  | _ => h5_create f name (Dataset t [Z.of_nat (length rows); Z.of_nat ncols] (concat rows))
  end.
(** SFile_HDF5.cpp:422-447 [WriteNumList]. *)
Definition h5_write_list (t : htype) (f : h5) (name : str) (l : list Q) : outcome h5 :=
  h5_create f name (Dataset t [Z.of_nat (length l)] l).
(** SFile_HDF5.cpp:461-487 [WriteMultiNumArray]: [data] holds the product of [dims] elements. *)
Definition h5_write_multi (t : htype) (f : h5) (name : str) (dims : list Z) (data : list Q) : outcome h5 :=
  h5_create f name (Dataset t dims data).

(** Consecutive pieces of length [n] ([k] of them): the rows [data + i*n]
    (SFile_HDF5.cpp:219-223). *)
Fixpoint pieces {A} (k n : nat) (l : list A) : list (list A) :=
  match k with O => [] | S k' => firstn n l :: pieces k' n (skipn n l) end.
(** HDF5 does not convert characters to numbers: reading throws (SFile_HDF5.cpp:226, 283, 325). *)
Definition numeric (t : htype) : bool := match t with HString => false | _ => true end.
(** SFile_HDF5.cpp:195-229 [GetArray2D] for numbers that the requested type can hold
    ([GetDoubles]; for the integer readers see TypedModel).  [dims] of the caller has room for two
    numbers; a rank above two overflows it, rank zero leaves it unset. *)
Definition h5_get2d (f : h5) (name : str) : outcome (Z * Z * list (list Q)) :=
  match find name f with
  | None => Throw
  | Some d => match d_dims d with
      | [n] => if numeric (d_type d) then Ok (1, n, [d_data d]) else Throw
      | [r; c] => if numeric (d_type d) then Ok (r, c, pieces (Z.to_nat r) (Z.to_nat c) (d_data d)) else Throw
      | _ => UB
      end
  end.
(** SFile_HDF5.cpp:258-286 [GetArray1D]. *)
Definition h5_get1d (f : h5) (name : str) : outcome (list Q) :=
  match find name f with
  | None => Throw
  | Some d => match d_dims d with
      | [_] | [_; _] => if numeric (d_type d) then Ok (d_data d) else Throw
      | _ => UB
      end
  end.
(** SFile_HDF5.cpp:307-328 [GetMultiArray_linear]; [Ok None] is the null pointer. *)
Definition h5_get_multi (f : h5) (name : str) (nndims : nat) : outcome (option (list Z * list Q)) :=
  match find name f with
  | None => Throw
  | Some d => if Nat.ltb nndims (length (d_dims d)) then Ok None
              else if numeric (d_type d) then Ok (Some (d_dims d, d_data d)) else Throw
  end.
(** SFile.cpp:150-166 [GetList] and 299-313 [__GetSingle] on top of a matrix reader. *)
Definition get_list (r : outcome (Z * Z * list (list Q))) : outcome (list Q) :=
  obind r (fun '(nr, nc, rows) =>
    if ((nr =? 1) || (nc =? 1))%bool
    then match rows with [] => UB (* arr[0] of an empty table *) | _ => Ok (concat rows) end else Throw).
(** SFile.cpp:299-313. *)
Definition get_scalar (r : outcome (Z * Z * list (list Q))) : outcome Q :=
  obind r (fun '(nr, nc, rows) =>
    if (negb (nr =? 1) || negb (nc =? 1))%bool then Throw
    else match concat rows with q :: _ => Ok q | [] => UB end).

(** * MAT files (SFile_MAT.HDF5.cpp) *)
(** [(unsigned short)c] of a signed char (SFile_MAT.HDF5.cpp:322-326). *)
Definition ushort_of_char (c : ascii) : Z := char_code c mod 2 ^ 16.
(** Lines 317-336 [WriteString] (SFile_MAT.HDF5.cpp:317-336). *)
Definition mat_write_string (f : h5) (name v : str) : outcome h5 :=
  h5_create f name (Dataset HU16 [Z.of_nat (length v); 1] (map (fun c => inject_Z (ushort_of_char c)) v)).
(** [s = str] with a C string: up to the first NUL (SFile_MAT.HDF5.cpp:187-227). *)
Fixpoint until_nul (s : str) : str :=
  match s with c :: r => if Ascii.eqb c cNUL then [] else c :: until_nul r | [] => [] end.
(** Lines 187-227 [GetString] for 16-bit data.  The buffer has [len] elements; the read
    fills as many as the data set has (too many: overflow; too few: unset bytes are used)
    (SFile_MAT.HDF5.cpp:187-227). *)
Definition mat_get_string (f : h5) (name : str) : outcome str :=
  match find name f with
  | None => Throw
  | Some d =>
    match d_dims d, d_type d with
    | [n], HU16 | [n; 1], HU16 | [_; n], HU16 =>
        if Z.of_nat (length (d_data d)) =? n
        then Ok (until_nul (map (fun q => char_of_code (Qnum q)) (d_data d))) else UB
    | [_], HString | [_; _], HString => Ok (until_nul (map (fun q => char_of_code (Qnum q)) (d_data d)))
    | [_], _ | [_; _], _ => Throw
    | _, _ => Throw
    end
  end.
(** Lines 300-315 [WriteMultiInt32Array] and its siblings: the class name is written
    with [WriteString] under the same variable name.  Result and file afterwards
    (SFile_MAT.HDF5.cpp:300-315). *)
Definition mat_write_multi_int (t : htype) (cls : str) (f : h5) (name : str) (dims : list Z) (data : list Q)
  : outcome unit * h5 :=
  match h5_write_multi t f name dims data with
  | Ok f1 => match mat_write_string f1 name cls with
             | Ok f2 => (Ok tt, f2)
             | Throw => (Throw, f1)
             | UB => (UB, f1)
             end
  | Throw => (Throw, f)
  | UB => (UB, f)
  end.
(** Lines 154-158, 166-169, 257-260 (SFile_MAT.HDF5.cpp:275-278). *)
Definition mat_write_attr (f : h5) (dset name : str) (v : Q) : outcome h5 :=
  h5_write_list HDouble f (attr_name dset name) [v].
(** SFile_MAT.HDF5.cpp:154-158, 166-169. *)
Definition mat_get_attr (f : h5) (dset name : str) : outcome Q :=
  get_scalar (h5_get2d f (attr_name dset name)).

(** Lines 64-108 [CreateMAT]: the 116-byte text header (SFile_MAT.HDF5.cpp:83-86). *)
Definition day_names : list str := map str_of ["Sun"; "Mon"; "Tue"; "Wed"; "Thu"; "Fri"; "Sat"]%string.
(** SFile_MAT.HDF5.cpp:87-90. *)
Definition month_names : list str :=
  map str_of ["Jan"; "Feb"; "Mar"; "Apr"; "May"; "Jun"; "Jul"; "Aug"; "Sep"; "Oct"; "Nov"; "Dec"]%string.
(** The fields of struct tm: tm_wday, tm_mon (0 = January), tm_mday, tm_hour, tm_min,
    tm_sec and the year (tm_year + 1900) (SFile_MAT.HDF5.cpp:72-81). *)
Record tm : Type := Tm { t_wday : Z; t_mon : Z; t_mday : Z; t_hour : Z; t_min : Z; t_sec : Z; t_year : Z }.
(** [%02d] of a number that is not negative (SFile_MAT.HDF5.cpp:92-100). *)
Definition show2 (z : Z) : str := if z <? 10 then "0"%char :: show_int z else show_int z.
(** SFile_MAT.HDF5.cpp:98. *)
Definition at_array {A} (l : list A) (i : Z) : outcome A :=
  if i <? 0 then UB else match nth_error l (Z.to_nat i) with Some x => Ok x | None => UB end.
(** SFile_MAT.HDF5.cpp:107-109. *)
Definition pad_to (n : nat) (s : str) : str := s ++ repeat cSP (n - length s).
(** SFile_MAT.HDF5.cpp:64-108. *)
Definition mat_header (t : tm) : outcome str :=
  obind (at_array day_names (t_wday t)) (fun day =>
  obind (at_array month_names (t_mon t - 1)) (fun mon =>
    let s := str_of "MATLAB 7.3 MAT-file, Platform: libsoft, Created on: " ++ day ++ cSP :: mon ++ cSP :: show2 (t_mday t)
      ++ cSP :: show2 (t_hour t) ++ ":"%char :: show2 (t_min t) ++ ":"%char :: show2 (t_sec t) ++ cSP :: show_int (t_year t)
      ++ str_of " HDF5 schema 1.00 ." in
    if Nat.ltb 116 (length s) then Throw else Ok (pad_to 116 s))).
