(** Model of the integer readers of SFile, which adapt to the type of the stored data.
    Sources: src/SFile/SFile.cpp:175-297, SFile_HDF5.cpp:90-115, 233-301, SFile_SDT.cpp:96-106.
    [conv]: how the HDF5 library converts an element of a data set to another type. *)
From Verif Require Import Base SettingsModel SdtModel SessionModel SFileModel.
From Coq Require Import ZArith QArith.
Local Open Scope Z_scope.

(** SFile_HDF5.cpp:233-244, 290-301. *)
Definition same_type (h : htype) (t : ityp) : bool :=
  match h, t with HI32, I32 | HI64, I64 | HU32, U32 | HU64, U64 => true | _, _ => false end.
(** An element read as an integer of type [t] (SFile_HDF5.cpp:226, 283). *)
Definition h5_element (conv : htype -> ityp -> Q -> Z) (h : htype) (t : ityp) (q : Q) : Z :=
  if same_type h t then Z.quot (Qnum q) (Zpos (Qden q)) else conv h t q.
(** SFile_HDF5.cpp:195-229, 233-244 [GetInt32_2D] and its siblings. *)
Definition h5_ints2d (conv : htype -> ityp -> Q -> Z) (t : ityp) (f : h5) (name : str) : outcome (Z * Z * list (list Z)) :=
  match find name f with
  | None => Throw
  | Some d => obind (h5_get2d f name) (fun '(r, c, rows) => Ok (r, c, map (map (h5_element conv (d_type d) t)) rows))
  end.
(** SFile_HDF5.cpp:258-286, 290-301 [GetInt32_1D] and its siblings. *)
Definition h5_ints1d (conv : htype -> ityp -> Q -> Z) (t : ityp) (f : h5) (name : str) : outcome (list Z) :=
  match find name f with
  | None => Throw
  | Some d => obind (h5_get1d f name) (fun l => Ok (map (h5_element conv (d_type d) t) l))
  end.
(** SFile_HDF5.cpp:90-115 [GetDataType]; the hint is not used. *)
Definition h5_data_type (f : h5) (name : str) (hint : dtype) : dtype :=
  match h5_type f name with
  | None => TUndefined
  | Some SDouble => TDouble
  | Some SInt32 => TInt I32
  | Some SInt64 => TInt I64
  | Some SUInt32 => TInt U32
  | Some SUInt64 => TInt U64
  | Some SString => TString
  end.

(** [(int64_t)x] of an integer: modulo 2^64 (SFile.cpp:186, 201, 262-265). *)
Definition to_int64 (z : Z) : Z := (z + 2 ^ 63) mod 2 ^ 64 - 2 ^ 63.
(** SFile.cpp:175-194 [__Get2DAs]: with no rows, [b[0]] is written although [b] is empty. *)
Definition as_2d {A} (cast : A -> outcome Z) (r : outcome (Z * Z * list (list A))) : outcome (Z * Z * list (list Z)) :=
  obind r (fun '(nr, nc, rows) =>
    if nr =? 0 then UB else obind (obind_list (obind_list cast) rows) (fun zs => Ok (nr, nc, zs))).
(** SFile.cpp:195-206 [__Get1DAs]. *)
Definition as_1d {A} (cast : A -> outcome Z) (r : outcome (list A)) : outcome (list Z) := obind r (obind_list cast).
(** SFile.cpp:298-312 [__GetSingle]. *)
Definition single {A} (r : outcome (Z * Z * list (list A))) : outcome A :=
  obind r (fun '(nr, nc, rows) =>
    if (negb (nr =? 1) || negb (nc =? 1))%bool then Throw
    else match concat rows with x :: _ => Ok x | [] => UB end).
(** Casts of the template instances for [int64_t] (SFile.cpp:186, 201, 262-266). *)
Definition cast_double (q : Q) : outcome Z := cast_int I64 q.
(** SFile.cpp:186, 201, 262-265. *)
Definition cast_integer (z : Z) : outcome Z := Ok (to_int64 z).

(** SFile.cpp:208-228, 279-281 [GetIntArray] of HDF5 and MAT files. *)
Definition h5_int_array (conv : htype -> ityp -> Q -> Z) (f : h5) (name : str) : outcome (Z * Z * list (list Z)) :=
  match h5_data_type f name (TInt I64) with
  | TDouble => as_2d cast_double (h5_get2d f name)
  | TInt t => as_2d cast_integer (h5_ints2d conv t f name)
  | TString | TUndefined => Throw
  end.
(** SFile.cpp:229-249, 283-285 [GetIntList] of HDF5 and MAT files. *)
Definition h5_int_list (conv : htype -> ityp -> Q -> Z) (f : h5) (name : str) : outcome (list Z) :=
  match h5_data_type f name (TInt I64) with
  | TDouble => as_1d cast_double (get_list (h5_get2d f name))
  | TInt t => as_1d cast_integer (h5_ints1d conv t f name)
  | TString | TUndefined => Throw
  end.
(** SFile.cpp:251-271, 287-289 [GetInt] of HDF5 and MAT files. *)
Definition h5_int (conv : htype -> ityp -> Q -> Z) (f : h5) (name : str) : outcome Z :=
  match h5_data_type f name (TInt I64) with
  | TDouble => obind (get_scalar (h5_get2d f name)) cast_double
  | TInt t => obind (single (h5_ints2d conv t f name)) cast_integer
  | TString | TUndefined => Throw
  end.

(** Results of the readers called on an SDT file, as the pointers they return
    (SFile_SDT.cpp:155-187, 236-259). *)
Definition want_mat (r : outcome rvalue) : outcome (Z * Z * list (list Z)) :=
  obind r (fun v => match v with VIMat a b rows => Ok (a, b, rows) | _ => UB end).
(** SFile_SDT.cpp:236-259. *)
Definition want_vec (r : outcome rvalue) : outcome (list Z) := obind r (fun v => match v with VIVec l => Ok l | _ => UB end).
(** SFile.cpp:315. *)
Definition want_int (r : outcome rvalue) : outcome Z := obind r (fun v => match v with VInt z => Ok z | _ => UB end).
(** SFile_SDT.cpp:130-145, 208-226. *)
Definition want_dmat (r : outcome rvalue) : outcome (Z * Z * list (list Q)) :=
  obind r (fun v => match v with VMat a b rows => Ok (a, b, rows) | _ => UB end).
(** SFile_SDT.cpp:208-226. *)
Definition want_dvec (r : outcome rvalue) : outcome (list Q) := obind r (fun v => match v with VVec l => Ok l | _ => UB end).
(** SFile.cpp:313. *)
Definition want_num (r : outcome rvalue) : outcome Q := obind r (fun v => match v with VNum q => Ok q | _ => UB end).

(** SFile.cpp:208-228, 279-281 [GetIntArray] of SDT files: result and object afterwards. *)
Definition sdt_int_array (r : reader) (name : str) : outcome (Z * Z * list (list Z)) * reader :=
  match data_type r name (TInt I64) with
  | TInt t => let (v, r') := do_read r (RInts t name) in (as_2d cast_integer (want_mat v), r')
  | TDouble => let (v, r') := do_read r (RDoubles name) in
               (as_2d cast_double (want_dmat v), freed r' name) (* lines 190-191 *)
  | TString | TUndefined => (Throw, r)
  end.
(** SFile.cpp:229-249, 283-285 [GetIntList] of SDT files. *)
Definition sdt_int_list (r : reader) (name : str) : outcome (list Z) * reader :=
  match data_type r name (TInt I64) with
  | TInt t => let (v, r') := do_read r (RIntVec t name) in (as_1d cast_integer (want_vec v), r')
  | TDouble => let (v, r') := do_read r (RList name) in
               (as_1d cast_double (want_dvec v), freed r' name) (* line 203 *)
  | TString | TUndefined => (Throw, r)
  end.
(** SFile.cpp:251-271, 287-289 [GetInt] of SDT files. *)
Definition sdt_int (r : reader) (name : str) : outcome Z * reader :=
  match data_type r name (TInt I64) with
  | TInt t => let (v, r') := do_read r (RInt t name) in (obind (want_int v) cast_integer, r')
  | TDouble => let (v, r') := do_read r (RScalar name) in (obind (want_num v) cast_double, r')
  | TString | TUndefined => (Throw, r)
  end.
