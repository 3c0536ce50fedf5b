(** Model of HDF5 and MAT files on disk: objects, files, groups, texts and attributes.
    Sources: src/SFile/SFile_HDF5.cpp, SFile_MAT.HDF5.cpp, SFile.cpp:25-62.
    Parameters of the world outside: for every call of Open whether the HDF5 library
    succeeds ([lib]) and the time ([tm]); [raw_num], [raw_set]: the bytes of a number and
    of a data set that is not text.  A path is taken literally: two spellings of one path
    are not identified, and "." is a name like others.  Different file names are different files, and data written is in
    the file when the call returns. *)
From Verif Require Import Base SettingsModel SdtModel SessionModel SFileModel TypedModel.
From Coq Require Import ZArith QArith.
Local Open Scope Z_scope.

(** Attributes of a data set (SFile_HDF5.cpp:495-520, SFile_MAT.HDF5.cpp:346-393). *)
Inductive attr : Type := ANum (q : Q) | AText (s : str) | AInt (z : Z).
(** A file: the bytes in front of the HDF5 data, groups, data sets, attributes
    (SFile_HDF5.cpp:338-520, SFile_MAT.HDF5.cpp:112-126). *)
Record hfile : Type := HFile {
  h_block : str; h_groups : list str; h_sets : h5; h_attrs : list (str * str * attr) }.
(** SFile_HDF5.cpp:31-53. *)
Inductive fcontent : Type := FNone | FOther | FHdf (x : hfile).
(** [H5File *file]: not set by the constructor (SFile_HDF5.cpp:17-20, SFile_HDF5.h:21). *)
Inductive fileptr : Type := PUnset | PNull | PFile (f : str) (writable : bool).
(** SFile.cpp:40-53. *)
Inductive kind : Type := KHdf | KMat.
(** SFile_HDF5.h:7-40. *)
Record hobj : Type := HObj { o_kind : kind; o_file : fileptr }.
(** Files and objects of a program; [None]: not constructed, or destroyed
    (SFile_HDF5.cpp:17-64). *)
Record hworld : Type := HWorld { v_fs : str -> fcontent; v_obj : nat -> option hobj }.
(** SFile_HDF5.cpp:31-53. *)
Definition put_file (fs : str -> fcontent) (f : str) (x : fcontent) : str -> fcontent :=
  fun g => if str_eqb g f then x else fs g.
(** SFile_HDF5.cpp:17-64. *)
Definition put_obj (ob : nat -> option hobj) (i : nat) (o : option hobj) : nat -> option hobj :=
  fun j => if Nat.eqb j i then o else ob j.

(** * Names *)
(** The part of a name in front of the last slash, if there is one (SFile_HDF5.cpp:357, 378). *)
Fixpoint group_of (name : str) : option str :=
  match name with
  | [] => None
  | c :: r => match group_of r with
              | Some g => Some (c :: g)
              | None => if Ascii.eqb c "/"%char then Some [] else None
              end
  end.
(** SFile_HDF5.cpp:339, 357, 378. *)
Definition mem_str (s : str) (l : list str) : bool := existsb (str_eqb s) l.
(** Nothing behind the last slash: no name (SFile_HDF5.cpp:339, 357, 378). *)
Definition nameless (name : str) : bool := match rev name with [] => true | c :: _ => Ascii.eqb c "/"%char end.
(** HDF5 does not create missing groups; the root group, in front of a slash at the beginning,
    is always there (SFile_HDF5.cpp:339, 357, 378). *)
Definition group_exists (x : hfile) (name : str) : bool :=
  (negb (nameless name) && match group_of name with None | Some [] => true | Some g => mem_str g (h_groups x) end)%bool.

(** [createDataSet] (SFile_HDF5.cpp:357, 378, 429, 467). *)
Definition h_create (x : hfile) (name : str) (d : dataset) : outcome hfile :=
  if (group_exists x name && negb (mem_str name (h_groups x)))%bool
  then obind (h5_create (h_sets x) name d) (fun f => Ok (HFile (h_block x) (h_groups x) f (h_attrs x)))
  else Throw.
(** SFile_HDF5.cpp:338-341 [CreateStruct]; for MAT files see also SFile_MAT.HDF5.cpp:238-243
    (the class of a group is not modelled). *)
Definition h_create_group (x : hfile) (name : str) : outcome hfile :=
  if (group_exists x name && negb (mem_str name (h_groups x)) && negb (h5_has (h_sets x) name))%bool
  then Ok (HFile (h_block x) (h_groups x ++ [name]) (h_sets x) (h_attrs x))
  else Throw.

(** * Attributes *)
(** SFile_HDF5.cpp:129-130. *)
Fixpoint find_attr (d n : str) (l : list (str * str * attr)) : option attr :=
  match l with
  | [] => None
  | (d', n', a) :: r => if (str_eqb d d' && str_eqb n n')%bool then Some a else find_attr d n r
  end.
(** [openDataSet] and [createAttribute] (SFile_HDF5.cpp:496-498, 515-518,
    SFile_MAT.HDF5.cpp:348-354). *)
Definition h_add_attr (x : hfile) (d n : str) (a : attr) : outcome hfile :=
  if h5_has (h_sets x) d then
    match find_attr d n (h_attrs x) with
    | Some _ => Throw
    | None => Ok (HFile (h_block x) (h_groups x) (h_sets x) (h_attrs x ++ [(d, n, a)]))
    end
  else Throw.

(** * Writing *)
(** Calls that write (SFile_HDF5.cpp:338-520). *)
Inductive hwrite : Type :=
| WNums (t : htype) (name : str) (l : list Q)                       (* SFile_HDF5.cpp:422-447 *)
| WRows (t : htype) (name : str) (nc : nat) (rows : list (list Q))  (* 371-411 *)
| WMulti (t : htype) (name : str) (dims : list Z) (data : list Q)   (* 461-485 *)
| WText (name v : str)                                              (* 352-360 *)
| WGroup (name : str)                                               (* 338-341 *)
| WAttr (d n : str) (v : Q)                                         (* 495-500 *)
| WAttrText (d n v : str).                                          (* 512-520 *)

(** Characters stored as numbers (SFile_HDF5.cpp:358). *)
Definition text_data (v : str) : list Q := map (fun c => inject_Z (char_code c)) v.
(** SFile_HDF5.cpp:338-520. *)
Definition hdf_write (x : hfile) (w : hwrite) : outcome hfile :=
  match w with
  | WNums t n l => h_create x n (Dataset t [Z.of_nat (length l)] l)
  | WRows t n nc rows =>
      match rows with
      | [] => UB (* arr[0] of an empty table *)
      | _ => h_create x n (Dataset t [Z.of_nat (length rows); Z.of_nat nc] (concat rows))
      end
  | WMulti t n dims data => h_create x n (Dataset t dims data)
  | WText n v => h_create x n (Dataset HString [Z.of_nat (length v)] (text_data v))
  | WGroup n => h_create_group x n
  | WAttr d n v => h_add_attr x d n (ANum v)
  | WAttrText d n v => h_add_attr x d n (AText v)
  end.
(** The names MATLAB uses (SFile_MAT.HDF5.cpp:254-273, 296-315). *)
Definition mat_class (t : htype) : str :=
  match t with
  | HI32 => str_of "int32" | HI64 => str_of "int64" | HU32 => str_of "uint32" | HU64 => str_of "uint64"
  | HDouble => str_of "double" | HString | HU16 => str_of "char"
  end.
(** SFile_MAT.HDF5.cpp:346-365. *)
Definition class_name : str := str_of "MATLAB_class".
(** SFile_MAT.HDF5.cpp:317-336 [WriteString]. *)
Definition mat_text (x : hfile) (n v : str) : outcome hfile :=
  obind (h_create x n (Dataset HU16 [Z.of_nat (length v); 1] (map (fun c => inject_Z (ushort_of_char c)) v))) (fun x1 =>
  obind (h_add_attr x1 n class_name (AText (str_of "char"))) (fun x2 =>
  h_add_attr x2 n (str_of "MATLAB_int_decode") (AInt 2))).
(** Result of a write and the file afterwards: a write that throws on the way leaves what it
    has already stored (SFile_MAT.HDF5.cpp:238-336). *)
Definition mat_write (x : hfile) (w : hwrite) : outcome unit * hfile :=
  let whole (r : outcome hfile) := match r with Ok y => (Ok tt, y) | Throw => (Throw, x) | UB => (UB, x) end in
  let then_do (r : outcome hfile) (g : hfile -> outcome hfile) :=
    match r with
    | Ok y => match g y with Ok z => (Ok tt, z) | Throw => (Throw, y) | UB => (UB, y) end
    | Throw => (Throw, x) | UB => (UB, x)
    end in
  match w with
  | WNums _ _ _ => whole (hdf_write x w)
  | WRows t n _ _ => then_do (hdf_write x w) (fun y => h_add_attr y n class_name (AText (mat_class t)))
  | WMulti t n _ _ =>
      match t with
      | HDouble => then_do (hdf_write x w) (fun y => h_add_attr y n class_name (AText (mat_class t)))
      | _ => then_do (hdf_write x w) (fun y => mat_text y n (mat_class t))
      end
  | WText n v => whole (mat_text x n v)
  | WGroup _ => whole (hdf_write x w)
  | WAttr d n v => whole (h_create x (attr_name d n) (Dataset HDouble [1] [v]))
  | WAttrText d n v => whole (mat_text x (attr_name d n) v)
  end.
(** SFile_HDF5.cpp:338-520, SFile_MAT.HDF5.cpp:238-336. *)
Definition kind_write (k : kind) (x : hfile) (w : hwrite) : outcome unit * hfile :=
  match k with
  | KMat => mat_write x w
  | KHdf => match hdf_write x w with Ok y => (Ok tt, y) | Throw => (Throw, x) | UB => (UB, x) end
  end.

(** * Reading *)
(** Calls that read (SFile_HDF5.cpp:70-328). *)
Inductive hread : Type :=
| RdHas (n : str)                 (* SFile_HDF5.cpp:70-79 *)
| RdType (n : str)                (* 90-115 *)
| RdDoubles (n : str)             (* 230-232 *)
| RdVec (n : str)                 (* 287-289 *)
| RdMulti (n : str) (room : nat)  (* 307-328 *)
| RdText (n : str)                (* 169-182 *)
| RdAttr (d n : str)              (* 126-139 *)
| RdAttrText (d n : str).         (* 147-160 *)
(** SFile_HDF5.cpp:70-328. *)
Inductive hvalue : Type :=
| HBool (b : bool) | HType (t : dtype) | HMat (r c : Z) (rows : list (list Q)) | HVec (l : list Q)
| HMulti (o : option (list Z * list Q)) | HText (s : str) | HNum (q : Q).

(** [read(s, type, dspace)]: the bytes up to the first NUL, whatever the type
    (SFile_HDF5.cpp:169-182; the HDF5 library assigns a C string). *)
Definition hdf_text (raw_set : dataset -> str) (x : hfile) (n : str) : outcome str :=
  match find n (h_sets x) with
  | None => Throw
  | Some d => Ok (until_nul (match d_type d with
                             | HString => map (fun q => char_of_code (Qnum q)) (d_data d)
                             | _ => raw_set d end))
  end.
(** SFile_HDF5.cpp:126-139: other types are read into the [double] as they are. *)
Definition hdf_attr (x : hfile) (d n : str) : outcome Q :=
  if h5_has (h_sets x) d then
    match find_attr d n (h_attrs x) with
    | None => Throw
    | Some (ANum q) => Ok q
    | Some _ => UB
    end
  else Throw.
(** SFile_HDF5.cpp:147-160. *)
Definition hdf_attr_text (raw_num : attr -> str) (x : hfile) (d n : str) : outcome str :=
  if h5_has (h_sets x) d then
    match find_attr d n (h_attrs x) with
    | None => Throw
    | Some (AText s) => Ok (until_nul s)
    | Some a => Ok (until_nul (raw_num a))
    end
  else Throw.
(** SFile_HDF5.cpp:70-328, SFile_MAT.HDF5.cpp:154-227. *)
Definition kind_read (raw_num : attr -> str) (raw_set : dataset -> str) (k : kind) (x : hfile) (r : hread) : outcome hvalue :=
  match r with
  | RdHas n => Ok (HBool (h5_has (h_sets x) n))
  | RdType n => Ok (HType (h5_data_type (h_sets x) n TUndefined))
  | RdDoubles n => obind (h5_get2d (h_sets x) n) (fun '(a, b, rows) => Ok (HMat a b rows))
  | RdVec n => obind (h5_get1d (h_sets x) n) (fun l => Ok (HVec l))
  | RdMulti n room => obind (h5_get_multi (h_sets x) n room) (fun o => Ok (HMulti o))
  | RdText n => obind (match k with KHdf => hdf_text raw_set x n | KMat => mat_get_string (h_sets x) n end) (fun s => Ok (HText s))
  | RdAttr d n => obind (match k with KHdf => hdf_attr x d n | KMat => mat_get_attr (h_sets x) d n end) (fun q => Ok (HNum q))
  | RdAttrText d n =>
      obind (match k with KHdf => hdf_attr_text raw_num x d n | KMat => mat_get_string (h_sets x) (attr_name d n) end) (fun s => Ok (HText s))
  end.

(** * Objects *)
(** What the HDF5 library and the file system answer when a file is opened; [LLate]: the new
    MAT file has been created, but the header cannot be written or the file not opened again
    (SFile_HDF5.cpp:34-50, SFile_MAT.HDF5.cpp:115-134). *)
Inductive lib : Type := LOk | LFail | LLate.
(** SFile_MAT.HDF5.cpp:125-126: the text and three little-endian integers. *)
Definition user_block (t : tm) : outcome str :=
  obind (mat_header t) (fun s => Ok (s ++ repeat cNUL 8 ++ [cNUL; ascii_of_nat 2; "I"%char; "M"%char])).
(** SFile_HDF5.cpp:43. *)
Definition empty_file (block : str) : hfile := HFile block [] [] [].
(** SFile_HDF5.cpp:31-53 and SFile_MAT.HDF5.cpp:29-52 [Open].  An open file of the object is
    not closed (its handle is lost). *)
Definition hdf_open (fs : str -> fcontent) (o : hobj) (f : str) (m : fmode) (l : lib) (t : tm)
  : outcome unit * hobj * (str -> fcontent) :=
  let opened (w : bool) := HObj (o_kind o) (PFile f w) in
  match m with
  | MRead | MUpdate =>
      match fs f, l with
      | FHdf _, LOk => (Ok tt, opened (match m with MRead => false | _ => true end), fs)
      | _, _ => (Throw, o, fs)
      end
  | MWrite =>
      match o_kind o with
      | KHdf => match l with
                | LOk => (Ok tt, opened true, put_file fs f (FHdf (empty_file [])))
                | _ => (Throw, o, fs)
                end
      | KMat => match user_block t, l with
                | UB, _ => (UB, o, fs)
                | Throw, _ => (Throw, o, fs)
                | Ok _, LFail => (Throw, o, fs)
                | Ok _, LLate => (Throw, o, put_file fs f (FHdf (empty_file (repeat cNUL 128))))
                | Ok b, LOk => (Ok tt, opened true, put_file fs f (FHdf (empty_file b)))
                end
      end
  end.

(** SFile_HDF5.cpp:17-520, SFile_MAT.HDF5.cpp:29-336. *)
Inductive hcall : Type :=
| HNew (i : nat) (k : kind)
| HOpen (i : nat) (f : str) (m : fmode) (l : lib) (t : tm)
| HClose (i : nat)
| HDelete (i : nat)
| HWr (i : nat) (w : hwrite)
| HRd (i : nat) (r : hread).
(** SFile_HDF5.cpp:70-328. *)
Inductive hanswer : Type := HDone | HGot (v : hvalue).

(** One call: its result and the world afterwards (SFile_HDF5.cpp:17-520,
    SFile_MAT.HDF5.cpp:29-336). *)
Definition do_hcall (raw_num : attr -> str) (raw_set : dataset -> str) (w : hworld) (c : hcall) : outcome hanswer * hworld :=
  match c with
  | HNew i k => (Ok HDone, HWorld (v_fs w) (put_obj (v_obj w) i (Some (HObj k PUnset))))
  | HOpen i f m l t =>
      match v_obj w i with
      | None => (UB, w)
      | Some o => let '(r, o', fs) := hdf_open (v_fs w) o f m l t in
                  (obind r (fun _ => Ok HDone), HWorld fs (put_obj (v_obj w) i (Some o')))
      end
  | HClose i =>
      match v_obj w i with
      | Some (HObj k (PFile _ _)) => (Ok HDone, HWorld (v_fs w) (put_obj (v_obj w) i (Some (HObj k PNull))))
      | _ => (UB, w) (* [this->file] is not set, or null *)
      end
  | HDelete i =>
      match v_obj w i with
      | None | Some (HObj _ PUnset) => (UB, w) (* deletes a pointer that was never set *)
      | Some _ => (Ok HDone, HWorld (v_fs w) (put_obj (v_obj w) i None))
      end
  | HWr i x =>
      match v_obj w i with
      | Some (HObj k (PFile f true)) =>
          match v_fs w f with
          | FHdf h => let (r, h') := kind_write k h x in
                      (obind r (fun _ => Ok HDone), HWorld (put_file (v_fs w) f (FHdf h')) (v_obj w))
          | _ => (Throw, w)
          end
      | Some (HObj _ (PFile _ false)) => (Throw, w)
      | _ => (UB, w)
      end
  | HRd i x =>
      match v_obj w i with
      | Some (HObj k (PFile f _)) =>
          match v_fs w f with
          | FHdf h => (obind (kind_read raw_num raw_set k h x) (fun v => Ok (HGot v)), w)
          | _ => (Throw, w)
          end
      | _ => (UB, w)
      end
  end.
(** SFile.cpp:37-62 [Create]: on an exception the object is lost and never destroyed. *)
Definition hdf_create_obj (w : hworld) (i : nat) (k : kind) (f : str) (m : fmode) (l : lib) (t : tm) : outcome unit * hworld :=
  let '(r, o, fs) := hdf_open (v_fs w) (HObj k PUnset) f m l t in
  match r with
  | Ok _ => (Ok tt, HWorld fs (put_obj (v_obj w) i (Some o)))
  | Throw => (Throw, HWorld fs (v_obj w))
  | UB => (UB, w)
  end.
