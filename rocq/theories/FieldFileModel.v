(** Model of numeric magnetic fields in files: Save and Load call by call, on HDF5, MAT and
    SDT files.  Source: src/MagneticField/MagneticFieldNumeric2D.cpp:485-791, SFile.cpp:25-62.
    The numbers of a file are rational (finite doubles); contours and axis are embedded in
    the real numbers as in NumericModel. *)
From Coq Require Import Reals QArith Qreals ZArith.
From Verif Require Import Base SettingsModel SdtModel SessionModel SFileModel TypedModel HdfModel DomainModel NumericModel.
Local Open Scope Z_scope.

(** The data of a field as the object holds it (MagneticFieldNumeric2D.h:14-32); [None]: null
    pointers. *)
Record fdata : Type := FData
  { e_name : str; e_desc : str; e_axis : Q * Q; e_R : list Q; e_Z : list Q; e_Br : list Q; e_Bphi : list Q; e_Bz : list Q;
    e_Psi : option (list Q); e_sep : option (list (Q * Q)); e_wall : option (list (Q * Q)) }.
(** MagneticFieldNumeric2D.cpp:618-620: the numbers as coordinates. *)
Definition to_point (p : Q * Q) : point := (Q2R (fst p), Q2R (snd p)).
(** MagneticFieldNumeric2D.cpp:661-683. *)
Definition to_contour (c : option (list (Q * Q))) : option (list point) := option_map (map to_point) c.
(** MagneticFieldNumeric2D.cpp:275-281: not x >= y. *)
Definition Qbelow (x y : Q) : bool := negb (Qle_bool y x).
(** MagneticFieldNumeric2D.cpp:90-108: the object made from the data. *)
Definition field_with (d : fdata) : outcome (numeric Q str) :=
  init Q str Qbelow (e_name d) (e_desc d) (e_R d) (e_Z d) (e_Br d) (e_Bphi d) (e_Bz d) (e_Psi d) (to_point (e_axis d))
    (to_contour (e_sep d)) (to_contour (e_wall d)).

(** * Reading *)
(** The result of reading a variable: [RNo] is an SFileException, [RForeign] an exception of
    another class (of the HDF5 library) (SFile_HDF5.cpp:196-228). *)
Inductive reading (A : Type) : Type := RYes (v : A) | RNo | RForeign | RUB.
Arguments RYes {A}. Arguments RNo {A}. Arguments RForeign {A}. Arguments RUB {A}.
(** MagneticFieldNumeric2D.cpp:500-519: outside of [try]. *)
Definition plainly {A : Type} (x : reading A) : outcome A :=
  match x with RYes v => Ok v | RNo | RForeign => Throw | RUB => UB end.
(** [try { ... } catch (SFileException&) {}] (MagneticFieldNumeric2D.cpp:521-539). *)
Definition tried {A : Type} (x : reading A) : outcome (option A) :=
  match x with RYes v => Ok (Some v) | RNo => Ok None | RForeign => Throw | RUB => UB end.
(** What Load needs of a file: GetString and GetDoubles (SFile.h:64-134). *)
Record source : Type := Source { src_text : str -> outcome str; src_doubles : str -> reading (Z * Z * list (list Q)) }.
(** SFile.cpp:150-166 [GetList]. *)
Definition src_list (s : source) (n : str) : reading (list Q) :=
  match src_doubles s n with
  | RYes x => match get_list (Ok x) with Ok l => RYes l | Throw => RNo | UB => RUB end
  | RNo => RNo | RForeign => RForeign | RUB => RUB
  end.
(** An array with its sizes (MagneticFieldNumeric2D.cpp:510-522). *)
Definition src_array (s : source) (n : str) : reading (marray Q) :=
  match src_doubles s n with
  | RYes (r, c, rows) => RYes (MArray (Z.to_nat r) (Z.to_nat c) (concat rows))
  | RNo => RNo | RForeign => RForeign | RUB => RUB
  end.
(** MagneticFieldNumeric2D.cpp:565-617. *)
Definition to_reals (a : marray Q) : marray R := MArray (ma_rows a) (ma_cols a) (map Q2R (ma_data a)).

(** MagneticFieldNumeric2D.cpp:488-693 [Load], in the order of the calls. *)
Definition load_from (s : source) : outcome (numeric Q str) :=
  obind (src_text s (str_of "name")) (fun name => obind (src_text s (str_of "desc")) (fun desc =>
  obind (plainly (src_list s (str_of "maxis"))) (fun ax =>
  match ax with
  | [ra; za] =>
      obind (plainly (src_list s (str_of "r"))) (fun R => obind (plainly (src_list s (str_of "z"))) (fun Z =>
      let nr := length R in let nz := length Z in
      obind (plainly (src_array s (str_of "Br"))) (fun br => obind (orient nz br) (fun br =>
      obind (plainly (src_array s (str_of "Bphi"))) (fun bphi => obind (orient nz bphi) (fun bphi =>
      obind (plainly (src_array s (str_of "Bz"))) (fun bz => obind (orient nz bz) (fun bz =>
      obind (tried (src_array s (str_of "Psi"))) (fun psi => obind (optional psi (orient nz)) (fun psi =>
      obind (tried (src_list s (str_of "verBr"))) (fun vr => obind (tried (src_list s (str_of "verBphi"))) (fun vphi =>
      obind (tried (src_list s (str_of "verBz"))) (fun vz =>
      obind (verify Q Qeq_bool nr br vr) (fun _ => obind (verify Q Qeq_bool nr bphi vphi) (fun _ => obind (verify Q Qeq_bool nr bz vz) (fun _ =>
      obind (tried (src_array s (str_of "wall"))) (fun wall => obind (optional wall (fun a => contour_of (to_reals a))) (fun wall =>
      obind (tried (src_array s (str_of "separatrix"))) (fun sep => obind (optional sep (fun a => contour_of (to_reals a))) (fun sep =>
      obind (relayout nr nz br) (fun Br => obind (relayout nr nz bphi) (fun Bphi => obind (relayout nr nz bz) (fun Bz =>
      obind (optional psi (relayout nr nz)) (fun Psi =>
      obind (release br) (fun _ => obind (release bphi) (fun _ => obind (release bz) (fun _ =>
      init Q str Qbelow name desc R Z Br Bphi Bz Psi (Q2R ra, Q2R za) sep wall)))))))))))))))))))))))))))
  | _ => Throw
  end))).

(** The readers of HDF5 and MAT files (SFile_HDF5.cpp:169-232, SFile_MAT.HDF5.cpp:187-227): a
    missing variable is an SFileException, one that is no number an exception of the library. *)
Definition hdf_source (raw_num : attr -> str) (raw_set : dataset -> str) (k : kind) (x : hfile) : source :=
  Source (fun n => obind (kind_read raw_num raw_set k x (RdText n)) (fun v => match v with HText s => Ok s | _ => UB end))
         (fun n => match find n (h_sets x) with
                   | None => RNo
                   | Some _ => match kind_read raw_num raw_set k x (RdDoubles n) with
                               | Ok (HMat r c rows) => RYes (r, c, rows)
                               | Throw => RForeign
                               | _ => RUB
                               end
                   end).
(** The readers of SDT files, each variable being read once (SFile_SDT.cpp:81-312); all their
    exceptions are SFileExceptions. *)
Definition sdt_source (rd : reader) : source :=
  Source (fun n => obind (fst (do_read rd (RString n))) (fun v => match v with VStr s => Ok s | _ => UB end))
         (fun n => match fst (do_read rd (RDoubles n)) with
                   | Ok (VMat r c rows) => RYes (r, c, rows)
                   | Throw => RNo
                   | _ => RUB
                   end).

(** MagneticFieldNumeric2D.cpp:488-617 on HDF5 and MAT files: the file is opened, read and
    closed.  (An exception after Close, at line 663, also counts as one before it: the object is
    lost in both cases.) *)
Definition load_file (raw_num : attr -> str) (raw_set : dataset -> str) (w : hworld) (j : nat) (k : kind) (f : str) (l : lib) (t : tm)
  : outcome (numeric Q str) * hworld :=
  let (r, w1) := hdf_create_obj w j k f MRead l t in
  match r with
  | Ok _ =>
      match v_fs w1 f with
      | FHdf x => let r := load_from (hdf_source raw_num raw_set k x) in
                  (r, match r with Ok _ => HWorld (v_fs w1) (put_obj (v_obj w1) j (Some (HObj k PNull))) | _ => w1 end)
      | _ => (Throw, w1)
      end
  | Throw => (Throw, w1)
  | UB => (UB, w1)
  end.

(** * Writing *)
(** MagneticFieldNumeric2D.cpp:759-791: a contour as two rows; nothing without points. *)
Definition contour_call (n : str) (c : option (list (Q * Q))) : list hwrite :=
  match c with
  | None | Some [] => []
  | Some l => [WRows HDouble n (length l) [map fst l; map snd l]]
  end.
(** MagneticFieldNumeric2D.cpp:741-757: [n] elements of an array; reading beyond its end is
    undefined. *)
Definition elements (n : nat) (l : list Q) : outcome (list Q) := if (length l <? n)%nat then UB else Ok (firstn n l).
(** MagneticFieldNumeric2D.cpp:737-791 [Save]: the calls, in order.  Without flux a null pointer
    is passed. *)
Definition save_calls (d : fdata) : outcome (list hwrite) :=
  let nr := length (e_R d) in let nz := length (e_Z d) in
  let dims := [Z.of_nat nz; Z.of_nat nr] in
  match e_Psi d with
  | None => UB
  | Some psi =>
      obind (elements (nz * nr) (e_Bphi d)) (fun bphi => obind (elements (nz * nr) (e_Br d)) (fun br =>
      obind (elements (nz * nr) (e_Bz d)) (fun bz => obind (elements (nz * nr) psi) (fun psi =>
      obind (elements nr (e_Bphi d)) (fun vphi => obind (elements nr (e_Br d)) (fun vr => obind (elements nr (e_Bz d)) (fun vz =>
      Ok ([WMulti HDouble (str_of "Bphi") dims bphi; WMulti HDouble (str_of "Br") dims br; WMulti HDouble (str_of "Bz") dims bz;
           WText (str_of "desc") (e_desc d); WText (str_of "name") (e_name d);
           WNums HDouble (str_of "maxis") [fst (e_axis d); snd (e_axis d)];
           WMulti HDouble (str_of "Psi") dims psi;
           WNums HDouble (str_of "r") (e_R d); WNums HDouble (str_of "z") (e_Z d);
           WNums HDouble (str_of "verBphi") vphi; WNums HDouble (str_of "verBr") vr; WNums HDouble (str_of "verBz") vz] ++
          contour_call (str_of "separatrix") (e_sep d) ++ contour_call (str_of "wall") (e_wall d)))))))))
  end.
(** Calls until the first exception (MagneticFieldNumeric2D.cpp:741-791). *)
Fixpoint write_all (k : kind) (x : hfile) (ws : list hwrite) : outcome unit * hfile :=
  match ws with
  | [] => (Ok tt, x)
  | w :: r => match kind_write k x w with
              | (Ok _, y) => write_all k y r
              | (Throw, y) => (Throw, y)
              | (UB, y) => (UB, y)
              end
  end.
(** MagneticFieldNumeric2D.cpp:737-791 on HDF5 and MAT files. *)
Definition save_file (w : hworld) (i : nat) (k : kind) (f : str) (l : lib) (t : tm) (d : fdata) : outcome unit * hworld :=
  let (r, w1) := hdf_create_obj w i k f MWrite l t in
  match r with
  | Ok _ =>
      match v_fs w1 f, save_calls d with
      | FHdf x, Ok ws =>
          let (r, y) := write_all k x ws in
          (r, HWorld (put_file (v_fs w1) f (FHdf y)) (match r with Ok _ => put_obj (v_obj w1) i (Some (HObj k PNull)) | _ => v_obj w1 end))
      | FHdf _, _ => (UB, w1)
      | _, _ => (Throw, w1)
      end
  | Throw => (Throw, w1)
  | UB => (UB, w1)
  end.
(** MagneticFieldNumeric2D.cpp:737-742 on SDT files: the first array is not accepted. *)
Definition save_sdt (rnd : Q -> option Q) (mem : Z) (perm : str -> faccess -> bool) (w : SessionModel.world) (i : nat) (f : str)
  : outcome answer * SessionModel.world :=
  let (r0, w0) := do_call rnd mem perm w (CNew i) in
  let (r1, w1) := do_call rnd mem perm w0 (COpen i f MWrite) in
  match r1 with
  | Ok _ => do_call rnd mem perm w1 (CWriteMulti i (str_of "Bphi"))
  | _ => (r1, w1)
  end.
