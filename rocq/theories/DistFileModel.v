(** Model of numeric distribution functions in files: the reads of SOFT, old SOFT and LUKE files
    call by call, on HDF5, MAT and SDT files.
    Source: src/DistributionFunction/SOFTDistributionFunction.cpp:142-265,
    deprSOFTDistributionFunction.cpp:124-285, LUKEDistributionFunction.cpp:118-170, SFile.cpp:25-62.
    The numbers of a file are rational (finite doubles) and become real numbers; what is computed
    from them is modelled in LoaderModel. *)
From Coq Require Import Reals QArith Qreals ZArith.
From Verif Require Import Base SettingsModel SdtModel SessionModel SFileModel TypedModel HdfModel DomainModel NumericModel DistributionModel CodeModel LoaderModel FieldFileModel.

(** What the loaders need of a file: HasVariable, GetString and GetDoubles, GetMultiArray_linear
    with room for a number of dimensions ([RYes None] is the null pointer) and GetDoubles1D
    (SFile.h:64-134). *)
Record dsource : Type := DSource
  { ds_has : str -> bool; ds_src : source; ds_multi : nat -> str -> reading (option (list nat * list R)); ds_vec : str -> reading (list R) }.
(** The readers of HDF5 and MAT files (SFile_HDF5.cpp:70-79, 287-328). *)
Definition hdf_dsource (raw_num : attr -> str) (raw_set : dataset -> str) (k : kind) (x : hfile) : dsource :=
  DSource (fun n => match kind_read raw_num raw_set k x (RdHas n) with Ok (HBool b) => b | _ => false end)
          (hdf_source raw_num raw_set k x)
          (fun room n => match find n (h_sets x) with
                    | None => RNo
                    | Some _ => match kind_read raw_num raw_set k x (RdMulti n room) with
                                | Ok (HMulti None) => RYes None
                                | Ok (HMulti (Some (dims, data))) => RYes (Some (map Z.to_nat dims, map Q2R data))
                                | Throw => RForeign
                                | _ => RUB
                                end
                    end)
          (fun n => match find n (h_sets x) with
                    | None => RNo
                    | Some _ => match kind_read raw_num raw_set k x (RdVec n) with Ok (HVec l) => RYes (map Q2R l) | Throw => RForeign | _ => RUB end
                    end).
(** The readers of SDT files; they have no arrays of more than two dimensions
    (SFile_SDT.cpp:81-86, 196-226). *)
Definition sdt_dsource (rd : reader) : dsource :=
  DSource (fun n => match fst (do_read rd (RHas n)) with Ok (VBool b) => b | _ => false end) (sdt_source rd) (fun _ _ => RNo)
          (fun n => match fst (do_read rd (RVec n)) with Ok (VVec l) => RYes (map Q2R l) | Throw => RNo | _ => RUB end).

(** [GetDoubles], not within [try] (SOFTDistributionFunction.cpp:157, 217, 223, 229 and others). *)
Definition get_array (s : dsource) (n : str) : outcome (marray R) :=
  obind (plainly (src_array (ds_src s) n)) (fun a => Ok (to_reals a)).
(** [GetDoubles] of a vector, with the check of its size (SOFTDistributionFunction.cpp:157-160,
    217-220, 223-226 and others). *)
Definition get_vector (s : dsource) (n : str) : outcome (marray R) :=
  obind (get_array s n) (fun a => obind (read_vector (Some a)) (fun _ => Ok a)).

(** * SOFT files *)
(** SOFTDistributionFunction.cpp:20. *)
Definition soft_type : str := str_of "distribution/soft".
(** SOFTDistributionFunction.cpp:150-154: [None] without a variable [type]. *)
Definition get_magic (s : dsource) : outcome (option bool) :=
  if ds_has s (str_of "type")
  then obind (src_text (ds_src s) (str_of "type")) (fun t => Ok (Some (str_eqb t soft_type)))
  else Ok None.
(** SOFTDistributionFunction.cpp:168. *)
Definition group_name (i : nat) : str := str_of "r" ++ show_nat (Z.of_nat i) ++ str_of "/".
(** SOFTDistributionFunction.cpp:216-229: the variables of one radius, in order. *)
Definition get_group (s : dsource) (i : nat) : outcome sgroup :=
  obind (get_vector s (group_name i ++ str_of "p")) (fun p =>
  obind (get_vector s (group_name i ++ str_of "xi")) (fun xi =>
  obind (get_array s (group_name i ++ str_of "f")) (fun f => Ok (SGroup (Some p) (Some xi) (Some f))))).
(** SOFTDistributionFunction.cpp:142-197 [__Load]: the calls up to Close in order, then the rest.
    (The checks of soft_raw that were already made are repeated, which changes nothing.) *)
Definition soft_from (s : dsource) (axis : R) : outcome (list (R * table)) :=
  obind (get_magic s) (fun m =>
  match m with Some false => Throw | _ =>
  obind (get_array s (str_of "r")) (fun r => obind (vector_length r) (fun nr =>
  obind (fill nr (fun i => obind (get_group s i) (fun g => obind (soft_radius g) (fun _ => Ok g)))) (fun gs =>
  soft_raw m (Some r) (fun i => nth i gs (SGroup None None None)) axis)))
  end).

(** * Old SOFT files *)
(** deprSOFTDistributionFunction.cpp:261-265: [GetDoubles] within [try]. *)
Definition try_array (s : dsource) (n : str) : outcome (option (marray R)) :=
  obind (tried (src_array (ds_src s) n)) (fun a => Ok (option_map to_reals a)).
(** deprSOFTDistributionFunction.cpp:124-231 [__Load]: the calls up to Close in order, then the
    rest. *)
Definition depr_from (s : dsource) : outcome block :=
  obind (get_vector s (str_of "r")) (fun r => obind (get_vector s (str_of "p")) (fun p => obind (get_vector s (str_of "xi")) (fun xi =>
  obind (vector_length r) (fun nr => obind (vector_length p) (fun np => obind (vector_length xi) (fun nxi =>
  obind (get_array s (str_of "f")) (fun f => obind (release f) (fun _ =>
  if (negb ((ma_rows f =? nr) && (ma_cols f =? np * nxi)) && negb ((ma_rows f =? 1) && (ma_cols f =? np * nxi * nr)) &&
      negb ((ma_cols f =? 1) && (ma_rows f =? np * nxi * nr)))%nat%bool then Throw else
  obind (try_array s (str_of "fp0")) (fun fp0 => obind (depr_verify fp0 (ma_data f) np 1) (fun b => if negb b then Throw else
  obind (try_array s (str_of "fxi0")) (fun fxi0 => obind (depr_verify fxi0 (ma_data f) nxi np) (fun b => if negb b then Throw else
  obind (try_array s (str_of "fr0")) (fun fr0 => obind (depr_verify fr0 (ma_data f) nr (np * nxi)) (fun b => if negb b then Throw else
  obind (src_text (ds_src s) (str_of "punits")) (fun u =>
  depr_raw (Depr (Some r) (Some p) (Some xi) (Some f) fp0 fxi0 fr0 (Some (string_of_list_ascii u)))))))))))))))))).

(** * LUKE files *)
(** LUKEDistributionFunction.cpp:118-170 [__Load]: the calls up to Close in order, then the rest. *)
Definition luke_from (s : dsource) (minr maxr : R) : outcome block :=
  obind (get_vector s (str_of "xrhoG")) (fun r => obind (get_vector s (str_of "pn")) (fun p =>
  obind (get_array s (str_of "betath_ref")) (fun b => obind (scalar b) (fun _ =>
  obind (get_vector s (str_of "mhu")) (fun xi => obind (plainly (ds_multi s 3 (str_of "f"))) (fun f =>
  match f with
  | None => Throw
  | Some f => luke_raw (Luke (Some r) (Some p) (Some b) (Some xi) (Some f)) minr maxr
  end)))))).

(** * Files *)
(** The file is opened to read, read and closed; the object is never deleted
    (SOFTDistributionFunction.cpp:147, 172, deprSOFTDistributionFunction.cpp:131, 173,
    LUKEDistributionFunction.cpp:124, 167).  (After an exception the object is lost, whether it has
    been closed or not.) *)
Definition read_file {A : Type} (raw_num : attr -> str) (raw_set : dataset -> str) (go : dsource -> outcome A)
  (w : hworld) (j : nat) (k : kind) (f : str) (l : lib) (t : tm) : outcome A * hworld :=
  let (r, w1) := hdf_create_obj w j k f MRead l t in
  match r with
  | Ok _ =>
      match v_fs w1 f with
      | FHdf x => let r := go (hdf_dsource raw_num raw_set k x) in
                  (r, match r with Ok _ => HWorld (v_fs w1) (put_obj (v_obj w1) j (Some (HObj k PNull))) | _ => w1 end)
      | _ => (Throw, w1)
      end
  | Throw => (Throw, w1)
  | UB => (UB, w1)
  end.
(** SOFTDistributionFunction.cpp:38-64 [Load] into a new object. *)
Definition soft_load_from (axis : R) (lg : bool) (it : Z) (s : dsource) : outcome ndf :=
  obind (soft_from s axis) (fun l => insert_tables lg it rd_new l).
(** SOFTDistributionFunction.cpp:89-130 [LoadMomentumSpace]. *)
Definition soft_momentum_from (axis : R) (lg : bool) (i : nat) (it : Z) (s : dsource) : outcome msdf :=
  obind (soft_from s axis) (fun l => match nth_error l i with None => Throw | Some (_, t) => momentum lg it t end).
(** deprSOFTDistributionFunction.cpp:38-57 [Load]. *)
Definition depr_load_from (lg : bool) (it : Z) (s : dsource) : outcome ndf := obind (depr_from s) (fun b => block_load b lg it).
(** deprSOFTDistributionFunction.cpp:78-110 [LoadMomentumSpace]. *)
Definition depr_momentum_from (lg : bool) (i : nat) (it : Z) (s : dsource) : outcome msdf := obind (depr_from s) (fun b => block_momentum b lg i it).
(** LUKEDistributionFunction.cpp:35-54 [Load]. *)
Definition luke_load_from (minr maxr : R) (lg : bool) (it : Z) (s : dsource) : outcome ndf := obind (luke_from s minr maxr) (fun b => block_load b lg it).
(** LUKEDistributionFunction.cpp:72-104 [LoadMomentumSpace]. *)
Definition luke_momentum_from (minr maxr : R) (lg : bool) (i : nat) (it : Z) (s : dsource) : outcome msdf := obind (luke_from s minr maxr) (fun b => block_momentum b lg i it).
