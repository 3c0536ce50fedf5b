(** Model of CODE, GO+CODE and DREAM distribution functions in files: the reads call by call.
    Source: src/DistributionFunction/CODEDistributionFunction.cpp:67-174,
    GOCODEDistributionFunction.cpp:133-202, DREAMDistributionFunction.cpp:86-192.
    What is computed from the variables is modelled in CodeModel and LoaderModel. *)
From Coq Require Import Reals QArith Qreals ZArith String.
From Verif Require Import Base SettingsModel SdtModel SessionModel SFileModel TypedModel HdfModel DomainModel NumericModel DistributionModel CodeModel LoaderModel FieldFileModel DistFileModel.

(** * CODE files *)
(** CODEDistributionFunction.cpp:81-86: the path with a slash at its end. *)
Definition mod_path (path : str) : str :=
  match rev path with [] => [] | c :: _ => if Ascii.eqb c "/" then path else path ++ ["/"%char] end.
(** CODEDistributionFunction.cpp:98-101, 111-114: a number that may be missing. *)
Definition get_optional (s : dsource) (n : str) : outcome (option (marray R)) :=
  if ds_has s n then obind (get_array s n) (fun a => obind (scalar a) (fun _ => Ok (Some a))) else Ok None.
(** CODEDistributionFunction.cpp:75-174 [Load]: the calls in order, then the rest.  (Checks that
    were already made are repeated, which changes nothing.) *)
Definition code_from (s : dsource) (path : str) (time method : Z) : outcome code :=
  let at_path n := mod_path path ++ str_of n in
  obind (get_array s (at_path "y"%string)) (fun y => obind (vector_length y) (fun np =>
  obind (get_array s (at_path "delta"%string)) (fun d => obind (scalar d) (fun delta =>
  obind (get_optional s (at_path "nref"%string)) (fun nref => obind (get_optional s (at_path "Tref"%string)) (fun Tref =>
  obind (get_array s (at_path "Nxi"%string)) (fun nx => obind (scalar nx) (fun nxi => obind (int_of nxi) (fun _ =>
  obind (fill np (fun i => obind (aget y 0 i) (fun v => Ok (v * delta)%R))) (fun _ =>
  obind (get_array s (at_path "f"%string)) (fun f =>
  code_load (CFile (Some y) (Some d) nref Tref (Some nx) (Some f)) time method))))))))))).

(** * GO+CODE files *)
(** GOCODEDistributionFunction.cpp:15. *)
Definition gocode_type : str := str_of "distribution/gocode".
(** GOCODEDistributionFunction.cpp:140-144. *)
Definition gocode_magic (s : dsource) : outcome (option bool) :=
  if ds_has s (str_of "type")
  then obind (src_text (ds_src s) (str_of "type")) (fun t => Ok (Some (str_eqb t gocode_type)))
  else Ok None.
(** GOCODEDistributionFunction.cpp:196-198. *)
Definition slice_group (t : Z) (i : nat) : str := str_of "t" ++ show_nat t ++ str_of "/" ++ str_of "r" ++ show_nat (Z.of_nat i) ++ str_of "/".
(** GOCODEDistributionFunction.cpp:133-202 [Load].  GetScalar (line 177): SFile.cpp:299-313. *)
Definition gocode_from (s : dsource) (axis : R) (time method : Z) : outcome gocode :=
  obind (gocode_magic s) (fun m =>
  match m with Some false => Throw | _ =>
  obind (get_array s (str_of "r")) (fun a => obind (vector_length a) (fun nr =>
  obind (fill nr (fun i => obind (aget a 0 i) (fun v => Ok (v + axis)%R))) (fun rho =>
  if negb (monotone true rho) then Throw else
  obind (dget rho 0) (fun _ => obind (get_array s (str_of "nt")) (fun nt => obind (scalar nt) (fun n => obind (int_of n) (fun ntimes =>
  obind (slice ntimes time) (fun t =>
  obind (fill nr (fun i => code_from s (slice_group t i) 0 method)) (fun cs => Ok (Gocode rho cs))))))))))
  end).

(** * DREAM files *)
(** DREAMDistributionFunction.cpp:86-192 [__Load]: the calls in order, then the rest.  With more
    than four dimensions there is no array, only their number (lines 126, 132). *)
Definition dream_from (s : dsource) (axis : R) (distname : string) (timestep : Z) : outcome (Z * list (R * table)) :=
  let here n := ds_has s (str_of n) in
  obind (dream_name (Dream here (fun _ => None) (fun _ => None)) distname) (fun name => obind (dream_grid name) (fun grid =>
  obind (plainly (ds_multi s 4 (str_of name))) (fun a =>
  obind (plainly (ds_vec s (str_of "/grid/t"))) (fun ts => obind (plainly (ds_vec s (str_of "/grid/r"))) (fun r =>
  obind (plainly (ds_vec s (str_of grid ++ str_of "/p1"))) (fun p => obind (plainly (ds_vec s (str_of grid ++ str_of "/p2"))) (fun xi =>
  dream_raw (Dream here (fun _ => Some (match a with Some a => a | None => ([], []) end))
                   (fun n => Some (if String.eqb n "/grid/t" then ts else if String.eqb n "/grid/r" then r else
                                   if String.eqb n (String.append grid "/p1") then p else xi))) axis distname timestep))))))).

(** * Files *)
(** The file is opened to read and read; it stays open (GOCODEDistributionFunction.cpp:134-202,
    DREAMDistributionFunction.cpp:90-192). *)
Definition open_file {A : Type} (raw_num : attr -> str) (raw_set : dataset -> str) (go : dsource -> outcome A)
  (w : hworld) (j : nat) (k : kind) (f : str) (l : lib) (t : tm) : outcome A * hworld :=
  let (r, w1) := hdf_create_obj w j k f MRead l t in
  match r with
  | Ok _ => match v_fs w1 f with FHdf x => (go (hdf_dsource raw_num raw_set k x), w1) | _ => (Throw, w1) end
  | Throw => (Throw, w1)
  | UB => (UB, w1)
  end.
(** CODEDistributionFunction.cpp:67-74 [Load] of a file is [read_file] of this. *)
Definition code_load_from (path : str) (time method : Z) (s : dsource) : outcome code := code_from s path time method.
(** GOCODEDistributionFunction.cpp:133-202 [Load] of a file is [open_file] of this. *)
Definition gocode_load_from (axis : R) (time method : Z) (s : dsource) : outcome gocode := gocode_from s axis time method.
(** DREAMDistributionFunction.cpp:54-80 [Load] of a file is [open_file] of this. *)
Definition dream_load_from (axis : R) (distname : string) (timestep : Z) (lg : bool) (it : Z) (s : dsource) : outcome dreamdf :=
  obind (dream_from s axis distname timestep) (fun x =>
  obind (insert_tables lg it rd_new (snd x)) (fun o => Ok (DreamDF o (fst x)))).
