(** Model of the texts of exceptions: [printf]-style formatting, the constructors of the
    three exception classes, and every place of the library that throws an exception with a
    text made from values.
    Sources: include/softlib/SOFTLibException.h, include/softlib/ConfigurationException.h,
    include/softlib/SFileException.h, src/General/SOFTLibException.cpp and the lines cited at
    [thrown].  The data model is LP64 (x86-64): [size_t], [unsigned long] and [unsigned long
    long] have the same representation. *)
From Verif Require Import Base SdtModel SFileModel TimeModel ConfigModel.
From Coq Require Import ZArith.
Local Open Scope Z_scope.

(** What a formatted text is: a text, undefined behaviour, or a conversion specification of
    C that the library never uses and this model leaves out (SOFTLibException.h:28). *)
Inductive ftext : Type := Txt (s : str) | Undefined | NotModelled.

Section Formatting.
(** A floating-point value and its text under [%e] (C library, called on
    SOFTLibException.h:28). *)
Variable D : Type.
Variable e_text : D -> str.

(** SOFTLibException.h:21, the types of the values passed on. *)
Inductive carg : Type :=
| AStr (s : str) | AInt (z : Z) | AUInt (z : Z) | AULong (z : Z) | ADbl (d : D).
(** [x.c_str()] of a [std::string] read as a C string (SOFTLibException.h:28). *)
Definition a_str (x : str) : carg := AStr (until_nul x).

(** Conversion specifications of the library (SOFTLibException.h:28). *)
Inductive conv : Type := Cs | Cd | Cu | Clu | Ce | Cpct.
(** C library, one conversion: the text and the values left.  A value of another type or no
    value left is undefined, but an [unsigned int] may stand for an [int] and the other way
    round if the value fits both types (SOFTLibException.h:28). *)
Definition convert (c : conv) (args : list carg) : option (str * list carg) :=
  match c, args with
  | Cpct, _ => Some (["%"%char], args)
  | Cs, AStr s :: r => Some (s, r)
  | Cd, AInt z :: r => Some (show_int z, r)
  | Cd, AUInt z :: r => if z <? 2 ^ 31 then Some (show_int z, r) else None
  | Cu, AUInt z :: r => Some (show_int z, r)
  | Cu, AInt z :: r => if z <? 0 then None else Some (show_int z, r)
  | Clu, AULong z :: r => Some (show_int z, r)
  | Ce, ADbl d :: r => Some (e_text d, r)
  | _, _ => None
  end.
(** The text in front of the rest (SOFTLibException.h:28). *)
Definition before (s : str) (r : ftext) : ftext := match r with Txt t => Txt (s ++ t) | x => x end.
(** C library [printf] with a format that is a C string, the complete text.  After [%] only
    [s d u e % zu lu llu] are modelled; the end of the format and any other letter that starts
    no conversion of C is undefined; the rest of C's conversions, flags, widths and lengths are
    left out (SOFTLibException.h:28). *)
Definition other_spec (c : ascii) : bool :=
  existsb (Ascii.eqb c) (str_of "cioxXfFgGaApnlhjztL0123456789-+ #.*").
Fixpoint printf (fmt : str) (args : list carg) : ftext :=
  match fmt with
  | [] => Txt []
  | c :: r =>
      if negb (Ascii.eqb c "%"%char) then before [c] (printf r args)
      else
        let go (k : conv) (rest : list carg -> ftext) :=
          match convert k args with None => Undefined | Some (t, a) => before t (rest a) end in
        match r with
        | "s"%char :: r' => go Cs (printf r')
        | "d"%char :: r' => go Cd (printf r')
        | "u"%char :: r' => go Cu (printf r')
        | "e"%char :: r' => go Ce (printf r')
        | "%"%char :: r' => go Cpct (printf r')
        | "z"%char :: "u"%char :: r' => go Clu (printf r')
        | "l"%char :: "u"%char :: r' => go Clu (printf r')
        | "l"%char :: "l"%char :: "u"%char :: r' => go Clu (printf r')
        | [] => Undefined
        | x :: _ => if other_spec x then NotModelled else Undefined
        end
  end.

(** SOFTLibException.h:20-36 [ConstructErrorMessage].  [snprintf] counts in [int] and fails
    (negative) if the text has more than INT_MAX characters; [n+1] on line 32 overflows for
    exactly INT_MAX.  The buffer is never released. *)
Definition construct (msg : str) (args : list carg) : ftext :=
  match printf (until_nul msg) args with
  | Txt t =>
      if 2147483647 <? Z.of_nat (length t) then Txt (error_message msg None)
      else if Z.of_nat (length t) =? 2147483647 then Undefined
      else Txt (error_message msg (Some t))
  | x => x
  end.
(** SOFTLibException.cpp:15-17 and SOFTLibException.h:16-19: without values the constructor
    that is not a template is chosen and keeps the text as it is. *)
Definition softlib_exception (msg : str) (args : list carg) : ftext :=
  match args with [] => Txt msg | _ => construct msg args end.
(** SFileException.h:9-11: passes everything on. *)
Definition sfile_exception (msg : str) (args : list carg) : ftext := softlib_exception msg args.
(** ConfigurationException.h:12-14. *)
Definition config_exception (msg : str) (args : list carg) : ftext := softlib_exception msg args.
(** ConfigurationException.h:15-25: with a position, the text is formatted in any case. *)
Definition config_exception_at (line charpos : Z) (file msg : str) (args : list carg) : ftext :=
  construct (str_of "%s:%zu:%zu: " ++ msg) (a_str file :: AULong line :: AULong charpos :: args).
(** SOFTLibException.cpp:18-20 [what] and 21-23 [whats]. *)
Definition what (errormsg : str) : str := until_nul errormsg.
Definition whats (errormsg : str) : str := errormsg.

(** Interpreter.cpp:113-128 [ttos]. *)
Definition ttos (t : ttype) : str :=
  match t with
  | TName => str_of "name" | TValue => str_of "value" | TEquals => str_of "="
  | TLPar => str_of "(" | TRPar => str_of ")"
  | TBlockType => str_of "block-type" | TBlockName => str_of "block-name"
  | TBlockStart => str_of "{" | TBlockEnd => str_of "}" | TEndStatement => str_of ";"
  | TEOF => str_of "<EOF>"
  end.

(** The places that throw, with the values that enter the text; the lines are cited in
    [thrown] (first: MagneticFieldLUKE.cpp:117-120). *)
Inductive site : Type :=
| FluxGrid (name : str) (a : Z) (b : Z) (c : Z) (d : Z)
| FieldVar_ptBx (name : str) (a : Z) (b : Z) (c : Z) (d : Z)
| FieldVar_ptBy (name : str) (a : Z) (b : Z) (c : Z) (d : Z)
| FieldVar_ptBPHI (name : str) (a : Z) (b : Z) (c : Z) (d : Z)
| Surface_ptx (name : str) (a : Z) (b : Z) (c : Z) (d : Z)
| Surface_pty (name : str) (a : Z) (b : Z) (c : Z) (d : Z)
| WallSize (name : str) (a : Z) (b : Z)
| AxisPoint (file : str)
| VerLong_Br (file : str) (nr : Z)
| VerFail_Br (file : str)
| VerLong_Bphi (file : str) (nr : Z)
| VerFail_Bphi (file : str)
| VerLong_Bz (file : str) (nr : Z)
| VerFail_Bz (file : str)
| NoBoundary (file : str)
| NotOpened (file : str) (detail : str)
| AttrUnread (data : str) (detail : str)
| NoVariable (name : str) (file : str)
| HeaderLong (n : Z)
| MatNotCreated (file : str)
| StringDims (n : Z) (name : str)
| BadSpecifier (type : str)
| BadMatrix (name : str) (i : Z) (j : Z)
| BadFormat (file : str)
| NotList (file : str) (name : str)
| NotNumbers (file : str) (name : str)
| NotScalar (file : str) (name : str)
| SdtMode (mode : Z)
| SdtNoMatrix (name : str)
| SdtNoMulti (name : str)
| SdtNoVector (name : str)
| SdtNotVector (name : str)
| SdtNoAttr (name : str) (data : str)
| SdtAttrSize (data : str) (name : str)
| SdtNoAttrText (name : str) (data : str)
| SdtNoText (name : str)
| SdtMulti (name : str)
| ImageType (type : Z)
| ColormapType (cmap : Z)
| SettingType (name : str)
| SettingNotBool (name : str)
| SettingNotInt (name : str)
| SettingNotNum (name : str)
| SettingNotStr (name : str)
| NoSetting (setting : str) (block : str)
| BlockTypeTwice (name : str)
| AlreadyOpen
| ConfNotOpened (file : str)
| IncludeNotOpened (line : Z) (pos : Z) (file : str) (name : str)
| RadiusSoft (radindex : Z) (nr : Z)
| RadiusLuke (radindex : Z) (nr : Z)
| SoftSize_r (a : Z) (b : Z)
| SoftSize_p (a : Z) (b : Z)
| SoftSize_xi (a : Z) (b : Z)
| SoftSize_f (a : Z) (b : Z)
| SoftUnits (units : str)
| SoftVerify (var : str) (a : Z) (b : Z)
| SoftGroup_p (group : str) (a : Z) (b : Z)
| SoftGroup_xi (group : str) (a : Z) (b : Z)
| SoftGroup_f (group : str) (a : Z) (b : Z) (nxi : Z) (np : Z)
| LukeSize_xrhoG (a : Z) (b : Z)
| LukeSize_pn (a : Z) (b : Z)
| LukeSize_betath_ref (a : Z) (b : Z)
| LukeSize_mhu (a : Z) (b : Z)
| LukeDims (n : Z)
| LukeSize_f (a : Z) (b : Z) (c : Z) (nr : Z) (nxi : Z) (np : Z)
| DreamNone (file : str)
| DreamType (name : str)
| DreamDims (n : Z) (nr : Z) (nxi : Z) (np : Z) (a : Z) (b : Z) (c : Z)
| DreamTime (nt : Z)
| CodeGrid (a : Z) (b : Z)
| CodeSize_delta (a : Z) (b : Z)
| CodeSize_nref (a : Z) (b : Z)
| CodeSize_Tref (a : Z) (b : Z)
| CodeSize_Nxi (a : Z) (b : Z)
| CodeSize_f (a : Z) (b : Z)
| CodeTime (time : Z)
| CodeInterp (type : Z)
| GocodeSize (a : Z) (b : Z)
| GocodeTime (time : Z)
| GocodePosition (rho : D) (shift : D) (radius : D)
| NumericPosition (rho : D) (shift : D) (radius : D)
| PowerRange (rmin : D) (rmax : D)
| LinearRange (rmin : D) (rmax : D)
| GaussianRange (rmin : D) (rmax : D)
| BesselRange (rmin : D) (rmax : D)
| Gaussian_a (x : D)
| Gaussian_b (x : D)
| Gaussian_c (x : D)
| MatrixLinear (i : Z)
| MatrixRow (i : Z)
| MatrixColumn (j : Z)
| TimeSteps (nt : Z)
| Extrapolation (t : D) (tmax : D) (n : Z) (i : Z)
| Unexpected (line pos : Z) (file : str) (want got : ttype)
| BadStatement (line pos : Z) (file : str) (got : ttype)
| StrayBrace (line pos : Z) (file : str)
| NotClosed (line pos : Z) (file : str).

(** The text of the exception thrown (every line cited below, from MagneticFieldLUKE.cpp:117-120
    to Interpreter.cpp:208). *)
Definition thrown (x : site) : ftext :=
  match x with
  (* MagneticFieldLUKE.cpp:117-120 *)
  | FluxGrid name a b c d => sfile_exception (str_of "%s: The normalized flux grid has the wrong dimensions: %zu x %zu. Expected %zu x %zu.") [a_str name; AULong a; AULong b; AULong c; AULong d]
  (* MagneticFieldLUKE.cpp:171-174 *)
  | FieldVar_ptBx name a b c d => sfile_exception (str_of "%s: Invalid dimensions of magnetic field variable 'ptBx': %zu x %zu. Expected %zu x %zu.") [a_str name; AULong a; AULong b; AULong c; AULong d]
  (* MagneticFieldLUKE.cpp:178-181 *)
  | FieldVar_ptBy name a b c d => sfile_exception (str_of "%s: Invalid dimensions of magnetic field variable 'ptBy': %zu x %zu. Expected %zu x %zu.") [a_str name; AULong a; AULong b; AULong c; AULong d]
  (* MagneticFieldLUKE.cpp:185-188 *)
  | FieldVar_ptBPHI name a b c d => sfile_exception (str_of "%s: Invalid dimensions of magnetic field variable 'ptBPHI': %zu x %zu. Expected %zu x %zu.") [a_str name; AULong a; AULong b; AULong c; AULong d]
  (* MagneticFieldLUKE.cpp:235-238 *)
  | Surface_ptx name a b c d => sfile_exception (str_of "%s: Invalid dimensions of variable 'ptx': %zu x %zu. Expected %zu x %zu.") [a_str name; AULong a; AULong b; AULong c; AULong d]
  (* MagneticFieldLUKE.cpp:242-245 *)
  | Surface_pty name a b c d => sfile_exception (str_of "%s: Invalid dimensions of variable 'pty': %zu x %zu. Expected %zu x %zu.") [a_str name; AULong a; AULong b; AULong c; AULong d]
  (* MagneticFieldLUKE.cpp:330-332 *)
  | WallSize name a b => sfile_exception (str_of "%s: Invalid dimensions of wall: %zu x %zu. Expected 2 x many.") [a_str name; AULong a; AULong b]
  (* MagneticFieldNumeric2D.cpp:503 *)
  | AxisPoint file => sfile_exception (file ++ str_of ": The magnetic axis must be given as a point with two coordinates.") []
  (* MagneticFieldNumeric2D.cpp:543 *)
  | VerLong_Br file nr => sfile_exception (file ++ str_of ": Verification vector 'verBr' has more than nr (= %u) elements.") [AUInt nr]
  (* MagneticFieldNumeric2D.cpp:546 *)
  | VerFail_Br file => sfile_exception (file ++ str_of ": Magnetic field component 'Br' did not match its verification vector.") []
  (* MagneticFieldNumeric2D.cpp:550 *)
  | VerLong_Bphi file nr => sfile_exception (file ++ str_of ": Verification vector 'verBphi' has more than nr (= %u) elements.") [AUInt nr]
  (* MagneticFieldNumeric2D.cpp:553 *)
  | VerFail_Bphi file => sfile_exception (file ++ str_of ": Magnetic field component 'Bphi' did not match its verification vector.") []
  (* MagneticFieldNumeric2D.cpp:557 *)
  | VerLong_Bz file nr => sfile_exception (file ++ str_of ": Verification vector 'verBz' has more than nr (= %u) elements.") [AUInt nr]
  (* MagneticFieldNumeric2D.cpp:560 *)
  | VerFail_Bz file => sfile_exception (file ++ str_of ": Magnetic field component 'Bz' did not match its verification vector.") []
  (* MagneticFieldNumeric2D.cpp:667 *)
  | NoBoundary file => softlib_exception (file ++ str_of ": At least one of 'wall' and 'separatrix' must be provided in the magnetic equilibrium file.") []
  (* SFile_HDF5.cpp:49, SFile_MAT.HDF5.cpp:48 *)
  | NotOpened file detail => sfile_exception (str_of "%s: Unable to open HDF5 file." ++ [cNL] ++ str_of "%s") [a_str file; a_str detail]
  (* SFile_HDF5.cpp:137, 158 *)
  | AttrUnread data detail => sfile_exception (str_of "Unable to read attribute string '%s'. HDF5 error: %s") [a_str data; a_str detail]
  (* SFile_HDF5.cpp:171, 198, 262, 309 and SFile_MAT.HDF5.cpp:189 *)
  | NoVariable name file => sfile_exception (str_of "A variable with the name '%s' does not exist in the file '%s'.") [a_str name; a_str file]
  (* SFile_MAT.HDF5.cpp:105 *)
  | HeaderLong n => sfile_exception (str_of "Error when writing MAT file header: string too long (%d bytes too many).") [AInt n]
  (* SFile_MAT.HDF5.cpp:122 *)
  | MatNotCreated file => sfile_exception (str_of "Unable to create MAT file '%s'.") [a_str file]
  (* SFile_MAT.HDF5.cpp:199 *)
  | StringDims n name => sfile_exception (str_of "Invalid number of dimensions (%llu) for string: %s.") [AULong n; a_str name]
  (* SFile_SDT.load.cpp:49 *)
  | BadSpecifier type => sfile_exception (str_of "Expected data type specifier, but found token: '%s'.") [a_str type]
  (* SFile_SDT.load.cpp:75 *)
  | BadMatrix name i j => sfile_exception (str_of "Invalid format of matrix '%s' at index (%u, %u).") [a_str name; AULong i; AULong j]
  (* SFile.cpp:55 *)
  | BadFormat file => sfile_exception (str_of "Trying to open file of unrecognized format: '%s'.") [a_str file]
  (* SFile.cpp:162 *)
  | NotList file name => sfile_exception (str_of "%s: The requested variable is not a list: '%s'.") [a_str file; a_str name]
  (* SFile.cpp:226, 247, 269 *)
  | NotNumbers file name => sfile_exception (str_of "%s: Unable to load the variable '%s' as an array of the desired type.") [a_str file; a_str name]
  (* SFile.cpp:305 *)
  | NotScalar file name => sfile_exception (str_of "%s: The requested variable is not a scalar: '%s'.") [a_str file; a_str name]
  (* SFile_SDT.cpp:64 *)
  | SdtMode mode => sfile_exception (str_of "Unrecognized option for opening the SDT file: %d.") [AUInt mode]
  (* SFile_SDT.cpp:134 *)
  | SdtNoMatrix name => sfile_exception (str_of "No matrix named '%s' in the SDT file.") [a_str name]
  (* SFile_SDT.cpp:197 *)
  | SdtNoMulti name => sfile_exception (str_of "When loading variable '%s': The SDT format has no support for multidimensional arrays.") [a_str name]
  (* SFile_SDT.cpp:212 *)
  | SdtNoVector name => sfile_exception (str_of "No vector named '%s' in the SDT file.") [a_str name]
  (* SFile_SDT.cpp:219 *)
  | SdtNotVector name => sfile_exception (str_of "The requested variable is not a vector: '%s'.") [a_str name]
  (* SFile_SDT.cpp:273 *)
  | SdtNoAttr name data => sfile_exception (str_of "No attribute scalar named '%s' for dataset '%s' in the SDT file.") [a_str name; a_str data]
  (* SFile_SDT.cpp:276 *)
  | SdtAttrSize data name => sfile_exception (str_of "The requested variable in dataset '%s' is not a scalar: '%s'.") [a_str data; a_str name]
  (* SFile_SDT.cpp:294 *)
  | SdtNoAttrText name data => sfile_exception (str_of "No attribute string named '%s' for dataset '%s' in the SDT file.") [a_str name; a_str data]
  (* SFile_SDT.cpp:309 *)
  | SdtNoText name => sfile_exception (str_of "No string named '%s' in the SDT file.") [a_str name]
  (* SFile_SDT.cpp:382, 385, 388, 391, 394 *)
  | SdtMulti name => sfile_exception (str_of "Trying to write variable '%s': The SDT format does not support higher than 2-dimensional arrays.") [a_str name]
  (* ImageGenerator.cpp:58-60 *)
  | ImageType type => softlib_exception (str_of "Unrecognized image format specified to 'ImageGenerator': '%d'.") [AUInt type]
  (* ImageGenerator.h:56 *)
  | ColormapType cmap => softlib_exception (str_of "Unrecognized colormap requested: %d.") [AUInt cmap]
  (* SettingSFile.cpp:56, 117, 190, 213 *)
  | SettingType name => config_exception (str_of "The data in setting '%s' is of unrecognized type.") [a_str name]
  (* SettingSFile.cpp:128 *)
  | SettingNotBool name => config_exception (str_of "The data in setting '%s' is not of boolean type.") [a_str name]
  (* SettingSFile.cpp:139 *)
  | SettingNotInt name => config_exception (str_of "The data in setting '%s' is not of integer type.") [a_str name]
  (* SettingSFile.cpp:155 *)
  | SettingNotNum name => config_exception (str_of "The data in setting '%s' is not of numeric type.") [a_str name]
  (* SettingSFile.cpp:162, 199 *)
  | SettingNotStr name => config_exception (str_of "The data in setting '%s' is not of string type.") [a_str name]
  (* ConfigBlock.cpp:395 *)
  | NoSetting setting block => softlib_exception (str_of "No setting with name '%s' in block '%s'.") [a_str setting; a_str block]
  (* Configuration.cpp:86 *)
  | BlockTypeTwice name => softlib_exception (str_of "The block-type '" ++ name ++ str_of "' has already been registered.") []
  (* ConfigurationScript.cpp:24 *)
  | AlreadyOpen => config_exception (str_of "A configuration file has already been opened with this ConfigurationScript object.") []
  (* ConfigurationScript.cpp:30 *)
  | ConfNotOpened file => config_exception (str_of "Unable to open configuration file: " ++ file) []
  (* Lexer.cpp:141-145 *)
  | IncludeNotOpened line pos file name => config_exception_at line pos file (str_of "Unable to open included configuration file '%s'.") [a_str name]
  (* deprSOFTDistributionFunction.cpp:95, SOFTDistributionFunction.cpp:102 *)
  | RadiusSoft radindex nr => softlib_exception (str_of "Invalid radial index selected for the SOFT distribution function: %u > %u (number of radial points).") [AUInt radindex; AUInt ((nr - 1) mod 2 ^ 32)]
  (* LUKEDistributionFunction.cpp:89 *)
  | RadiusLuke radindex nr => softlib_exception (str_of "Invalid radial index selected for the LUKE distribution function: %u > %u (number of radial points).") [AUInt radindex; AUInt ((nr - 1) mod 2 ^ 32)]
  (* deprSOFTDistributionFunction.cpp:137, SOFTDistributionFunction.cpp:160 *)
  | SoftSize_r a b => softlib_exception (str_of "Invalid size of SOFT distribution function 'r' vector: %llu x %llu.") [AULong a; AULong b]
  (* deprSOFTDistributionFunction.cpp:143 *)
  | SoftSize_p a b => softlib_exception (str_of "Invalid size of SOFT distribution function 'p' vector: %llu x %llu.") [AULong a; AULong b]
  (* deprSOFTDistributionFunction.cpp:149 *)
  | SoftSize_xi a b => softlib_exception (str_of "Invalid size of SOFT distribution function 'xi' vector: %llu x %llu.") [AULong a; AULong b]
  (* deprSOFTDistributionFunction.cpp:158 *)
  | SoftSize_f a b => softlib_exception (str_of "Invalid size of SOFT distribution function 'f' vector: %llu x %llu.") [AULong a; AULong b]
  (* deprSOFTDistributionFunction.cpp:182 *)
  | SoftUnits units => softlib_exception (str_of "Unrecognized momentum units of SOFT distribution function: '%s'.") [a_str units]
  (* deprSOFTDistributionFunction.cpp:272 *)
  | SoftVerify var a b => softlib_exception (str_of "Invalid size of SOFT distribution function verification vector '%s': %llu x %llu.") [a_str var; AULong a; AULong b]
  (* SOFTDistributionFunction.cpp:219 *)
  | SoftGroup_p group a b => softlib_exception (str_of "Invalid size of SOFT distribution function '%sp' vector: %llu x %llu.") [a_str group; AULong a; AULong b]
  (* SOFTDistributionFunction.cpp:225 *)
  | SoftGroup_xi group a b => softlib_exception (str_of "Invalid size of SOFT distribution function '%sxi' vector: %llu x %llu.") [a_str group; AULong a; AULong b]
  (* SOFTDistributionFunction.cpp:233 *)
  | SoftGroup_f group a b nxi np => softlib_exception (str_of "Invalid size of SOFT distribution function '%sf' vector: %llu x %llu. Must have size nxi-by-np (%llu x %llu).") [a_str group; AULong a; AULong b; AUInt nxi; AUInt np]
  (* LUKEDistributionFunction.cpp:130 *)
  | LukeSize_xrhoG a b => softlib_exception (str_of "Invalid size of LUKE distribution function 'xrhoG' vector: %llu x %llu.") [AULong a; AULong b]
  (* LUKEDistributionFunction.cpp:144 *)
  | LukeSize_pn a b => softlib_exception (str_of "Invalid size of LUKE distribution function 'pn' vector: %llu x %llu.") [AULong a; AULong b]
  (* LUKEDistributionFunction.cpp:148 *)
  | LukeSize_betath_ref a b => softlib_exception (str_of "Invalid size of LUKE distribution function 'betath_ref' variable: %llu x %llu.") [AULong a; AULong b]
  (* LUKEDistributionFunction.cpp:158 *)
  | LukeSize_mhu a b => softlib_exception (str_of "Invalid size of LUKE distribution function 'mhu' vector: %llu x %llu.") [AULong a; AULong b]
  (* LUKEDistributionFunction.cpp:165 *)
  | LukeDims n => softlib_exception (str_of "Invalid number of dimensions in LUKE distribution function 'f': %llu.") [AULong n]
  (* LUKEDistributionFunction.cpp:167-170 *)
  | LukeSize_f a b c nr nxi np => softlib_exception (str_of "Invalid size of LUKE distribution function 'f': %llu x %llu x %llu. Expected %llu x %llu x %llu.") [AULong a; AULong b; AULong c; AUInt nr; AUInt nxi; AUInt np]
  (* DREAMDistributionFunction.cpp:100, 107 *)
  | DreamNone file => softlib_exception (str_of "DREAMDistributionFunction: No distribution function found in file '%s'. Try to explicitly give the name of the distribution function.") [a_str file]
  (* DREAMDistributionFunction.cpp:115 *)
  | DreamType name => softlib_exception (str_of "DREAMDistributionFunction: Unrecognized type of distribution function specified: '%s'. Unable to determine which momentum grid to use.") [a_str name]
  (* DREAMDistributionFunction.cpp:132-135 *)
  | DreamDims n nr nxi np a b c => softlib_exception (str_of "DREAMDistributionFunction: Invalid dimensions of distribution functions (%llu). The grid has size %llux%llux%llu, but f has size %llux%llux%llu.") [AULong n; AULong nr; AULong nxi; AULong np; AULong a; AULong b; AULong c]
  (* DREAMDistributionFunction.cpp:145-148 *)
  | DreamTime nt => softlib_exception (str_of "DREAMDistributionFunction: Invalid time step specified. The distribution contains %llu time steps.") [AULong nt]
  (* CODEDistributionFunction.cpp:91 *)
  | CodeGrid a b => softlib_exception (str_of "Invalid size of CODE distribution function momentum grid: %llu x %llu.") [AULong a; AULong b]
  (* CODEDistributionFunction.cpp:95 *)
  | CodeSize_delta a b => softlib_exception (str_of "Invalid size of CODE distribution 'delta' variable: %llu x %llu.") [AULong a; AULong b]
  (* CODEDistributionFunction.cpp:101 *)
  | CodeSize_nref a b => softlib_exception (str_of "Invalid size of CODE distribution 'nref' variable: %llu x %llu.") [AULong a; AULong b]
  (* CODEDistributionFunction.cpp:114 *)
  | CodeSize_Tref a b => softlib_exception (str_of "Invalid size of CODE distribution 'Tref' variable: %llu x %llu.") [AULong a; AULong b]
  (* CODEDistributionFunction.cpp:125 *)
  | CodeSize_Nxi a b => softlib_exception (str_of "Invalid size of CODE distribution 'Nxi' variable: %llu x %llu.") [AULong a; AULong b]
  (* CODEDistributionFunction.cpp:136 *)
  | CodeSize_f a b => softlib_exception (str_of "Invalid size of CODE distribution 'f' variable: %llu x %llu.") [AULong a; AULong b]
  (* CODEDistributionFunction.cpp:150 *)
  | CodeTime time => softlib_exception (str_of "Invalid time index selected for CODE distribution function: %d.") [AInt time]
  (* CODEDistributionFunction.cpp:332 *)
  | CodeInterp type => softlib_exception (str_of "CODE distribution function: Unrecognized interpolation method requested: %d.") [AInt type]
  (* GOCODEDistributionFunction.cpp:152 *)
  | GocodeSize a b => softlib_exception (str_of "Invalid size of GO+CODE distribution function 'x_CODE' vector: %llu x %llu.") [AULong a; AULong b]
  (* GOCODEDistributionFunction.cpp:189 *)
  | GocodeTime time => softlib_exception (str_of "Invalid time index select for GO+CODE distribution function: %d.") [AInt time]
  (* GOCODEDistributionFunction.cpp:43 *)
  | GocodePosition rho shift radius => softlib_exception (str_of "GOCODEDistributionFunction: No data avilable for particle position. rho = %e, (shifted by %e from r = %e).") [ADbl rho; ADbl shift; ADbl radius]
  (* NumericDistributionFunction.cpp:36 *)
  | NumericPosition rho shift radius => softlib_exception (str_of "Numeric distribution function: No data available for particle position. rho = %e, (shifted by %e from r = %e).") [ADbl rho; ADbl shift; ADbl radius]
  (* PowerRadialProfile.cpp:27 *)
  | PowerRange rmin rmax => softlib_exception (str_of "Power radial profile: rmin must be less than rmax. rmin = %e, rmax = %e.") [ADbl rmin; ADbl rmax]
  (* LinearRadialProfile.cpp:20 *)
  | LinearRange rmin rmax => softlib_exception (str_of "Linear radial profile: rmin must be less than rmax. rmin = %e, rmax = %e.") [ADbl rmin; ADbl rmax]
  (* GaussianRadialProfile.cpp:23 *)
  | GaussianRange rmin rmax => softlib_exception (str_of "Gaussian radial profile: rmin must be less than rmax. rmin = %e, rmax = %e.") [ADbl rmin; ADbl rmax]
  (* BesselRadialProfile.cpp:26 *)
  | BesselRange rmin rmax => softlib_exception (str_of "Bessel radial profile: rmin must be less than rmax. rmin = %e, rmax = %e.") [ADbl rmin; ADbl rmax]
  (* GaussianRadialProfile.cpp:25 *)
  | Gaussian_a x => softlib_exception (str_of "Gaussian radial profile: a must be positive. a = %e.") [ADbl x]
  (* GaussianRadialProfile.cpp:27 *)
  | Gaussian_b x => softlib_exception (str_of "Gaussian radial profile: b must be positive. b = %e.") [ADbl x]
  (* GaussianRadialProfile.cpp:29 *)
  | Gaussian_c x => softlib_exception (str_of "Gaussian radial profile: c must be positive. c = %e.") [ADbl x]
  (* Matrix.tcc:65, 73 *)
  | MatrixLinear i => softlib_exception (str_of "Matrix linear index is out of bounds: %d." ++ [cNL]) [AUInt i]
  (* Matrix.tcc:82, 94 *)
  | MatrixRow i => softlib_exception (str_of "Matrix row index is out of bounds: %d." ++ [cNL]) [AUInt i]
  (* Matrix.tcc:84, 96 *)
  | MatrixColumn j => softlib_exception (str_of "Matrix column index is out of bounds: %d." ++ [cNL]) [AUInt j]
  (* Integrator.tcc:109 *)
  | TimeSteps nt => softlib_exception (str_of "Invalid number of timesteps requested: %u.") [AUInt nt]
  (* RKDP45.tcc:106-109 *)
  | Extrapolation t tmax n i => softlib_exception (str_of "The requested tmax requires extrapolation. T = %e, tmax = %e, n = %u, i = %u") [ADbl t; ADbl tmax; AUInt n; AUInt i]
  (* Interpreter.cpp:80 *)
  | Unexpected line pos file want got => config_exception_at line pos file (str_of "Expected " ++ ttos want ++ str_of " but got " ++ ttos got) []
  (* Interpreter.cpp:196 *)
  | BadStatement line pos file got => config_exception_at line pos file (str_of "Syntax error: Expected name or block-type, but got " ++ ttos got) []
  (* Interpreter.cpp:192 *)
  | StrayBrace line pos file => config_exception_at line pos file (str_of "Syntax error: Mismatched '{'.") []
  (* Interpreter.cpp:208 *)
  | NotClosed line pos file => config_exception_at line pos file (str_of "Mismatched '{'. Document was not closed.") []
  end.
End Formatting.
Arguments AStr {D} _. Arguments AInt {D} _. Arguments AUInt {D} _. Arguments AULong {D} _. Arguments ADbl {D} _.
Arguments a_str {D} _.
