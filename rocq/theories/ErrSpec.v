(** Vocabulary for the texts of exceptions: what a text says, independent of [printf]. *)
From Verif Require Import Base SettingsProofs ConfigModel ErrModel.
From Coq Require Import ZArith.
Local Open Scope Z_scope.

(** [s] writes the number [z] in the decimal system, without superfluous zeros. *)
Definition numeral (z : Z) (s : str) : Prop :=
  exists ds, s = (if z <? 0 then ["-"%char] else []) ++ ds /\
    (forall c, In c ds -> digit c) /\ decimal ds = Z.abs z /\
    (ds = ["0"%char] \/ exists c r, ds = c :: r /\ c <> "0"%char).
(** [t] is the part of [s] in front of the first NUL character. *)
Definition c_text (s t : str) : Prop :=
  ~ In cNUL t /\ (s = t \/ exists r, s = t ++ cNUL :: r).

(** A message is made of fixed words, names, integers and floating-point numbers. *)
Inductive piece (D : Type) : Type := Say (t : str) | Name (s : str) | Number (z : Z) | Real (d : D).
Arguments Say {D} _. Arguments Name {D} _. Arguments Number {D} _. Arguments Real {D} _.
Inductive says {D : Type} (e_text : D -> str) : list (piece D) -> str -> Prop :=
| says_nil : says e_text [] []
| says_say : forall t r s, says e_text r s -> says e_text (Say t :: r) (t ++ s)
| says_name : forall x t r s, c_text x t -> says e_text r s -> says e_text (Name x :: r) (t ++ s)
| says_number : forall z t r s, numeral z t -> says e_text r s -> says e_text (Number z :: r) (t ++ s)
| says_real : forall d r s, says e_text r s -> says e_text (Real d :: r) (e_text d ++ s).
(** Some value enters the message. *)
Definition has_values {D} (l : list (piece D)) : Prop := exists p, In p l /\ forall t, p <> Say t.

(** What a programmer may write: words without [%] and NUL, [%%], and conversions that fit
    their values. *)
Inductive slot (D : Type) : Type :=
| Words (t : str) | Percent | PutStr (s : str) | PutInt (z : Z) | PutUInt (z : Z)
| PutSize (z : Z) | PutULong (z : Z) | PutULL (z : Z) | PutDbl (d : D).
Arguments Words {D} _. Arguments Percent {D}. Arguments PutStr {D} _. Arguments PutInt {D} _. Arguments PutUInt {D} _.
Arguments PutSize {D} _. Arguments PutULong {D} _. Arguments PutULL {D} _. Arguments PutDbl {D} _.
Definition clean {D} (x : slot D) : Prop :=
  match x with Words t => ~ In "%"%char t /\ ~ In cNUL t | _ => True end.
Definition code_of {D} (x : slot D) : str :=
  match x with
  | Words t => t | Percent => str_of "%%" | PutStr _ => str_of "%s" | PutInt _ => str_of "%d" | PutUInt _ => str_of "%u"
  | PutSize _ => str_of "%zu" | PutULong _ => str_of "%lu" | PutULL _ => str_of "%llu" | PutDbl _ => str_of "%e"
  end.
Definition values_of {D} (x : slot D) : list (carg D) :=
  match x with
  | Words _ | Percent => [] | PutStr s => [a_str s] | PutInt z => [AInt z] | PutUInt z => [AUInt z]
  | PutSize z | PutULong z | PutULL z => [AULong z] | PutDbl d => [ADbl d]
  end.
Definition meant {D} (x : slot D) : piece D :=
  match x with
  | Words t => Say t | Percent => Say ["%"%char] | PutStr s => Name s
  | PutInt z | PutUInt z | PutSize z | PutULong z | PutULL z => Number z | PutDbl d => Real d
  end.

(** The text [t], as an exception built from a format and values keeps it; [raw] is the format. *)
Definition kept_as (t raw : str) (x : ftext) : Prop :=
  (Z.of_nat (length t) < 1000 -> x = Txt t) /\
  (1000 <= Z.of_nat (length t) < 2147483647 -> x = Txt (removelast t)) /\
  (Z.of_nat (length t) = 2147483647 -> x = Undefined) /\
  (2147483647 < Z.of_nat (length t) -> x = Txt raw).

(** The names of the kinds of token. *)
Definition called (t : ttype) : str :=
  str_of match t with
  | TName => "name" | TValue => "value" | TEquals => "=" | TLPar => "(" | TRPar => ")"
  | TBlockType => "block-type" | TBlockName => "block-name" | TBlockStart => "{" | TBlockEnd => "}"
  | TEndStatement => ";" | TEOF => "<EOF>"
  end.
(** A position: file, line and column. *)
Definition position {D} (line pos : Z) (file : str) : list (piece D) :=
  [Name file; Say (str_of ":"); Number line; Say (str_of ":"); Number pos; Say (str_of ": ")].

(** The message meant by each place that throws. *)
Definition wording {D} (x : site D) : list (piece D) :=
  match x with
  | FluxGrid _ name a b c d => [Name name; Say (str_of ": The normalized flux grid has the wrong dimensions: "); Number a; Say (str_of " x "); Number b; Say (str_of ". Expected "); Number c; Say (str_of " x "); Number d; Say (str_of ".")]
  | FieldVar_ptBx _ name a b c d => [Name name; Say (str_of ": Invalid dimensions of magnetic field variable 'ptBx': "); Number a; Say (str_of " x "); Number b; Say (str_of ". Expected "); Number c; Say (str_of " x "); Number d; Say (str_of ".")]
  | FieldVar_ptBy _ name a b c d => [Name name; Say (str_of ": Invalid dimensions of magnetic field variable 'ptBy': "); Number a; Say (str_of " x "); Number b; Say (str_of ". Expected "); Number c; Say (str_of " x "); Number d; Say (str_of ".")]
  | FieldVar_ptBPHI _ name a b c d => [Name name; Say (str_of ": Invalid dimensions of magnetic field variable 'ptBPHI': "); Number a; Say (str_of " x "); Number b; Say (str_of ". Expected "); Number c; Say (str_of " x "); Number d; Say (str_of ".")]
  | Surface_ptx _ name a b c d => [Name name; Say (str_of ": Invalid dimensions of variable 'ptx': "); Number a; Say (str_of " x "); Number b; Say (str_of ". Expected "); Number c; Say (str_of " x "); Number d; Say (str_of ".")]
  | Surface_pty _ name a b c d => [Name name; Say (str_of ": Invalid dimensions of variable 'pty': "); Number a; Say (str_of " x "); Number b; Say (str_of ". Expected "); Number c; Say (str_of " x "); Number d; Say (str_of ".")]
  | WallSize _ name a b => [Name name; Say (str_of ": Invalid dimensions of wall: "); Number a; Say (str_of " x "); Number b; Say (str_of ". Expected 2 x many.")]
  | AxisPoint _ file => [Say file; Say (str_of ": The magnetic axis must be given as a point with two coordinates.")]
  | VerLong_Br _ file nr => [Say file; Say (str_of ": Verification vector 'verBr' has more than nr (= "); Number nr; Say (str_of ") elements.")]
  | VerFail_Br _ file => [Say file; Say (str_of ": Magnetic field component 'Br' did not match its verification vector.")]
  | VerLong_Bphi _ file nr => [Say file; Say (str_of ": Verification vector 'verBphi' has more than nr (= "); Number nr; Say (str_of ") elements.")]
  | VerFail_Bphi _ file => [Say file; Say (str_of ": Magnetic field component 'Bphi' did not match its verification vector.")]
  | VerLong_Bz _ file nr => [Say file; Say (str_of ": Verification vector 'verBz' has more than nr (= "); Number nr; Say (str_of ") elements.")]
  | VerFail_Bz _ file => [Say file; Say (str_of ": Magnetic field component 'Bz' did not match its verification vector.")]
  | NoBoundary _ file => [Say file; Say (str_of ": At least one of 'wall' and 'separatrix' must be provided in the magnetic equilibrium file.")]
  | NotOpened _ file detail => [Name file; Say (str_of ": Unable to open HDF5 file."); Say [cNL]; Name detail]
  | AttrUnread _ data detail => [Say (str_of "Unable to read attribute string '"); Name data; Say (str_of "'. HDF5 error: "); Name detail]
  | NoVariable _ name file => [Say (str_of "A variable with the name '"); Name name; Say (str_of "' does not exist in the file '"); Name file; Say (str_of "'.")]
  | HeaderLong _ n => [Say (str_of "Error when writing MAT file header: string too long ("); Number n; Say (str_of " bytes too many).")]
  | MatNotCreated _ file => [Say (str_of "Unable to create MAT file '"); Name file; Say (str_of "'.")]
  | StringDims _ n name => [Say (str_of "Invalid number of dimensions ("); Number n; Say (str_of ") for string: "); Name name; Say (str_of ".")]
  | BadSpecifier _ type => [Say (str_of "Expected data type specifier, but found token: '"); Name type; Say (str_of "'.")]
  | BadMatrix _ name i j => [Say (str_of "Invalid format of matrix '"); Name name; Say (str_of "' at index ("); Number i; Say (str_of ", "); Number j; Say (str_of ").")]
  | BadFormat _ file => [Say (str_of "Trying to open file of unrecognized format: '"); Name file; Say (str_of "'.")]
  | NotList _ file name => [Name file; Say (str_of ": The requested variable is not a list: '"); Name name; Say (str_of "'.")]
  | NotNumbers _ file name => [Name file; Say (str_of ": Unable to load the variable '"); Name name; Say (str_of "' as an array of the desired type.")]
  | NotScalar _ file name => [Name file; Say (str_of ": The requested variable is not a scalar: '"); Name name; Say (str_of "'.")]
  | SdtMode _ mode => [Say (str_of "Unrecognized option for opening the SDT file: "); Number mode; Say (str_of ".")]
  | SdtNoMatrix _ name => [Say (str_of "No matrix named '"); Name name; Say (str_of "' in the SDT file.")]
  | SdtNoMulti _ name => [Say (str_of "When loading variable '"); Name name; Say (str_of "': The SDT format has no support for multidimensional arrays.")]
  | SdtNoVector _ name => [Say (str_of "No vector named '"); Name name; Say (str_of "' in the SDT file.")]
  | SdtNotVector _ name => [Say (str_of "The requested variable is not a vector: '"); Name name; Say (str_of "'.")]
  | SdtNoAttr _ name data => [Say (str_of "No attribute scalar named '"); Name name; Say (str_of "' for dataset '"); Name data; Say (str_of "' in the SDT file.")]
  | SdtAttrSize _ data name => [Say (str_of "The requested variable in dataset '"); Name data; Say (str_of "' is not a scalar: '"); Name name; Say (str_of "'.")]
  | SdtNoAttrText _ name data => [Say (str_of "No attribute string named '"); Name name; Say (str_of "' for dataset '"); Name data; Say (str_of "' in the SDT file.")]
  | SdtNoText _ name => [Say (str_of "No string named '"); Name name; Say (str_of "' in the SDT file.")]
  | SdtMulti _ name => [Say (str_of "Trying to write variable '"); Name name; Say (str_of "': The SDT format does not support higher than 2-dimensional arrays.")]
  | ImageType _ type => [Say (str_of "Unrecognized image format specified to 'ImageGenerator': '"); Number type; Say (str_of "'.")]
  | ColormapType _ cmap => [Say (str_of "Unrecognized colormap requested: "); Number cmap; Say (str_of ".")]
  | SettingType _ name => [Say (str_of "The data in setting '"); Name name; Say (str_of "' is of unrecognized type.")]
  | SettingNotBool _ name => [Say (str_of "The data in setting '"); Name name; Say (str_of "' is not of boolean type.")]
  | SettingNotInt _ name => [Say (str_of "The data in setting '"); Name name; Say (str_of "' is not of integer type.")]
  | SettingNotNum _ name => [Say (str_of "The data in setting '"); Name name; Say (str_of "' is not of numeric type.")]
  | SettingNotStr _ name => [Say (str_of "The data in setting '"); Name name; Say (str_of "' is not of string type.")]
  | NoSetting _ setting block => [Say (str_of "No setting with name '"); Name setting; Say (str_of "' in block '"); Name block; Say (str_of "'.")]
  | BlockTypeTwice _ name => [Say (str_of "The block-type '"); Say name; Say (str_of "' has already been registered.")]
  | AlreadyOpen _ => [Say (str_of "A configuration file has already been opened with this ConfigurationScript object.")]
  | ConfNotOpened _ file => [Say (str_of "Unable to open configuration file: "); Say file]
  | IncludeNotOpened _ line pos file name => [Name file; Say (str_of ":"); Number line; Say (str_of ":"); Number pos; Say (str_of ": "); Say (str_of "Unable to open included configuration file '"); Name name; Say (str_of "'.")]
  | RadiusSoft _ radindex nr => [Say (str_of "Invalid radial index selected for the SOFT distribution function: "); Number radindex; Say (str_of " > "); Number (nr - 1); Say (str_of " (number of radial points).")]
  | RadiusLuke _ radindex nr => [Say (str_of "Invalid radial index selected for the LUKE distribution function: "); Number radindex; Say (str_of " > "); Number (nr - 1); Say (str_of " (number of radial points).")]
  | SoftSize_r _ a b => [Say (str_of "Invalid size of SOFT distribution function 'r' vector: "); Number a; Say (str_of " x "); Number b; Say (str_of ".")]
  | SoftSize_p _ a b => [Say (str_of "Invalid size of SOFT distribution function 'p' vector: "); Number a; Say (str_of " x "); Number b; Say (str_of ".")]
  | SoftSize_xi _ a b => [Say (str_of "Invalid size of SOFT distribution function 'xi' vector: "); Number a; Say (str_of " x "); Number b; Say (str_of ".")]
  | SoftSize_f _ a b => [Say (str_of "Invalid size of SOFT distribution function 'f' vector: "); Number a; Say (str_of " x "); Number b; Say (str_of ".")]
  | SoftUnits _ units => [Say (str_of "Unrecognized momentum units of SOFT distribution function: '"); Name units; Say (str_of "'.")]
  | SoftVerify _ var a b => [Say (str_of "Invalid size of SOFT distribution function verification vector '"); Name var; Say (str_of "': "); Number a; Say (str_of " x "); Number b; Say (str_of ".")]
  | SoftGroup_p _ group a b => [Say (str_of "Invalid size of SOFT distribution function '"); Name group; Say (str_of "p' vector: "); Number a; Say (str_of " x "); Number b; Say (str_of ".")]
  | SoftGroup_xi _ group a b => [Say (str_of "Invalid size of SOFT distribution function '"); Name group; Say (str_of "xi' vector: "); Number a; Say (str_of " x "); Number b; Say (str_of ".")]
  | SoftGroup_f _ group a b nxi np => [Say (str_of "Invalid size of SOFT distribution function '"); Name group; Say (str_of "f' vector: "); Number a; Say (str_of " x "); Number b; Say (str_of ". Must have size nxi-by-np ("); Number nxi; Say (str_of " x "); Number np; Say (str_of ").")]
  | LukeSize_xrhoG _ a b => [Say (str_of "Invalid size of LUKE distribution function 'xrhoG' vector: "); Number a; Say (str_of " x "); Number b; Say (str_of ".")]
  | LukeSize_pn _ a b => [Say (str_of "Invalid size of LUKE distribution function 'pn' vector: "); Number a; Say (str_of " x "); Number b; Say (str_of ".")]
  | LukeSize_betath_ref _ a b => [Say (str_of "Invalid size of LUKE distribution function 'betath_ref' variable: "); Number a; Say (str_of " x "); Number b; Say (str_of ".")]
  | LukeSize_mhu _ a b => [Say (str_of "Invalid size of LUKE distribution function 'mhu' vector: "); Number a; Say (str_of " x "); Number b; Say (str_of ".")]
  | LukeDims _ n => [Say (str_of "Invalid number of dimensions in LUKE distribution function 'f': "); Number n; Say (str_of ".")]
  | LukeSize_f _ a b c nr nxi np => [Say (str_of "Invalid size of LUKE distribution function 'f': "); Number a; Say (str_of " x "); Number b; Say (str_of " x "); Number c; Say (str_of ". Expected "); Number nr; Say (str_of " x "); Number nxi; Say (str_of " x "); Number np; Say (str_of ".")]
  | DreamNone _ file => [Say (str_of "DREAMDistributionFunction: No distribution function found in file '"); Name file; Say (str_of "'. Try to explicitly give the name of the distribution function.")]
  | DreamType _ name => [Say (str_of "DREAMDistributionFunction: Unrecognized type of distribution function specified: '"); Name name; Say (str_of "'. Unable to determine which momentum grid to use.")]
  | DreamDims _ n nr nxi np a b c => [Say (str_of "DREAMDistributionFunction: Invalid dimensions of distribution functions ("); Number n; Say (str_of "). The grid has size "); Number nr; Say (str_of "x"); Number nxi; Say (str_of "x"); Number np; Say (str_of ", but f has size "); Number a; Say (str_of "x"); Number b; Say (str_of "x"); Number c; Say (str_of ".")]
  | DreamTime _ nt => [Say (str_of "DREAMDistributionFunction: Invalid time step specified. The distribution contains "); Number nt; Say (str_of " time steps.")]
  | CodeGrid _ a b => [Say (str_of "Invalid size of CODE distribution function momentum grid: "); Number a; Say (str_of " x "); Number b; Say (str_of ".")]
  | CodeSize_delta _ a b => [Say (str_of "Invalid size of CODE distribution 'delta' variable: "); Number a; Say (str_of " x "); Number b; Say (str_of ".")]
  | CodeSize_nref _ a b => [Say (str_of "Invalid size of CODE distribution 'nref' variable: "); Number a; Say (str_of " x "); Number b; Say (str_of ".")]
  | CodeSize_Tref _ a b => [Say (str_of "Invalid size of CODE distribution 'Tref' variable: "); Number a; Say (str_of " x "); Number b; Say (str_of ".")]
  | CodeSize_Nxi _ a b => [Say (str_of "Invalid size of CODE distribution 'Nxi' variable: "); Number a; Say (str_of " x "); Number b; Say (str_of ".")]
  | CodeSize_f _ a b => [Say (str_of "Invalid size of CODE distribution 'f' variable: "); Number a; Say (str_of " x "); Number b; Say (str_of ".")]
  | CodeTime _ time => [Say (str_of "Invalid time index selected for CODE distribution function: "); Number time; Say (str_of ".")]
  | CodeInterp _ type => [Say (str_of "CODE distribution function: Unrecognized interpolation method requested: "); Number type; Say (str_of ".")]
  | GocodeSize _ a b => [Say (str_of "Invalid size of GO+CODE distribution function 'x_CODE' vector: "); Number a; Say (str_of " x "); Number b; Say (str_of ".")]
  | GocodeTime _ time => [Say (str_of "Invalid time index select for GO+CODE distribution function: "); Number time; Say (str_of ".")]
  | GocodePosition _ rho shift radius => [Say (str_of "GOCODEDistributionFunction: No data avilable for particle position. rho = "); Real rho; Say (str_of ", (shifted by "); Real shift; Say (str_of " from r = "); Real radius; Say (str_of ").")]
  | NumericPosition _ rho shift radius => [Say (str_of "Numeric distribution function: No data available for particle position. rho = "); Real rho; Say (str_of ", (shifted by "); Real shift; Say (str_of " from r = "); Real radius; Say (str_of ").")]
  | PowerRange _ rmin rmax => [Say (str_of "Power radial profile: rmin must be less than rmax. rmin = "); Real rmin; Say (str_of ", rmax = "); Real rmax; Say (str_of ".")]
  | LinearRange _ rmin rmax => [Say (str_of "Linear radial profile: rmin must be less than rmax. rmin = "); Real rmin; Say (str_of ", rmax = "); Real rmax; Say (str_of ".")]
  | GaussianRange _ rmin rmax => [Say (str_of "Gaussian radial profile: rmin must be less than rmax. rmin = "); Real rmin; Say (str_of ", rmax = "); Real rmax; Say (str_of ".")]
  | BesselRange _ rmin rmax => [Say (str_of "Bessel radial profile: rmin must be less than rmax. rmin = "); Real rmin; Say (str_of ", rmax = "); Real rmax; Say (str_of ".")]
  | Gaussian_a _ x => [Say (str_of "Gaussian radial profile: a must be positive. a = "); Real x; Say (str_of ".")]
  | Gaussian_b _ x => [Say (str_of "Gaussian radial profile: b must be positive. b = "); Real x; Say (str_of ".")]
  | Gaussian_c _ x => [Say (str_of "Gaussian radial profile: c must be positive. c = "); Real x; Say (str_of ".")]
  | MatrixLinear _ i => [Say (str_of "Matrix linear index is out of bounds: "); Number i; Say (str_of "."); Say [cNL]]
  | MatrixRow _ i => [Say (str_of "Matrix row index is out of bounds: "); Number i; Say (str_of "."); Say [cNL]]
  | MatrixColumn _ j => [Say (str_of "Matrix column index is out of bounds: "); Number j; Say (str_of "."); Say [cNL]]
  | TimeSteps _ nt => [Say (str_of "Invalid number of timesteps requested: "); Number nt; Say (str_of ".")]
  | Extrapolation _ t tmax n i => [Say (str_of "The requested tmax requires extrapolation. T = "); Real t; Say (str_of ", tmax = "); Real tmax; Say (str_of ", n = "); Number n; Say (str_of ", i = "); Number i]
  | Unexpected _ line pos file want got => position line pos file ++ [Say (str_of "Expected "); Say (called want); Say (str_of " but got "); Say (called got)]
  | BadStatement _ line pos file got => position line pos file ++ [Say (str_of "Syntax error: Expected name or block-type, but got "); Say (called got)]
  | StrayBrace _ line pos file => position line pos file ++ [Say (str_of "Syntax error: Mismatched '{'.")]
  | NotClosed _ line pos file => position line pos file ++ [Say (str_of "Mismatched '{'. Document was not closed.")]
  end.

(** Values for which the message comes out: three places convert values of another width;
    three put a file name into the format; the matrix indices, enumeration constants and
    numbers of radii have to fit. *)
Definition sound {D} (x : site D) : Prop :=
  match x with
  | BadMatrix _ _ _ _ | SoftGroup_f _ _ _ _ _ _ | LukeSize_f _ _ _ _ _ _ _ => False
  | VerLong_Br _ file _ | VerLong_Bphi _ file _ | VerLong_Bz _ file _ => ~ In "%"%char file /\ ~ In cNUL file
  | MatrixLinear _ i | MatrixRow _ i | MatrixColumn _ i | SdtMode _ i | ImageType _ i | ColormapType _ i => 0 <= i < 2 ^ 31
  | RadiusSoft _ _ nr | RadiusLuke _ _ nr => 1 <= nr <= 2 ^ 32
  | _ => True
  end.
