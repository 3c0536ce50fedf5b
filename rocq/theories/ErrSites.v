(** Every place that throws: the message comes out as meant. *)
From Verif Require Import Base SettingsProofs SdtModel SFileModel NumText TimeModel ConfigModel ErrModel ErrSpec ErrProofs.
From Coq Require Import ZArith Lia.
Local Open Scope Z_scope.

Section Sites.
Variable D : Type.
Variable e_text : D -> str.
Hypothesis e_plain : forall d, ~ In cNUL (e_text d).
Notation comes_out := (comes_out D e_text).

(** Literals of the source have neither [%] nor NUL once the conversions are taken out. *)
Definition cleanb (t : str) : bool := forallb (fun c => negb (Ascii.eqb c "%"%char) && negb (Ascii.eqb c cNUL)) t.
Lemma cleanb_ok : forall t, cleanb t = true -> clean (@Words D t).
Proof.
  intros t H. unfold cleanb in H. rewrite forallb_forall in H. cbn [clean]. split; intro Q; specialize (H _ Q); discriminate H.
Qed.
Lemma ttos_called : forall t, ttos t = called t.
Proof. intros []; reflexivity. Qed.
Lemma called_clean : forall t, clean (@Words D (called t)).
Proof. intros []; apply cleanb_ok; reflexivity. Qed.
Ltac clean_all := repeat (apply Forall_cons; [first [exact I | apply called_clean | apply cleanb_ok; reflexivity | assumption | split; assumption]|]); try apply Forall_nil.
Ltac pick l := match l with cons (Say _) ?r => pick r | cons ?p _ => exists p end.
Ltac values := match goal with |- has_values ?w => let l := eval cbn [wording position app] in w in pick l end;
  split; [cbn [wording position app In]; tauto|intros ?; discriminate].
Tactic Notation "site" uconstr(l) := apply (via_slots D e_text e_plain _ l); [reflexivity|clean_all|values|reflexivity].

Lemma site_FluxGrid : forall name a b c d, comes_out (FluxGrid D name a b c d).
Proof. intros. site ([PutStr name; Words (str_of ": The normalized flux grid has the wrong dimensions: "); PutSize a; Words (str_of " x "); PutSize b; Words (str_of ". Expected "); PutSize c; Words (str_of " x "); PutSize d; Words (str_of ".")]). Qed.

Lemma site_FieldVar_ptBx : forall name a b c d, comes_out (FieldVar_ptBx D name a b c d).
Proof. intros. site ([PutStr name; Words (str_of ": Invalid dimensions of magnetic field variable 'ptBx': "); PutSize a; Words (str_of " x "); PutSize b; Words (str_of ". Expected "); PutSize c; Words (str_of " x "); PutSize d; Words (str_of ".")]). Qed.

Lemma site_FieldVar_ptBy : forall name a b c d, comes_out (FieldVar_ptBy D name a b c d).
Proof. intros. site ([PutStr name; Words (str_of ": Invalid dimensions of magnetic field variable 'ptBy': "); PutSize a; Words (str_of " x "); PutSize b; Words (str_of ". Expected "); PutSize c; Words (str_of " x "); PutSize d; Words (str_of ".")]). Qed.

Lemma site_FieldVar_ptBPHI : forall name a b c d, comes_out (FieldVar_ptBPHI D name a b c d).
Proof. intros. site ([PutStr name; Words (str_of ": Invalid dimensions of magnetic field variable 'ptBPHI': "); PutSize a; Words (str_of " x "); PutSize b; Words (str_of ". Expected "); PutSize c; Words (str_of " x "); PutSize d; Words (str_of ".")]). Qed.

Lemma site_Surface_ptx : forall name a b c d, comes_out (Surface_ptx D name a b c d).
Proof. intros. site ([PutStr name; Words (str_of ": Invalid dimensions of variable 'ptx': "); PutSize a; Words (str_of " x "); PutSize b; Words (str_of ". Expected "); PutSize c; Words (str_of " x "); PutSize d; Words (str_of ".")]). Qed.

Lemma site_Surface_pty : forall name a b c d, comes_out (Surface_pty D name a b c d).
Proof. intros. site ([PutStr name; Words (str_of ": Invalid dimensions of variable 'pty': "); PutSize a; Words (str_of " x "); PutSize b; Words (str_of ". Expected "); PutSize c; Words (str_of " x "); PutSize d; Words (str_of ".")]). Qed.

Lemma site_WallSize : forall name a b, comes_out (WallSize D name a b).
Proof. intros. site ([PutStr name; Words (str_of ": Invalid dimensions of wall: "); PutSize a; Words (str_of " x "); PutSize b; Words (str_of ". Expected 2 x many.")]). Qed.

Lemma site_AxisPoint : forall file, comes_out (AxisPoint D file).
Proof. intros. apply (via_words D e_text _ [file; (str_of ": The magnetic axis must be given as a point with two coordinates.")]); [reflexivity|]. cbn [concat]. rewrite ?app_nil_r. reflexivity. Qed.

Lemma site_VerLong_Br : forall file nr, ~ In "%"%char file -> ~ In cNUL file -> comes_out (VerLong_Br D file nr).
Proof. intros. site ([Words file; Words (str_of ": Verification vector 'verBr' has more than nr (= "); PutUInt nr; Words (str_of ") elements.")]). Qed.

Lemma site_VerFail_Br : forall file, comes_out (VerFail_Br D file).
Proof. intros. apply (via_words D e_text _ [file; (str_of ": Magnetic field component 'Br' did not match its verification vector.")]); [reflexivity|]. cbn [concat]. rewrite ?app_nil_r. reflexivity. Qed.

Lemma site_VerLong_Bphi : forall file nr, ~ In "%"%char file -> ~ In cNUL file -> comes_out (VerLong_Bphi D file nr).
Proof. intros. site ([Words file; Words (str_of ": Verification vector 'verBphi' has more than nr (= "); PutUInt nr; Words (str_of ") elements.")]). Qed.

Lemma site_VerFail_Bphi : forall file, comes_out (VerFail_Bphi D file).
Proof. intros. apply (via_words D e_text _ [file; (str_of ": Magnetic field component 'Bphi' did not match its verification vector.")]); [reflexivity|]. cbn [concat]. rewrite ?app_nil_r. reflexivity. Qed.

Lemma site_VerLong_Bz : forall file nr, ~ In "%"%char file -> ~ In cNUL file -> comes_out (VerLong_Bz D file nr).
Proof. intros. site ([Words file; Words (str_of ": Verification vector 'verBz' has more than nr (= "); PutUInt nr; Words (str_of ") elements.")]). Qed.

Lemma site_VerFail_Bz : forall file, comes_out (VerFail_Bz D file).
Proof. intros. apply (via_words D e_text _ [file; (str_of ": Magnetic field component 'Bz' did not match its verification vector.")]); [reflexivity|]. cbn [concat]. rewrite ?app_nil_r. reflexivity. Qed.

Lemma site_NoBoundary : forall file, comes_out (NoBoundary D file).
Proof. intros. apply (via_words D e_text _ [file; (str_of ": At least one of 'wall' and 'separatrix' must be provided in the magnetic equilibrium file.")]); [reflexivity|]. cbn [concat]. rewrite ?app_nil_r. reflexivity. Qed.

Lemma site_NotOpened : forall file detail, comes_out (NotOpened D file detail).
Proof. intros. site ([PutStr file; Words (str_of ": Unable to open HDF5 file."); Words [cNL]; PutStr detail]). Qed.

Lemma site_AttrUnread : forall data detail, comes_out (AttrUnread D data detail).
Proof. intros. site ([Words (str_of "Unable to read attribute string '"); PutStr data; Words (str_of "'. HDF5 error: "); PutStr detail]). Qed.

Lemma site_NoVariable : forall name file, comes_out (NoVariable D name file).
Proof. intros. site ([Words (str_of "A variable with the name '"); PutStr name; Words (str_of "' does not exist in the file '"); PutStr file; Words (str_of "'.")]). Qed.

Lemma site_HeaderLong : forall n, comes_out (HeaderLong D n).
Proof. intros. site ([Words (str_of "Error when writing MAT file header: string too long ("); PutInt n; Words (str_of " bytes too many).")]). Qed.

Lemma site_MatNotCreated : forall file, comes_out (MatNotCreated D file).
Proof. intros. site ([Words (str_of "Unable to create MAT file '"); PutStr file; Words (str_of "'.")]). Qed.

Lemma site_StringDims : forall n name, comes_out (StringDims D n name).
Proof. intros. site ([Words (str_of "Invalid number of dimensions ("); PutULL n; Words (str_of ") for string: "); PutStr name; Words (str_of ".")]). Qed.

Lemma site_BadSpecifier : forall type, comes_out (BadSpecifier D type).
Proof. intros. site ([Words (str_of "Expected data type specifier, but found token: '"); PutStr type; Words (str_of "'.")]). Qed.

Lemma site_BadFormat : forall file, comes_out (BadFormat D file).
Proof. intros. site ([Words (str_of "Trying to open file of unrecognized format: '"); PutStr file; Words (str_of "'.")]). Qed.

Lemma site_NotList : forall file name, comes_out (NotList D file name).
Proof. intros. site ([PutStr file; Words (str_of ": The requested variable is not a list: '"); PutStr name; Words (str_of "'.")]). Qed.

Lemma site_NotNumbers : forall file name, comes_out (NotNumbers D file name).
Proof. intros. site ([PutStr file; Words (str_of ": Unable to load the variable '"); PutStr name; Words (str_of "' as an array of the desired type.")]). Qed.

Lemma site_NotScalar : forall file name, comes_out (NotScalar D file name).
Proof. intros. site ([PutStr file; Words (str_of ": The requested variable is not a scalar: '"); PutStr name; Words (str_of "'.")]). Qed.

Lemma site_SdtMode : forall mode, 0 <= mode < 2 ^ 31 -> comes_out (SdtMode D mode).
Proof. intros mode H. apply (via_slots D e_text e_plain _ [Words (str_of "Unrecognized option for opening the SDT file: "); PutInt mode; Words (str_of ".")]); [reflexivity|clean_all|values|].
  cbn [thrown]. unfold sfile_exception. rewrite softlib_values by discriminate. unfold construct. rewrite !until_nul_same by (vm_compute; intuition discriminate).
  match goal with |- context [printf D e_text ?f [AUInt mode]] => replace (printf D e_text f [AUInt mode]) with (printf D e_text f [AInt mode]); [reflexivity|] end.
  unfold str_of. cbn [list_ascii_of_string app ErrModel.printf Ascii.eqb Bool.eqb negb convert]. destruct (Z.ltb_spec mode (2 ^ 31)); [reflexivity|lia]. Qed.

Lemma site_SdtNoMatrix : forall name, comes_out (SdtNoMatrix D name).
Proof. intros. site ([Words (str_of "No matrix named '"); PutStr name; Words (str_of "' in the SDT file.")]). Qed.

Lemma site_SdtNoMulti : forall name, comes_out (SdtNoMulti D name).
Proof. intros. site ([Words (str_of "When loading variable '"); PutStr name; Words (str_of "': The SDT format has no support for multidimensional arrays.")]). Qed.

Lemma site_SdtNoVector : forall name, comes_out (SdtNoVector D name).
Proof. intros. site ([Words (str_of "No vector named '"); PutStr name; Words (str_of "' in the SDT file.")]). Qed.

Lemma site_SdtNotVector : forall name, comes_out (SdtNotVector D name).
Proof. intros. site ([Words (str_of "The requested variable is not a vector: '"); PutStr name; Words (str_of "'.")]). Qed.

Lemma site_SdtNoAttr : forall name data, comes_out (SdtNoAttr D name data).
Proof. intros. site ([Words (str_of "No attribute scalar named '"); PutStr name; Words (str_of "' for dataset '"); PutStr data; Words (str_of "' in the SDT file.")]). Qed.

Lemma site_SdtAttrSize : forall data name, comes_out (SdtAttrSize D data name).
Proof. intros. site ([Words (str_of "The requested variable in dataset '"); PutStr data; Words (str_of "' is not a scalar: '"); PutStr name; Words (str_of "'.")]). Qed.

Lemma site_SdtNoAttrText : forall name data, comes_out (SdtNoAttrText D name data).
Proof. intros. site ([Words (str_of "No attribute string named '"); PutStr name; Words (str_of "' for dataset '"); PutStr data; Words (str_of "' in the SDT file.")]). Qed.

Lemma site_SdtNoText : forall name, comes_out (SdtNoText D name).
Proof. intros. site ([Words (str_of "No string named '"); PutStr name; Words (str_of "' in the SDT file.")]). Qed.

Lemma site_SdtMulti : forall name, comes_out (SdtMulti D name).
Proof. intros. site ([Words (str_of "Trying to write variable '"); PutStr name; Words (str_of "': The SDT format does not support higher than 2-dimensional arrays.")]). Qed.

Lemma site_ImageType : forall type, 0 <= type < 2 ^ 31 -> comes_out (ImageType D type).
Proof. intros type H. apply (via_slots D e_text e_plain _ [Words (str_of "Unrecognized image format specified to 'ImageGenerator': '"); PutInt type; Words (str_of "'.")]); [reflexivity|clean_all|values|].
  cbn [thrown]. unfold sfile_exception. rewrite softlib_values by discriminate. unfold construct. rewrite !until_nul_same by (vm_compute; intuition discriminate).
  match goal with |- context [printf D e_text ?f [AUInt type]] => replace (printf D e_text f [AUInt type]) with (printf D e_text f [AInt type]); [reflexivity|] end.
  unfold str_of. cbn [list_ascii_of_string app ErrModel.printf Ascii.eqb Bool.eqb negb convert]. destruct (Z.ltb_spec type (2 ^ 31)); [reflexivity|lia]. Qed.

Lemma site_ColormapType : forall cmap, 0 <= cmap < 2 ^ 31 -> comes_out (ColormapType D cmap).
Proof. intros cmap H. apply (via_slots D e_text e_plain _ [Words (str_of "Unrecognized colormap requested: "); PutInt cmap; Words (str_of ".")]); [reflexivity|clean_all|values|].
  cbn [thrown]. unfold sfile_exception. rewrite softlib_values by discriminate. unfold construct. rewrite !until_nul_same by (vm_compute; intuition discriminate).
  match goal with |- context [printf D e_text ?f [AUInt cmap]] => replace (printf D e_text f [AUInt cmap]) with (printf D e_text f [AInt cmap]); [reflexivity|] end.
  unfold str_of. cbn [list_ascii_of_string app ErrModel.printf Ascii.eqb Bool.eqb negb convert]. destruct (Z.ltb_spec cmap (2 ^ 31)); [reflexivity|lia]. Qed.

Lemma site_SettingType : forall name, comes_out (SettingType D name).
Proof. intros. site ([Words (str_of "The data in setting '"); PutStr name; Words (str_of "' is of unrecognized type.")]). Qed.

Lemma site_SettingNotBool : forall name, comes_out (SettingNotBool D name).
Proof. intros. site ([Words (str_of "The data in setting '"); PutStr name; Words (str_of "' is not of boolean type.")]). Qed.

Lemma site_SettingNotInt : forall name, comes_out (SettingNotInt D name).
Proof. intros. site ([Words (str_of "The data in setting '"); PutStr name; Words (str_of "' is not of integer type.")]). Qed.

Lemma site_SettingNotNum : forall name, comes_out (SettingNotNum D name).
Proof. intros. site ([Words (str_of "The data in setting '"); PutStr name; Words (str_of "' is not of numeric type.")]). Qed.

Lemma site_SettingNotStr : forall name, comes_out (SettingNotStr D name).
Proof. intros. site ([Words (str_of "The data in setting '"); PutStr name; Words (str_of "' is not of string type.")]). Qed.

Lemma site_NoSetting : forall setting block, comes_out (NoSetting D setting block).
Proof. intros. site ([Words (str_of "No setting with name '"); PutStr setting; Words (str_of "' in block '"); PutStr block; Words (str_of "'.")]). Qed.

Lemma site_BlockTypeTwice : forall name, comes_out (BlockTypeTwice D name).
Proof. intros. apply (via_words D e_text _ [(str_of "The block-type '"); name; (str_of "' has already been registered.")]); [reflexivity|]. cbn [concat]. rewrite ?app_nil_r. reflexivity. Qed.

Lemma site_AlreadyOpen : comes_out (AlreadyOpen D).
Proof. apply (via_words D e_text _ [(str_of "A configuration file has already been opened with this ConfigurationScript object.")]); [reflexivity|]. cbn [concat]. rewrite ?app_nil_r. reflexivity. Qed.

Lemma site_ConfNotOpened : forall file, comes_out (ConfNotOpened D file).
Proof. intros. apply (via_words D e_text _ [(str_of "Unable to open configuration file: "); file]); [reflexivity|]. cbn [concat]. rewrite ?app_nil_r. reflexivity. Qed.

Lemma site_IncludeNotOpened : forall line pos file name, comes_out (IncludeNotOpened D line pos file name).
Proof. intros. site ([PutStr file; Words (str_of ":"); PutSize line; Words (str_of ":"); PutSize pos; Words (str_of ": ")] ++ [Words (str_of "Unable to open included configuration file '"); PutStr name; Words (str_of "'.")]). Qed.

Lemma site_RadiusSoft : forall radindex nr, 1 <= nr <= 2 ^ 32 -> comes_out (RadiusSoft D radindex nr).
Proof. intros radindex nr H. assert (E : (nr - 1) mod 2 ^ 32 = nr - 1) by (apply Z.mod_small; lia).
  apply (via_slots D e_text e_plain _ [Words (str_of "Invalid radial index selected for the SOFT distribution function: "); PutUInt radindex; Words (str_of " > "); PutUInt (nr - 1); Words (str_of " (number of radial points).")]); [reflexivity|clean_all|values|]. cbn [thrown]. rewrite E. reflexivity. Qed.

Lemma site_RadiusLuke : forall radindex nr, 1 <= nr <= 2 ^ 32 -> comes_out (RadiusLuke D radindex nr).
Proof. intros radindex nr H. assert (E : (nr - 1) mod 2 ^ 32 = nr - 1) by (apply Z.mod_small; lia).
  apply (via_slots D e_text e_plain _ [Words (str_of "Invalid radial index selected for the LUKE distribution function: "); PutUInt radindex; Words (str_of " > "); PutUInt (nr - 1); Words (str_of " (number of radial points).")]); [reflexivity|clean_all|values|]. cbn [thrown]. rewrite E. reflexivity. Qed.

Lemma site_SoftSize_r : forall a b, comes_out (SoftSize_r D a b).
Proof. intros. site ([Words (str_of "Invalid size of SOFT distribution function 'r' vector: "); PutULL a; Words (str_of " x "); PutULL b; Words (str_of ".")]). Qed.

Lemma site_SoftSize_p : forall a b, comes_out (SoftSize_p D a b).
Proof. intros. site ([Words (str_of "Invalid size of SOFT distribution function 'p' vector: "); PutULL a; Words (str_of " x "); PutULL b; Words (str_of ".")]). Qed.

Lemma site_SoftSize_xi : forall a b, comes_out (SoftSize_xi D a b).
Proof. intros. site ([Words (str_of "Invalid size of SOFT distribution function 'xi' vector: "); PutULL a; Words (str_of " x "); PutULL b; Words (str_of ".")]). Qed.

Lemma site_SoftSize_f : forall a b, comes_out (SoftSize_f D a b).
Proof. intros. site ([Words (str_of "Invalid size of SOFT distribution function 'f' vector: "); PutULL a; Words (str_of " x "); PutULL b; Words (str_of ".")]). Qed.

Lemma site_SoftUnits : forall units, comes_out (SoftUnits D units).
Proof. intros. site ([Words (str_of "Unrecognized momentum units of SOFT distribution function: '"); PutStr units; Words (str_of "'.")]). Qed.

Lemma site_SoftVerify : forall var a b, comes_out (SoftVerify D var a b).
Proof. intros. site ([Words (str_of "Invalid size of SOFT distribution function verification vector '"); PutStr var; Words (str_of "': "); PutULL a; Words (str_of " x "); PutULL b; Words (str_of ".")]). Qed.

Lemma site_SoftGroup_p : forall group a b, comes_out (SoftGroup_p D group a b).
Proof. intros. site ([Words (str_of "Invalid size of SOFT distribution function '"); PutStr group; Words (str_of "p' vector: "); PutULL a; Words (str_of " x "); PutULL b; Words (str_of ".")]). Qed.

Lemma site_SoftGroup_xi : forall group a b, comes_out (SoftGroup_xi D group a b).
Proof. intros. site ([Words (str_of "Invalid size of SOFT distribution function '"); PutStr group; Words (str_of "xi' vector: "); PutULL a; Words (str_of " x "); PutULL b; Words (str_of ".")]). Qed.

Lemma site_LukeSize_xrhoG : forall a b, comes_out (LukeSize_xrhoG D a b).
Proof. intros. site ([Words (str_of "Invalid size of LUKE distribution function 'xrhoG' vector: "); PutULL a; Words (str_of " x "); PutULL b; Words (str_of ".")]). Qed.

Lemma site_LukeSize_pn : forall a b, comes_out (LukeSize_pn D a b).
Proof. intros. site ([Words (str_of "Invalid size of LUKE distribution function 'pn' vector: "); PutULL a; Words (str_of " x "); PutULL b; Words (str_of ".")]). Qed.

Lemma site_LukeSize_betath_ref : forall a b, comes_out (LukeSize_betath_ref D a b).
Proof. intros. site ([Words (str_of "Invalid size of LUKE distribution function 'betath_ref' variable: "); PutULL a; Words (str_of " x "); PutULL b; Words (str_of ".")]). Qed.

Lemma site_LukeSize_mhu : forall a b, comes_out (LukeSize_mhu D a b).
Proof. intros. site ([Words (str_of "Invalid size of LUKE distribution function 'mhu' vector: "); PutULL a; Words (str_of " x "); PutULL b; Words (str_of ".")]). Qed.

Lemma site_LukeDims : forall n, comes_out (LukeDims D n).
Proof. intros. site ([Words (str_of "Invalid number of dimensions in LUKE distribution function 'f': "); PutULL n; Words (str_of ".")]). Qed.

Lemma site_DreamNone : forall file, comes_out (DreamNone D file).
Proof. intros. site ([Words (str_of "DREAMDistributionFunction: No distribution function found in file '"); PutStr file; Words (str_of "'. Try to explicitly give the name of the distribution function.")]). Qed.

Lemma site_DreamType : forall name, comes_out (DreamType D name).
Proof. intros. site ([Words (str_of "DREAMDistributionFunction: Unrecognized type of distribution function specified: '"); PutStr name; Words (str_of "'. Unable to determine which momentum grid to use.")]). Qed.

Lemma site_DreamDims : forall n nr nxi np a b c, comes_out (DreamDims D n nr nxi np a b c).
Proof. intros. site ([Words (str_of "DREAMDistributionFunction: Invalid dimensions of distribution functions ("); PutULL n; Words (str_of "). The grid has size "); PutULL nr; Words (str_of "x"); PutULL nxi; Words (str_of "x"); PutULL np; Words (str_of ", but f has size "); PutULL a; Words (str_of "x"); PutULL b; Words (str_of "x"); PutULL c; Words (str_of ".")]). Qed.

Lemma site_DreamTime : forall nt, comes_out (DreamTime D nt).
Proof. intros. site ([Words (str_of "DREAMDistributionFunction: Invalid time step specified. The distribution contains "); PutULL nt; Words (str_of " time steps.")]). Qed.

Lemma site_CodeGrid : forall a b, comes_out (CodeGrid D a b).
Proof. intros. site ([Words (str_of "Invalid size of CODE distribution function momentum grid: "); PutULL a; Words (str_of " x "); PutULL b; Words (str_of ".")]). Qed.

Lemma site_CodeSize_delta : forall a b, comes_out (CodeSize_delta D a b).
Proof. intros. site ([Words (str_of "Invalid size of CODE distribution 'delta' variable: "); PutULL a; Words (str_of " x "); PutULL b; Words (str_of ".")]). Qed.

Lemma site_CodeSize_nref : forall a b, comes_out (CodeSize_nref D a b).
Proof. intros. site ([Words (str_of "Invalid size of CODE distribution 'nref' variable: "); PutULL a; Words (str_of " x "); PutULL b; Words (str_of ".")]). Qed.

Lemma site_CodeSize_Tref : forall a b, comes_out (CodeSize_Tref D a b).
Proof. intros. site ([Words (str_of "Invalid size of CODE distribution 'Tref' variable: "); PutULL a; Words (str_of " x "); PutULL b; Words (str_of ".")]). Qed.

Lemma site_CodeSize_Nxi : forall a b, comes_out (CodeSize_Nxi D a b).
Proof. intros. site ([Words (str_of "Invalid size of CODE distribution 'Nxi' variable: "); PutULL a; Words (str_of " x "); PutULL b; Words (str_of ".")]). Qed.

Lemma site_CodeSize_f : forall a b, comes_out (CodeSize_f D a b).
Proof. intros. site ([Words (str_of "Invalid size of CODE distribution 'f' variable: "); PutULL a; Words (str_of " x "); PutULL b; Words (str_of ".")]). Qed.

Lemma site_CodeTime : forall time, comes_out (CodeTime D time).
Proof. intros. site ([Words (str_of "Invalid time index selected for CODE distribution function: "); PutInt time; Words (str_of ".")]). Qed.

Lemma site_CodeInterp : forall type, comes_out (CodeInterp D type).
Proof. intros. site ([Words (str_of "CODE distribution function: Unrecognized interpolation method requested: "); PutInt type; Words (str_of ".")]). Qed.

Lemma site_GocodeSize : forall a b, comes_out (GocodeSize D a b).
Proof. intros. site ([Words (str_of "Invalid size of GO+CODE distribution function 'x_CODE' vector: "); PutULL a; Words (str_of " x "); PutULL b; Words (str_of ".")]). Qed.

Lemma site_GocodeTime : forall time, comes_out (GocodeTime D time).
Proof. intros. site ([Words (str_of "Invalid time index select for GO+CODE distribution function: "); PutInt time; Words (str_of ".")]). Qed.

Lemma site_GocodePosition : forall rho shift radius, comes_out (GocodePosition D rho shift radius).
Proof. intros. site ([Words (str_of "GOCODEDistributionFunction: No data avilable for particle position. rho = "); PutDbl rho; Words (str_of ", (shifted by "); PutDbl shift; Words (str_of " from r = "); PutDbl radius; Words (str_of ").")]). Qed.

Lemma site_NumericPosition : forall rho shift radius, comes_out (NumericPosition D rho shift radius).
Proof. intros. site ([Words (str_of "Numeric distribution function: No data available for particle position. rho = "); PutDbl rho; Words (str_of ", (shifted by "); PutDbl shift; Words (str_of " from r = "); PutDbl radius; Words (str_of ").")]). Qed.

Lemma site_PowerRange : forall rmin rmax, comes_out (PowerRange D rmin rmax).
Proof. intros. site ([Words (str_of "Power radial profile: rmin must be less than rmax. rmin = "); PutDbl rmin; Words (str_of ", rmax = "); PutDbl rmax; Words (str_of ".")]). Qed.

Lemma site_LinearRange : forall rmin rmax, comes_out (LinearRange D rmin rmax).
Proof. intros. site ([Words (str_of "Linear radial profile: rmin must be less than rmax. rmin = "); PutDbl rmin; Words (str_of ", rmax = "); PutDbl rmax; Words (str_of ".")]). Qed.

Lemma site_GaussianRange : forall rmin rmax, comes_out (GaussianRange D rmin rmax).
Proof. intros. site ([Words (str_of "Gaussian radial profile: rmin must be less than rmax. rmin = "); PutDbl rmin; Words (str_of ", rmax = "); PutDbl rmax; Words (str_of ".")]). Qed.

Lemma site_BesselRange : forall rmin rmax, comes_out (BesselRange D rmin rmax).
Proof. intros. site ([Words (str_of "Bessel radial profile: rmin must be less than rmax. rmin = "); PutDbl rmin; Words (str_of ", rmax = "); PutDbl rmax; Words (str_of ".")]). Qed.

Lemma site_Gaussian_a : forall x, comes_out (Gaussian_a D x).
Proof. intros. site ([Words (str_of "Gaussian radial profile: a must be positive. a = "); PutDbl x; Words (str_of ".")]). Qed.

Lemma site_Gaussian_b : forall x, comes_out (Gaussian_b D x).
Proof. intros. site ([Words (str_of "Gaussian radial profile: b must be positive. b = "); PutDbl x; Words (str_of ".")]). Qed.

Lemma site_Gaussian_c : forall x, comes_out (Gaussian_c D x).
Proof. intros. site ([Words (str_of "Gaussian radial profile: c must be positive. c = "); PutDbl x; Words (str_of ".")]). Qed.

Lemma site_MatrixLinear : forall i, 0 <= i < 2 ^ 31 -> comes_out (MatrixLinear D i).
Proof. intros i H. apply (via_slots D e_text e_plain _ [Words (str_of "Matrix linear index is out of bounds: "); PutInt i; Words (str_of "."); Words [cNL]]); [reflexivity|clean_all|values|].
  cbn [thrown]. unfold sfile_exception. rewrite softlib_values by discriminate. unfold construct. rewrite !until_nul_same by (vm_compute; intuition discriminate).
  match goal with |- context [printf D e_text ?f [AUInt i]] => replace (printf D e_text f [AUInt i]) with (printf D e_text f [AInt i]); [reflexivity|] end.
  unfold str_of. cbn [list_ascii_of_string app ErrModel.printf Ascii.eqb Bool.eqb negb convert]. destruct (Z.ltb_spec i (2 ^ 31)); [reflexivity|lia]. Qed.

Lemma site_MatrixRow : forall i, 0 <= i < 2 ^ 31 -> comes_out (MatrixRow D i).
Proof. intros i H. apply (via_slots D e_text e_plain _ [Words (str_of "Matrix row index is out of bounds: "); PutInt i; Words (str_of "."); Words [cNL]]); [reflexivity|clean_all|values|].
  cbn [thrown]. unfold sfile_exception. rewrite softlib_values by discriminate. unfold construct. rewrite !until_nul_same by (vm_compute; intuition discriminate).
  match goal with |- context [printf D e_text ?f [AUInt i]] => replace (printf D e_text f [AUInt i]) with (printf D e_text f [AInt i]); [reflexivity|] end.
  unfold str_of. cbn [list_ascii_of_string app ErrModel.printf Ascii.eqb Bool.eqb negb convert]. destruct (Z.ltb_spec i (2 ^ 31)); [reflexivity|lia]. Qed.

Lemma site_MatrixColumn : forall j, 0 <= j < 2 ^ 31 -> comes_out (MatrixColumn D j).
Proof. intros j H. apply (via_slots D e_text e_plain _ [Words (str_of "Matrix column index is out of bounds: "); PutInt j; Words (str_of "."); Words [cNL]]); [reflexivity|clean_all|values|].
  cbn [thrown]. unfold sfile_exception. rewrite softlib_values by discriminate. unfold construct. rewrite !until_nul_same by (vm_compute; intuition discriminate).
  match goal with |- context [printf D e_text ?f [AUInt j]] => replace (printf D e_text f [AUInt j]) with (printf D e_text f [AInt j]); [reflexivity|] end.
  unfold str_of. cbn [list_ascii_of_string app ErrModel.printf Ascii.eqb Bool.eqb negb convert]. destruct (Z.ltb_spec j (2 ^ 31)); [reflexivity|lia]. Qed.

Lemma site_TimeSteps : forall nt, comes_out (TimeSteps D nt).
Proof. intros. site ([Words (str_of "Invalid number of timesteps requested: "); PutUInt nt; Words (str_of ".")]). Qed.

Lemma site_Extrapolation : forall t tmax n i, comes_out (Extrapolation D t tmax n i).
Proof. intros. site ([Words (str_of "The requested tmax requires extrapolation. T = "); PutDbl t; Words (str_of ", tmax = "); PutDbl tmax; Words (str_of ", n = "); PutUInt n; Words (str_of ", i = "); PutUInt i]). Qed.

Lemma site_Unexpected : forall line pos file want got, comes_out (Unexpected D line pos file want got).
Proof.
  intros. apply (via_slots D e_text e_plain _ ([PutStr file; Words (str_of ":"); PutSize line; Words (str_of ":"); PutSize pos; Words (str_of ": ")] ++ [Words (str_of "Expected "); Words (called want); Words (str_of " but got "); Words (called got)])); [reflexivity|clean_all|values|].
  cbn [thrown]. rewrite ?ttos_called. destruct got; reflexivity.
Qed.

Lemma site_BadStatement : forall line pos file got, comes_out (BadStatement D line pos file got).
Proof.
  intros. apply (via_slots D e_text e_plain _ ([PutStr file; Words (str_of ":"); PutSize line; Words (str_of ":"); PutSize pos; Words (str_of ": ")] ++ [Words (str_of "Syntax error: Expected name or block-type, but got "); Words (called got)])); [reflexivity|clean_all|values|].
  cbn [thrown]. rewrite ?ttos_called. destruct got; reflexivity.
Qed.

Lemma site_StrayBrace : forall line pos file, comes_out (StrayBrace D line pos file).
Proof.
  intros. apply (via_slots D e_text e_plain _ ([PutStr file; Words (str_of ":"); PutSize line; Words (str_of ":"); PutSize pos; Words (str_of ": ")] ++ [Words (str_of "Syntax error: Mismatched '{'.")])); [reflexivity|clean_all|values|].
  cbn [thrown]. rewrite ?ttos_called. reflexivity.
Qed.

Lemma site_NotClosed : forall line pos file, comes_out (NotClosed D line pos file).
Proof.
  intros. apply (via_slots D e_text e_plain _ ([PutStr file; Words (str_of ":"); PutSize line; Words (str_of ":"); PutSize pos; Words (str_of ": ")] ++ [Words (str_of "Mismatched '{'. Document was not closed.")])); [reflexivity|clean_all|values|].
  cbn [thrown]. rewrite ?ttos_called. reflexivity.
Qed.

Lemma all_sites : forall x, sound x -> comes_out x.
Proof.
  intros x H; destruct x; cbn [sound] in H;
    [apply site_FluxGrid; tauto|
     apply site_FieldVar_ptBx; tauto|
     apply site_FieldVar_ptBy; tauto|
     apply site_FieldVar_ptBPHI; tauto|
     apply site_Surface_ptx; tauto|
     apply site_Surface_pty; tauto|
     apply site_WallSize; tauto|
     apply site_AxisPoint; tauto|
     apply site_VerLong_Br; tauto|
     apply site_VerFail_Br; tauto|
     apply site_VerLong_Bphi; tauto|
     apply site_VerFail_Bphi; tauto|
     apply site_VerLong_Bz; tauto|
     apply site_VerFail_Bz; tauto|
     apply site_NoBoundary; tauto|
     apply site_NotOpened; tauto|
     apply site_AttrUnread; tauto|
     apply site_NoVariable; tauto|
     apply site_HeaderLong; tauto|
     apply site_MatNotCreated; tauto|
     apply site_StringDims; tauto|
     apply site_BadSpecifier; tauto|
     contradiction|
     apply site_BadFormat; tauto|
     apply site_NotList; tauto|
     apply site_NotNumbers; tauto|
     apply site_NotScalar; tauto|
     apply site_SdtMode; tauto|
     apply site_SdtNoMatrix; tauto|
     apply site_SdtNoMulti; tauto|
     apply site_SdtNoVector; tauto|
     apply site_SdtNotVector; tauto|
     apply site_SdtNoAttr; tauto|
     apply site_SdtAttrSize; tauto|
     apply site_SdtNoAttrText; tauto|
     apply site_SdtNoText; tauto|
     apply site_SdtMulti; tauto|
     apply site_ImageType; tauto|
     apply site_ColormapType; tauto|
     apply site_SettingType; tauto|
     apply site_SettingNotBool; tauto|
     apply site_SettingNotInt; tauto|
     apply site_SettingNotNum; tauto|
     apply site_SettingNotStr; tauto|
     apply site_NoSetting; tauto|
     apply site_BlockTypeTwice; tauto|
     apply site_AlreadyOpen; tauto|
     apply site_ConfNotOpened; tauto|
     apply site_IncludeNotOpened; tauto|
     apply site_RadiusSoft; tauto|
     apply site_RadiusLuke; tauto|
     apply site_SoftSize_r; tauto|
     apply site_SoftSize_p; tauto|
     apply site_SoftSize_xi; tauto|
     apply site_SoftSize_f; tauto|
     apply site_SoftUnits; tauto|
     apply site_SoftVerify; tauto|
     apply site_SoftGroup_p; tauto|
     apply site_SoftGroup_xi; tauto|
     contradiction|
     apply site_LukeSize_xrhoG; tauto|
     apply site_LukeSize_pn; tauto|
     apply site_LukeSize_betath_ref; tauto|
     apply site_LukeSize_mhu; tauto|
     apply site_LukeDims; tauto|
     contradiction|
     apply site_DreamNone; tauto|
     apply site_DreamType; tauto|
     apply site_DreamDims; tauto|
     apply site_DreamTime; tauto|
     apply site_CodeGrid; tauto|
     apply site_CodeSize_delta; tauto|
     apply site_CodeSize_nref; tauto|
     apply site_CodeSize_Tref; tauto|
     apply site_CodeSize_Nxi; tauto|
     apply site_CodeSize_f; tauto|
     apply site_CodeTime; tauto|
     apply site_CodeInterp; tauto|
     apply site_GocodeSize; tauto|
     apply site_GocodeTime; tauto|
     apply site_GocodePosition; tauto|
     apply site_NumericPosition; tauto|
     apply site_PowerRange; tauto|
     apply site_LinearRange; tauto|
     apply site_GaussianRange; tauto|
     apply site_BesselRange; tauto|
     apply site_Gaussian_a; tauto|
     apply site_Gaussian_b; tauto|
     apply site_Gaussian_c; tauto|
     apply site_MatrixLinear; tauto|
     apply site_MatrixRow; tauto|
     apply site_MatrixColumn; tauto|
     apply site_TimeSteps; tauto|
     apply site_Extrapolation; tauto|
     apply site_Unexpected; tauto|
     apply site_BadStatement; tauto|
     apply site_StrayBrace; tauto|
     apply site_NotClosed; tauto].
Qed.
End Sites.
