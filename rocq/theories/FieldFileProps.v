(** C107: numeric magnetic fields in files.
    Vocabulary: [holds] (the variables of a file), [savable] (FieldFileSpec); [describes],
    [verified] (NumericProps); [run], [opens_to_write] (HdfSpec). *)
From Coq Require Import Reals QArith Qreals ZArith Lia Lra.
From Verif Require Import Base SettingsModel SdtModel SdtProofs SessionModel SFileModel SFileProofs TypedModel HdfModel HdfSpec HdfProofs HdfProps DomainModel DomainProps NumericModel NumericSpec NumericProps FieldFileModel FieldFileSpec FieldFileProofs.
Local Open Scope Z_scope.

(** A field is loaded from every HDF5 or MAT file that holds its variables, whoever wrote it
    and in whatever order, rows for heights or for radii; the file is closed afterwards. *)
Theorem C107_load : forall rn rs w j k f t x m name desc RR ZZ Br Bphi Bz Psi axis sep wall,
  v_fs w f = FHdf x -> holds k x m -> describes m name desc RR ZZ Br Bphi Bz Psi axis sep wall ->
  ZZ <> [] -> verified Qeq_bool m (length RR) Br Bphi Bz ->
  exists w', load_file rn rs w j k f LOk t = (init Q str Qbelow name desc RR ZZ Br Bphi Bz Psi axis sep wall, w') /\
  (forall n, init Q str Qbelow name desc RR ZZ Br Bphi Bz Psi axis sep wall = Ok n -> v_obj w' j = Some (HObj k PNull) /\ forall i, i <> j -> v_obj w' i = v_obj w i).
Proof.
  intros rn rs w j k f t x m name desc RR ZZ Br Bphi Bz Psi axis sep wall F H D N0 V. rewrite (load_file_open rn rs w j k f t x F), (holds_load rn rs k x m H), (C48_load _ _ _ _ _ _ _ _ _ _ _ _ _ _ _ _ D N0 V).
  eexists; split; [reflexivity|]. intros n E. rewrite E. cbn [v_obj]. split; [apply put_obj_same|]. intros i N. rewrite !put_obj_other by exact N. reflexivity.
Qed.
Print Assumptions C107_load.

(** A file is loaded only if radii and heights are at least four and strictly increasing; if
    they are, it is loaded whenever another field with the same axis and contours is, and
    otherwise the program ends. *)
Definition strictly_increasing (l : list Q) : Prop :=
  forall i a b, nth_error l i = Some a -> nth_error l (S i) = Some b -> (a < b)%Q.
Lemma usable_Q : forall l, usable Qbelow l <-> (4 <= length l)%nat /\ strictly_increasing l.
Proof.
  intro l. unfold usable, strictly_increasing. split; intros (L & H); (split; [exact L|]); intros i a b Ha Hb; specialize (H i a b Ha Hb);
    unfold Qbelow in *.
  - apply Qnot_le_lt. intro X. apply Qle_bool_iff in X. rewrite X in H. discriminate.
  - destruct (Qle_bool b a) eqn:E; [|reflexivity]. apply Qle_bool_iff in E. exfalso. exact (Qlt_not_le _ _ H E).
Qed.
Theorem C107_grid : forall rn rs w j k f t x m name desc RR ZZ Br Bphi Bz Psi axis sep wall,
  v_fs w f = FHdf x -> holds k x m -> describes m name desc RR ZZ Br Bphi Bz Psi axis sep wall ->
  ZZ <> [] -> verified Qeq_bool m (length RR) Br Bphi Bz ->
  let increasing := (4 <= length RR)%nat /\ strictly_increasing RR /\ (4 <= length ZZ)%nat /\ strictly_increasing ZZ in
  (forall n, fst (load_file rn rs w j k f LOk t) = Ok n -> increasing) /\
  (forall rn' rs' w' j' k' f' t' x' m' name' desc' RR' ZZ' Br' Bphi' Bz' Psi' n',
     v_fs w' f' = FHdf x' -> holds k' x' m' -> describes m' name' desc' RR' ZZ' Br' Bphi' Bz' Psi' axis sep wall ->
     ZZ' <> [] -> verified Qeq_bool m' (length RR') Br' Bphi' Bz' -> fst (load_file rn' rs' w' j' k' f' LOk t') = Ok n' ->
     (increasing -> exists n, fst (load_file rn rs w j k f LOk t) = Ok n) /\
     (~ increasing -> fst (load_file rn rs w j k f LOk t) = UB)).
Proof.
  intros rn rs w j k f t x m name desc RR ZZ Br Bphi Bz Psi axis sep wall F H D N0 V increasing.
  destruct (C107_load rn rs w j k f t x m name desc RR ZZ Br Bphi Bz Psi axis sep wall F H D N0 V) as (w1 & E & _). rewrite E. cbn [fst].
  destruct (C48_object Q str Qbelow name desc RR ZZ Br Bphi Bz Psi axis sep wall) as (_ & _ & C1 & C2).
  assert (U : usable Qbelow RR /\ usable Qbelow ZZ <-> increasing).
  { rewrite !usable_Q. unfold increasing. tauto. }
  split.
  - intros n En. apply U. exact (C1 n En).
  - intros rn' rs' w' j' k' f' t' x' m' name' desc' RR' ZZ' Br' Bphi' Bz' Psi' n' F' H' D' N0' V' E'.
    destruct (C107_load rn' rs' w' j' k' f' t' x' m' name' desc' RR' ZZ' Br' Bphi' Bz' Psi' axis sep wall F' H' D' N0' V') as (w2 & E2 & _).
    rewrite E2 in E'. cbn [fst] in E'. destruct (C2 _ _ _ _ _ _ _ _ _ E') as [G1 G2]. split.
    + intro I. apply U in I. exact (G1 (proj1 I) (proj2 I)).
    + intro I. apply G2. intro X. apply I, U, X.
Qed.
Print Assumptions C107_grid.
Example C107_grid_example : (4 <= length [1; 3; 4; 5]%Q)%nat /\ strictly_increasing [1; 3; 4; 5]%Q /\ ~ strictly_increasing [1; 3; 3; 5]%Q.
Proof.
  split; [cbn; lia|]. split.
  - intros [|[|[|[|i]]]] a b Ha Hb; cbn in Ha, Hb; try (injection Ha as <-; injection Hb as <-; reflexivity); try discriminate; destruct i; discriminate.
  - intro H. specialize (H 1%nat 3%Q 3%Q eq_refl eq_refl). discriminate H.
Qed.

(** The same for SDT files. *)
Theorem C107_load_sdt : forall rd m name desc RR ZZ Br Bphi Bz Psi axis sep wall,
  sdt_holds rd m -> describes m name desc RR ZZ Br Bphi Bz Psi axis sep wall -> ZZ <> [] -> verified Qeq_bool m (length RR) Br Bphi Bz ->
  load_from (sdt_source rd) = init Q str Qbelow name desc RR ZZ Br Bphi Bz Psi axis sep wall.
Proof. intros. rewrite (sdt_holds_load rd m) by assumption. apply C48_load; assumption. Qed.
Print Assumptions C107_load_sdt.

(** A file without one of the required variables, with an axis that is no point, or with
    verification data that do not agree, is rejected; so is what is no HDF5 file.  Loading never
    changes a file. *)
Theorem C107_load_rejects : forall rn rs w j k f t,
  (forall x m n, v_fs w f = FHdf x -> holds k x m -> In n required -> find n (h_sets x) = None -> fst (load_file rn rs w j k f LOk t) = Throw) /\
  (forall x m l, v_fs w f = FHdf x -> holds k x m -> f_maxis Q str m = Some l -> length l <> 2%nat -> fst (load_file rn rs w j k f LOk t) = Throw) /\
  (forall x m name desc RR ZZ Br Bphi Bz Psi axis sep wall, v_fs w f = FHdf x -> holds k x m ->
     describes m name desc RR ZZ Br Bphi Bz Psi axis sep wall -> ZZ <> [] -> ~ verified Qeq_bool m (length RR) Br Bphi Bz ->
     fst (load_file rn rs w j k f LOk t) = Throw) /\
  (forall l, (forall x, v_fs w f <> FHdf x) -> fst (load_file rn rs w j k f l t) = Throw) /\
  (forall l, v_fs (snd (load_file rn rs w j k f l t)) = v_fs w).
Proof.
  intros rn rs w j k f t. repeat split.
  - intros x m n F H I M. rewrite (load_file_open rn rs w j k f t x F), (holds_load rn rs k x m H). exact (missing_load k x m n H I M).
  - intros x m l F H E L. rewrite (load_file_open rn rs w j k f t x F), (holds_load rn rs k x m H). exact (axis_load m l E L).
  - intros x m name desc RR ZZ Br Bphi Bz Psi axis sep wall F H D N V. rewrite (load_file_open rn rs w j k f t x F), (holds_load rn rs k x m H). exact (C48_verification _ _ _ _ _ _ _ _ _ _ _ _ _ _ _ _ D N V).
  - intros l N. rewrite (load_file_missing rn rs w j k f l t N). reflexivity.
  - intros l. apply load_file_files.
Qed.
Print Assumptions C107_load_rejects.

(** Optional variables may be missing, but they may not be texts: the exception of the HDF5
    library is not caught. *)
Theorem C107_optional_text_refuted : forall rn rs w j k f t x n d,
  In n [str_of "Psi"; str_of "verBr"; str_of "verBphi"; str_of "verBz"; str_of "wall"; str_of "separatrix"] ->
  v_fs w f = FHdf x -> find n (h_sets x) = Some d -> d_type d = HString -> (length (d_dims d) = 1 \/ length (d_dims d) = 2)%nat ->
  forall g, fst (load_file rn rs w j k f LOk t) <> Ok g.
Proof.
  intros rn rs w j k f t x n d I F D T L g. rewrite (load_file_open rn rs w j k f t x F). cbn [fst].
  assert (E : src_doubles (hdf_source rn rs k x) n = RForeign).
  { cbn [hdf_source src_doubles]. rewrite D. cbn [kind_read]. unfold h5_get2d. rewrite D, T.
    destruct (d_dims d) as [|a [|b [|c ds]]]; cbn [length] in L; try (exfalso; lia); reflexivity. }
  assert (A : tried (src_array (hdf_source rn rs k x) n) = Throw) by (unfold src_array; rewrite E; reflexivity).
  assert (B : tried (src_list (hdf_source rn rs k x) n) = Throw) by (unfold src_list; rewrite E; reflexivity).
  clear E D F. set (s := hdf_source rn rs k x) in *. clearbody s. unfold load_from.
  assert (X : forall (A B : Type) (y : outcome A) (h : A -> outcome B) v, obind y h = Ok v -> exists u, y = Ok u /\ h u = Ok v).
  { intros A0 B0 [u| |] h v H; cbn [obind] in H; try discriminate H. exists u; split; [reflexivity|exact H]. }
  intros G. repeat match goal with
  | H : obind _ _ = Ok _ |- _ => apply X in H; destruct H as [? [? H]]; cbv beta zeta in H
  | H : match ?l with [] => Throw | _ => _ end = Ok _ |- _ => destruct l as [|? [|? [|? ?]]]; try discriminate H
  end.
  cbn [In] in I. repeat destruct I as [I|I]; try contradiction; subst n; congruence.
Qed.
Print Assumptions C107_optional_text_refuted.

(** Variables with other than one or two dimensions overflow the array of sizes, required ones
    as well as optional ones. *)
Theorem C107_rank_refuted : forall rn rs w j k f t x name desc d,
  v_fs w f = FHdf x -> text_in k x (str_of "name") name -> text_in k x (str_of "desc") desc ->
  (length (d_dims d) <> 1)%nat -> (length (d_dims d) <> 2)%nat ->
  (find (str_of "maxis") (h_sets x) = Some d -> fst (load_file rn rs w j k f LOk t) = UB) /\
  (forall ra za RR ZZ Br Bphi Bz, list_in x (str_of "maxis") [ra; za] -> list_in x (str_of "r") RR -> list_in x (str_of "z") ZZ ->
     array_in x (str_of "Br") Br -> array_in x (str_of "Bphi") Bphi -> array_in x (str_of "Bz") Bz ->
     find (str_of "Psi") (h_sets x) = Some d -> fst (load_file rn rs w j k f LOk t) = UB).
Proof.
  intros rn rs w j k f t x name desc d F N D R1 R2. rewrite (load_file_open rn rs w j k f t x F). cbn [fst].
  assert (E : forall n, find n (h_sets x) = Some d -> src_doubles (hdf_source rn rs k x) n = RUB).
  { intros n G. cbn [hdf_source src_doubles]. rewrite G. cbn [kind_read]. unfold h5_get2d. rewrite G.
    destruct (d_dims d) as [|a [|b [|c ds]]]; cbn [length] in R1, R2; try (exfalso; lia); reflexivity. }
  unfold load_from. rewrite (text_reading rn rs k x _ _ N), (text_reading rn rs k x _ _ D). cbn [obind]. split.
  - intros G. unfold src_list. rewrite (E _ G). reflexivity.
  - intros ra za RR ZZ Br Bphi Bz A1 A2 A3 A4 A5 A6 G.
    rewrite (list_reading rn rs k x _ _ A1), (list_reading rn rs k x _ _ A2), (list_reading rn rs k x _ _ A3). cbn [plainly obind]. cbv zeta.
    rewrite (array_reading rn rs k x _ _ A4). cbn [plainly obind].
    destruct (orient_ok _ (length ZZ) Br (array_in_length _ _ _ A4)) as [b1 ->]. cbn [obind].
    rewrite (array_reading rn rs k x _ _ A5). cbn [plainly obind].
    destruct (orient_ok _ (length ZZ) Bphi (array_in_length _ _ _ A5)) as [b2 ->]. cbn [obind].
    rewrite (array_reading rn rs k x _ _ A6). cbn [plainly obind].
    destruct (orient_ok _ (length ZZ) Bz (array_in_length _ _ _ A6)) as [b3 ->]. cbn [obind].
    unfold src_array. rewrite (E _ G). reflexivity.
Qed.
Print Assumptions C107_rank_refuted.

(** A file can be created, if the library can; MAT files not in January (C67). *)
Definition can_create (k : kind) (t : tm) : Prop := k = KMat -> valid_tm t /\ 1 <= t_mon t.
Lemma can_create_creatable : forall k t, can_create k t -> creatable k t.
Proof. intros [] t H; [exact Logic.I|]. destruct (H eq_refl) as [V M]. destruct (proj1 (C94_user_block t V) M) as (h & b & _ & U & _). exists b. exact U. Qed.

(** Saving creates the file, closes it, and changes no other file and no other object; nothing
    that was in an older file of this name remains. *)
Theorem C107_save : forall w i k f t d, can_create k t -> savable d ->
  exists w' y, save_file w i k f LOk t d = (Ok tt, w') /\ v_fs w' f = FHdf y /\ (forall g, g <> f -> v_fs w' g = v_fs w g) /\
  v_obj w' i = Some (HObj k PNull) /\ (forall j, j <> i -> v_obj w' j = v_obj w j) /\
  h_groups y = [] /\
  forall n, find n (h_sets y) <> None -> In n (map str_of ["name"; "desc"; "maxis"; "r"; "z"; "Br"; "Bphi"; "Bz"; "Psi"; "verBr"; "verBphi"; "verBz"; "wall"; "separatrix"]%string).
Proof.
  intros w i k f t d C S. destruct (save_file_ok w i k f t d (can_create_creatable k t C) S) as (w' & y & E & F & O & P & R & _ & N & G).
  exists w', y. split; [exact E|]. split; [exact F|]. split; [exact O|]. split; [exact P|]. split; [exact R|]. split; [exact G|].
  intros n H. destruct (in_dec (list_eq_dec ascii_dec) n all_names) as [I|I]; [|exfalso; apply H; apply N; exact I].
  unfold all_names in I. cbn [map In] in *. tauto.
Qed.
Print Assumptions C107_save.

(** If the file cannot be created, Save throws; no other file and no object changes.  Only if the
    library fails half-way through creating a MAT file, a file without variables is left. *)
Theorem C107_save_rejects : forall w i k f l t d, can_create k t -> l <> LOk ->
  exists w', save_file w i k f l t d = (Throw, w') /\ v_obj w' = v_obj w /\ (forall g, g <> f -> v_fs w' g = v_fs w g) /\
  (v_fs w' f = v_fs w f \/ l = LLate /\ k = KMat /\ exists y, v_fs w' f = FHdf y /\ h_sets y = [] /\ h_groups y = []).
Proof.
  intros w i k f l t d C N. pose proof (can_create_creatable k t C) as K.
  unfold save_file, hdf_create_obj, hdf_open. cbn [o_kind]. destruct k.
  - destruct l; [contradiction N; reflexivity| |]; eexists; (split; [reflexivity|]); repeat split; left; reflexivity.
  - destruct K as [b K]. rewrite K. destruct l; [contradiction N; reflexivity| |]; eexists; (split; [reflexivity|]).
    + repeat split. left; reflexivity.
    + cbn [v_fs v_obj]. split; [reflexivity|]. split.
      * intros g G. unfold put_file. destruct (str_eqb_spec f g) as [X|X]; [congruence|]. 
        destruct (str_eqb_spec g f) as [Y|Y]; [congruence|]. reflexivity.
      * right. split; [reflexivity|]. split; [reflexivity|]. exists (empty_file (repeat cNUL 128)). split; [|split; reflexivity].
        unfold put_file. rewrite str_eqb_refl. reflexivity.
Qed.
Print Assumptions C107_save_rejects.

(** A field that was saved is loaded again exactly as it was, whatever the program does in
    between with other files (or reading this one), from HDF5 files, from MAT files, and from
    HDF5 files read as MAT files. *)
Theorem C107_round_trip : forall rn rs w i k f t d r w1 tr w2 j k' t' n,
  can_create k t -> savable d -> field_with d = Ok n -> e_sep d <> Some [] -> e_wall d <> Some [] -> (k, k') <> (KMat, KHdf) ->
  (forall q kk, q <> i -> v_obj w q <> Some (HObj kk (PFile f true))) ->
  save_file w i k f LOk t d = (r, w1) -> run rn rs w1 tr w2 -> Forall (fun e => ~ opens_to_write f (fst e)) tr ->
  r = Ok tt /\ exists w3, load_file rn rs w2 j k' f LOk t' = (Ok n, w3) /\ v_fs w3 = v_fs w2 /\ v_obj w3 j = Some (HObj k' PNull) /\
  nm_name Q str n = e_name d /\ nm_desc Q str n = e_desc d /\ nm_axis Q str n = (Q2R (fst (e_axis d)), Q2R (snd (e_axis d))) /\
  nm_R Q str n = e_R d /\ nm_Z Q str n = e_Z d /\ nm_Br Q str n = e_Br d /\ nm_Bphi Q str n = e_Bphi d /\ nm_Bz Q str n = e_Bz d /\
  nm_Psi Q str n = e_Psi d /\ nm_sep Q str n = to_contour (e_sep d) /\ nm_wall Q str n = to_contour (e_wall d).
Proof.
  intros rn rs w i k f t d r w1 tr w2 j k' t' n C S FW S1 S2 KK NW E R NO.
  destruct (save_file_ok w i k f t d (can_create_creatable k t C) S) as (w' & y & E' & F & O & P & OB & H & _ & _).
  rewrite E' in E. assert (E1 : Ok tt = r) by exact (f_equal fst E). assert (E2 : w' = w1) by exact (f_equal snd E). subst r w1.
  split; [reflexivity|].
  assert (F2 : v_fs w2 f = FHdf y).
  { rewrite (run_frame rn rs w' tr w2 f R NO); [exact F|]. intros q kk Q1. destruct (Nat.eq_dec q i) as [->|D]; [rewrite P in Q1; discriminate Q1|].
    rewrite (OB q D) in Q1. exact (NW q kk D Q1). }
  rewrite (load_file_open rn rs w2 j k' f t' y F2), (holds_load rn rs k' y _ (H k' KK)), (content_loads d S S1 S2), FW.
  eexists; split; [reflexivity|]. split; [reflexivity|]. split; [cbn [v_obj]; apply put_obj_same|].
  destruct (proj1 (proj2 (C48_object Q str Qbelow (e_name d) (e_desc d) (e_R d) (e_Z d) (e_Br d) (e_Bphi d) (e_Bz d) (e_Psi d) (to_point (e_axis d)) (to_contour (e_sep d)) (to_contour (e_wall d)))) n FW)
    as (_ & A1 & A2 & A3 & A4 & A5 & A6 & A7 & A8 & A9 & A10 & A11 & _).
  repeat split; assumption.
Qed.
Print Assumptions C107_round_trip.

(** Fields without flux cannot be saved (a null pointer is dereferenced), and no field can be
    saved as an SDT file: the call throws, and what was in the file is lost. *)
Theorem C107_no_flux_refuted : forall w i k f t d, can_create k t -> e_Psi d = None -> fst (save_file w i k f LOk t d) = UB.
Proof.
  intros w i k f t d C P. pose proof (can_create_creatable k t C) as CR. unfold save_file, hdf_create_obj, hdf_open. cbn [o_kind]. destruct k.
  - cbn [v_fs v_obj]. rewrite put_file_same. unfold save_calls. rewrite P. reflexivity.
  - destruct CR as [b CR]. rewrite CR. cbn [v_fs v_obj]. rewrite put_file_same. unfold save_calls. rewrite P. reflexivity.
Qed.
Print Assumptions C107_no_flux_refuted.
Theorem C107_sdt_save_refuted : forall rnd mem perm w i f,
  fst (save_sdt rnd mem perm w i f) = Throw /\
  (perm f AOut = true -> w_fs (snd (save_sdt rnd mem perm w i f)) f = Some []) /\
  (forall g, g <> f -> w_fs (snd (save_sdt rnd mem perm w i f)) g = w_fs w g).
Proof.
  intros rnd mem perm w i f.
  assert (E : exists ob, save_sdt rnd mem perm w i f = (Throw, World (if perm f AOut then set_file (w_fs w) f [] else w_fs w) ob)).
  { unfold save_sdt, do_call, sdt_open. cbn [w_fs w_obj]. unfold set_obj at 1. rewrite Nat.eqb_refl.
    unfold new_sdt, stream_open. cbn [o_stream s_file]. destruct (perm f AOut); eexists; reflexivity. }
  destruct E as [ob E]. rewrite E. cbn [fst snd w_fs]. split; [reflexivity|]. split.
  - intros ->. unfold set_file. rewrite str_eqb_refl. reflexivity.
  - intros g N. destruct (perm f AOut); [|reflexivity]. unfold set_file. apply str_eqb_neq in N. rewrite N. reflexivity.
Qed.
Print Assumptions C107_sdt_save_refuted.

(** A field on a grid of four by four points with a triangular wall, saved to an HDF5 file while
    another file is there, and loaded again. *)
Definition little : fdata :=
  FData (str_of "B") (str_of "test") (2, 0)%Q [1; 3; 4; 5]%Q [-1 # 1; 0; 1; 2]%Q
    [0; 0; 1 # 2; 0; 0; 0; 1 # 2; 0; 0; 0; 1 # 2; 0; 0; 0; 1 # 2; 0]%Q [5; 6; 7; 8; 5; 6; 7; 8; 5; 6; 7; 8; 5; 6; 7; 8]%Q (repeat 1 16)%Q
    (Some (repeat 3 16)%Q) None (Some [(1, -1 # 1); (3, -1 # 1); (2, 2); (1, -1 # 1)]%Q).
Lemma little_field : exists n, field_with little = Ok n /\ nm_dom Q str n = tri_field.
Proof.
  assert (Z0 : Q2R 0 = 0%R) by (unfold Q2R; cbn; lra). assert (Z1 : Q2R 1 = 1%R) by (unfold Q2R; cbn; lra).
  assert (Z2 : Q2R 2 = 2%R) by (unfold Q2R; cbn; lra). assert (Z3 : Q2R 3 = 3%R) by (unfold Q2R; cbn; lra).
  assert (Zm : Q2R (-1 # 1) = (-1)%R) by (unfold Q2R; cbn; lra).
  unfold field_with, little. cbn [e_name e_desc e_axis e_R e_Z e_Br e_Bphi e_Bz e_Psi e_sep e_wall to_contour option_map map to_point fst snd].
  unfold to_point; cbn [fst snd]. rewrite Z0, Z1, Z2, Z3, Zm. unfold init. change [(1, -1); (3, -1); (2, 2); (1, -1)]%R with (triangle_wall 3). rewrite tri_domain. cbn [obind].
  eexists; split; reflexivity.
Qed.
Example C107_example : exists n, field_with little = Ok n /\ savable little /\ forall rn rs t,
  let w := HWorld (fun f => if str_eqb f (str_of "other.h5") then FHdf (empty_file []) else FNone) (fun _ => None) in
  exists w1 w2 w3, save_file w 0 KHdf (str_of "b.h5") LOk t little = (Ok tt, w1) /\
  do_hcall rn rs w1 (HNew 1 KHdf) = (Ok HDone, w2) /\ load_file rn rs w2 2 KMat (str_of "b.h5") LOk t = (Ok n, w3) /\
  v_fs w3 (str_of "other.h5") = FHdf (empty_file []).
Proof.
  destruct little_field as [n [FW _]]. exists n. split; [exact FW|].
  assert (SV : savable little).
  { unfold savable. cbv zeta. repeat split; try reflexivity; try discriminate.
    - exists (repeat 3 16)%Q. split; reflexivity.
    - cbn. intros H. repeat destruct H as [H|H]; try discriminate H; exact H.
    - cbn. intros H. repeat destruct H as [H|H]; try discriminate H; exact H. }
  split; [exact SV|]. intros rn rs t. cbv zeta.
  set (w := HWorld _ _).
  assert (CC : can_create KHdf t) by (intros H; discriminate H).
  destruct (C107_save w 0 KHdf (str_of "b.h5") t little CC SV) as (w1 & y & E & F & O & P & R & _).
  exists w1. eexists. 
  assert (RU : run rn rs w1 [(HNew 1 KHdf, Ok HDone)] (HWorld (v_fs w1) (put_obj (v_obj w1) 1 (Some (HObj KHdf PUnset))))).
  { eapply run_step; [reflexivity|discriminate|apply run_nil]. }
  assert (X : (forall q kk, q <> 0%nat -> v_obj w q <> Some (HObj kk (PFile (str_of "b.h5") true))) /\
    Forall (fun e : hcall * outcome hanswer => ~ opens_to_write (str_of "b.h5") (fst e)) [(HNew 1 KHdf, Ok HDone)] /\
    e_sep little <> Some [] /\ e_wall little <> Some [] /\ (KHdf, KMat) <> (KMat, KHdf)).
  { split; [intros q kk _ H; discriminate H|]. split; [|repeat split; discriminate].
    constructor; [|constructor]. intros (i & m & l & t' & H & _). discriminate H. }
  destruct X as (X1 & X2 & X3 & X4 & X5).
  destruct (C107_round_trip rn rs w 0 KHdf (str_of "b.h5") t little (Ok tt) w1 _ _ 2 KMat t n CC SV FW X3 X4 X5 X1 E RU X2) as (_ & w3 & L & V & _).
  exists w3. split; [exact E|]. split; [reflexivity|]. split; [exact L|]. rewrite V. cbn [v_fs]. rewrite O by discriminate. reflexivity.
Qed.
