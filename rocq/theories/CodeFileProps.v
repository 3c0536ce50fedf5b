(** C113: CODE, GO+CODE and DREAM distribution functions in files. *)
From Coq Require Import Reals QArith Qreals ZArith Lia Lra String.
From Verif Require Import Base SettingsModel SettingsProofs SdtModel SessionModel SFileModel SFileProofs TypedModel HdfModel HdfSpec HdfProofs DomainModel NumericModel NumericSpec NumericProofs NumericArrays DistributionModel DistributionSpec CodeModel CodeSpec CodeProofs GocodeProofs CodeProps LoaderModel LoaderSpec LoaderProofs LoaderProps FieldFileModel FieldFileSpec FieldFileProofs ErrSpec ErrProofs DistFileModel DistFileSpec DistFileProofs DistFileProps CodeFileModel CodeFileSpec CodeFileProofs.
Local Open Scope nat_scope.

(** The object these loaders leave behind: the file is still open; nothing else has changed. *)
Definition left_open (w w' : hworld) (j : nat) (k : kind) (f : str) : Prop :=
  v_fs w' = v_fs w /\ v_obj w' j = Some (HObj k (PFile f false)) /\ forall i, i <> j -> v_obj w' i = v_obj w i.
Lemma open_file_ok : forall A rn rs (go : dsource -> outcome A) w j k f t x r, v_fs w f = FHdf x -> go (hdf_dsource rn rs k x) = r ->
  exists w', open_file rn rs go w j k f LOk t = (r, w') /\ left_open w w' j k f.
Proof.
  intros A rn rs go w j k f t x r F G. rewrite (open_file_open A rn rs go w j k f t x F), G. eexists; split; [reflexivity|]. split; [reflexivity|].
  cbn [v_obj]. split; [apply put_obj_same|]. intros i I. apply put_obj_other. exact I.
Qed.

(** The numbers of the chosen slice, in units of the file. *)
Definition code_numbers (ys : list R) (nleg : nat) (nref Tref : R) (g : nat -> R) : list R :=
  map (fun i => g i * (nref / Rpower (2 * PI * electron_mass * Tref) (3 / 2)))%R (seq 0 (length ys * nleg)).
(** The values of a CODE distribution: those of the Legendre series of the numbers [g]. *)
Definition evaluates (c : code) (method : Z) (ys : list R) (delta nref Tref : R) (nleg : nat) (g : nat -> R) : Prop :=
  forall itp q xi, exists c', code_eval itp c q xi = Ok (c', code_value itp method (length ys) nleg (map (fun y => y * delta)%R ys) (code_numbers ys nleg nref Tref g) q xi).
(** A CODE file (or a group of it) that can be used with an interpolation method. *)
Definition usable (m : cfile) (ys : list R) (delta nref Tref : R) (nleg nt : nat) (g : nat -> nat -> R) (method : Z) : Prop :=
  describes m ys delta nref Tref nleg nt g /\ (Z.of_nat nleg < 2 ^ 31)%Z /\ (0 < Tref)%R /\ 2 <= nleg <= length ys /\
  (0 <= method <= 6)%Z /\ takes method (map (fun y => y * delta)%R ys).
Lemma usable_load : forall m ys delta nref Tref nleg nt g method time t, usable m ys delta nref Tref nleg nt g method -> slice_of nt time t ->
  exists o, code_load m time method = Ok o /\
    evaluates o method ys delta nref Tref nleg (g t).
Proof.
  intros m ys delta nref Tref nleg nt g method time t (D & N & T & L & M & K) S0.
  assert (Y : ys <> []) by (intros ->; cbn [length] in L; lia).
  rewrite (C60_code m ys delta nref Tref nleg nt g time t method D N T Y S0). fold (code_numbers ys nleg nref Tref (g t)).
  destruct (proj2 (C58_grids (length ys) nleg (map (fun y => y * delta)%R ys) (code_numbers ys nleg nref Tref (g t)) method ltac:(lia))) as (o & E).
  - split; [exact M|]. rewrite map_length. split; [lia|]. split; [unfold code_numbers; rewrite map_length, seq_length; lia|].
    rewrite firstn_all2 by (rewrite map_length; lia). exact K.
  - exists o. split; [exact E|]. intros itp q xi. apply (C58_eval itp _ _ _ _ _ _ q xi E). lia.
Qed.

(** A CODE distribution function in a file on disk, or in a group of one: it has the values of
    the Legendre series of the chosen slice. *)
Theorem C113_code : forall rn rs w j k f t x path m ys delta nref Tref nleg nt g method time s,
  v_fs w f = FHdf x -> code_in (hdf_view k x) path m -> usable m ys delta nref Tref nleg nt g method -> slice_of nt time s ->
  exists o w', read_file rn rs (code_load_from path time method) w j k f LOk t = (Ok o, w') /\ left_closed w w' j k /\
    evaluates o method ys delta nref Tref nleg (g s).
Proof.
  intros rn rs w j k f t x path m ys delta nref Tref nleg nt g method time s F C U S0.
  destruct (usable_load _ _ _ _ _ _ _ _ _ _ _ U S0) as (o & E & V). exists o.
  destruct (read_file_ok _ rn rs (code_load_from path time method) w j k f t x o F) as (w' & R1 & LC).
  { unfold code_load_from. rewrite (code_from_load _ _ _ _ time method (hdf_shows rn rs k x) C). exact E. }
  exists w'. split; [exact R1|]. split; [exact LC|exact V].
Qed.
Print Assumptions C113_code.
(** Whatever the variables are, they are all that counts; HDF5, MAT and SDT files are alike. *)
Theorem C113_code_variables : forall rn rs w j k f t x rd path m time method,
  (v_fs w f = FHdf x -> code_in (hdf_view k x) path m -> fst (read_file rn rs (code_load_from path time method) w j k f LOk t) = code_load m time method) /\
  (code_in (sdt_view rd) path m -> code_load_from path time method (sdt_dsource rd) = code_load m time method).
Proof.
  intros rn rs w j k f t x rd path m time method. split.
  - intros F C. rewrite (read_file_open _ rn rs _ w j k f t x F). cbn [fst]. exact (code_from_load _ _ _ _ _ _ (hdf_shows rn rs k x) C).
  - intros C. exact (code_from_load _ _ _ _ _ _ (sdt_shows rd) C).
Qed.
Print Assumptions C113_code_variables.
(** A program writes the variables, in any order, among other things; afterwards they are loaded. *)
Theorem C113_code_written : forall rn rs now j k f t path m ys delta nref Tref nleg nt g method time s,
  code_in (written_view rn rs f now k) path m -> usable m ys delta nref Tref nleg nt g method -> slice_of nt time s ->
  exists o w', read_file rn rs (code_load_from path time method) now j k f LOk t = (Ok o, w') /\ left_closed now w' j k /\
    evaluates o method ys delta nref Tref nleg (g s).
Proof.
  intros rn rs now j k f t path m ys delta nref Tref nleg nt g method time s C U S0.
  destruct (written_file _ _ _ _ _ _ _ (proj1 (C _ _ (mod_path_in path (str_of "y"))) eq_refl)) as [x F].
  apply (C113_code rn rs now j k f t x path m ys delta nref Tref nleg nt g method time s F); [|exact U|exact S0].
  exact (code_within _ _ _ _ (written_within rn rs f now k x F) C).
Qed.
Print Assumptions C113_code_written.

(** A GO+CODE distribution function in a file on disk: the radii shifted by the magnetic axis,
    a CODE distribution for each of them. *)
Theorem C113_gocode : forall rn rs w j k f t x magic r rs0 nt files axis time s method ys delta nref Tref nleg times g,
  v_fs w f = FHdf x -> gocode_in (hdf_view k x) magic r (Some (INR nt)) files ->
  magic <> Some false -> vector r rs0 -> rs0 <> [] -> ascending rs0 -> (Z.of_nat nt < 2 ^ 31)%Z -> slice_of nt time s ->
  (forall i, i < length rs0 -> usable (files (Z.of_nat s) i) (ys i) (delta i) (nref i) (Tref i) (nleg i) (S (times i)) (g i) method) ->
  exists o w', open_file rn rs (gocode_load_from axis time method) w j k f LOk t = (Ok o, w') /\ left_open w w' j k f /\
    g_rho o = map (fun v => v + axis)%R rs0 /\ length (g_code o) = length rs0 /\
    forall i c, nth_error (g_code o) i = Some c -> evaluates c method (ys i) (delta i) (nref i) (Tref i) (nleg i) (g i 0).
Proof.
  intros rn rs w j k f t x magic r rs0 nt files axis time s method ys delta nref Tref nleg times g F GI MG VR N0 AS NT SL US.
  assert (CS : exists cs, Forall2 (fun i c => code_load (files (Z.of_nat s) i) 0 method = Ok c) (seq 0 (length rs0)) cs /\
    forall i c, nth_error cs i = Some c -> evaluates c method (ys i) (delta i) (nref i) (Tref i) (nleg i) (g i 0)).
  { assert (Q : forall n a, a + n <= length rs0 -> exists cs, Forall2 (fun i c => code_load (files (Z.of_nat s) i) 0 method = Ok c) (seq a n) cs /\
      forall i c, nth_error cs i = Some c -> evaluates c method (ys (a + i)) (delta (a + i)) (nref (a + i)) (Tref (a + i)) (nleg (a + i)) (g (a + i) 0)).
    { intros n. induction n as [|n IH]; intros a A.
      - exists []. split; [constructor|]. intros [|i] c H; discriminate H.
      - destruct (usable_load _ _ _ _ _ _ _ _ _ 0%Z 0 (US a ltac:(lia)) ltac:(split; [lia|left; reflexivity])) as (o & E & V).
        destruct (IH (S a) ltac:(lia)) as (cs & FA & VC). exists (o :: cs). split; [constructor; assumption|]. intros [|i] c H.
        + injection H as <-. rewrite Nat.add_0_r. exact V.
        + replace (a + S i) with (S a + i) by lia. apply VC. exact H. }
    exact (Q (length rs0) 0 ltac:(lia)). }
  destruct CS as (cs & FA & VC). exists (Gocode (map (fun v => v + axis)%R rs0) cs).
  destruct (open_file_ok _ rn rs (gocode_load_from axis time method) w j k f t x (Ok (Gocode (map (fun v => v + axis)%R rs0) cs)) F) as (w' & R1 & LO).
  { unfold gocode_load_from. rewrite (gocode_from_load _ _ _ _ _ _ axis time method (hdf_shows rn rs k x) GI). apply (C60_gocode magic r rs0 nt files axis time s method cs); assumption. }
  exists w'. split; [exact R1|]. split; [exact LO|]. split; [reflexivity|]. split; [|exact VC].
  cbn [g_code]. clear - FA. assert (L : forall (l1 : list nat) l2, Forall2 (fun i c => code_load (files (Z.of_nat s) i) 0 method = Ok c) l1 l2 -> length l2 = length l1).
  { intros l1 l2 H. induction H; cbn [length]; congruence. }
  rewrite (L _ _ FA), seq_length. reflexivity.
Qed.
Print Assumptions C113_gocode.
Theorem C113_gocode_variables : forall rn rs w j k f t x rd magic r nt files axis time method,
  (v_fs w f = FHdf x -> gocode_in (hdf_view k x) magic r nt files ->
   exists w', open_file rn rs (gocode_load_from axis time method) w j k f LOk t = (gocode_load magic r nt files axis time method, w') /\ left_open w w' j k f) /\
  (gocode_in (sdt_view rd) magic r nt files -> gocode_load_from axis time method (sdt_dsource rd) = gocode_load magic r nt files axis time method).
Proof.
  intros rn rs w j k f t x rd magic r nt files axis time method. split.
  - intros F G. apply (open_file_ok _ rn rs _ w j k f t x _ F). exact (gocode_from_load _ _ _ _ _ _ _ _ _ (hdf_shows rn rs k x) G).
  - intros G. exact (gocode_from_load _ _ _ _ _ _ _ _ _ (sdt_shows rd) G).
Qed.
Print Assumptions C113_gocode_variables.
Theorem C113_gocode_written : forall rn rs now j k f t magic r rs0 nt files axis time s method ys delta nref Tref nleg times g,
  gocode_in (written_view rn rs f now k) magic r (Some (INR nt)) files ->
  magic <> Some false -> vector r rs0 -> rs0 <> [] -> ascending rs0 -> (Z.of_nat nt < 2 ^ 31)%Z -> slice_of nt time s ->
  (forall i, i < length rs0 -> usable (files (Z.of_nat s) i) (ys i) (delta i) (nref i) (Tref i) (nleg i) (S (times i)) (g i) method) ->
  exists o w', open_file rn rs (gocode_load_from axis time method) now j k f LOk t = (Ok o, w') /\ left_open now w' j k f /\
    g_rho o = map (fun v => v + axis)%R rs0 /\ length (g_code o) = length rs0 /\
    forall i c, nth_error (g_code o) i = Some c -> evaluates c method (ys i) (delta i) (nref i) (Tref i) (nleg i) (g i 0).
Proof.
  intros rn rs now j k f t magic r rs0 nt files axis time s method ys delta nref Tref nleg times g GI MG VR N0 AS NT SL US.
  destruct (written_file _ _ _ _ _ _ _ (proj1 (proj2 GI))) as [x F].
  apply (C113_gocode rn rs now j k f t x magic r rs0 nt files axis time s method ys delta nref Tref nleg times g F); try assumption.
  exact (gocode_within _ _ _ _ _ _ (written_within rn rs f now k x F) GI).
Qed.
Print Assumptions C113_gocode_written.

(** A DREAM distribution function in a file on disk. *)
Lemma dream_load_eq : forall rn rs k x d axis distname time lg it, dream_in (hdf_view k x) d distname ->
  dream_load_from axis distname time lg it (hdf_dsource rn rs k x) = dream_load d axis distname time lg it.
Proof. intros rn rs k x d axis distname time lg it D. unfold dream_load_from, dream_load. rewrite (dream_from_raw rn rs k x d axis distname time D). reflexivity. Qed.
Theorem C113_dream : forall rn rs w j k f t x d axis distname name grid nt r p xi g time s lg it,
  v_fs w f = FHdf x -> dream_in (hdf_view k x) d distname -> selects d distname name -> grid_of name grid -> dream_file d name grid nt r p xi g ->
  in_memory nt (length r * length p * length xi) time -> slice_of nt time s -> ascending r -> mesh it p -> mesh it xi ->
  exists o w', open_file rn rs (dream_load_from axis distname time lg it) w j k f LOk t = (Ok o, w') /\ left_open w w' j k f /\
    distribution lg it (dd_dist o) (map (fun v => v + axis)%R r) (fun _ => p) (fun _ => xi) (g s).
Proof.
  intros rn rs w j k f t x d axis distname name grid nt r p xi g time s lg it F DI SE GO DF IM SL AS M1 M2.
  destruct (C60_dream d axis distname name grid nt r p xi g time s lg it SE GO DF IM SL AS M1 M2) as (o & E & D). exists o.
  destruct (open_file_ok _ rn rs (dream_load_from axis distname time lg it) w j k f t x (Ok o) F) as (w' & R1 & LO).
  { rewrite (dream_load_eq rn rs k x d axis distname time lg it DI). exact E. }
  exists w'. split; [exact R1|]. split; [exact LO|exact D].
Qed.
Print Assumptions C113_dream.
Theorem C113_dream_variables : forall rn rs w j k f t x d axis distname time lg it,
  v_fs w f = FHdf x -> dream_in (hdf_view k x) d distname ->
  exists w', open_file rn rs (dream_load_from axis distname time lg it) w j k f LOk t = (dream_load d axis distname time lg it, w') /\ left_open w w' j k f.
Proof.
  intros rn rs w j k f t x d axis distname time lg it F DI. apply (open_file_ok _ rn rs _ w j k f t x _ F). apply dream_load_eq. exact DI.
Qed.
Print Assumptions C113_dream_variables.
Theorem C113_dream_written : forall rn rs now j k f t d axis distname name grid nt r p xi g time s lg it,
  dream_in (written_view rn rs f now k) d distname -> selects d distname name -> grid_of name grid -> dream_file d name grid nt r p xi g ->
  in_memory nt (length r * length p * length xi) time -> slice_of nt time s -> ascending r -> mesh it p -> mesh it xi ->
  exists o w', open_file rn rs (dream_load_from axis distname time lg it) now j k f LOk t = (Ok o, w') /\ left_open now w' j k f /\
    distribution lg it (dd_dist o) (map (fun v => v + axis)%R r) (fun _ => p) (fun _ => xi) (g s).
Proof.
  intros rn rs now j k f t d axis distname name grid nt r p xi g time s lg it DI SE GO DF IM SL AS M1 M2.
  assert (X : exists x, v_fs now f = FHdf x).
  { destruct DF as (_ & DR & _). pose proof (proj2 DI "/grid/r"%string ltac:(cbn; auto)) as A. rewrite DR in A. destruct A as (a & A & _).
    apply (written_file rn rs f now k (str_of "/grid/r") (Some (MArray (ma_rows a) (ma_cols a) (map Q2R (ma_data a))))).
    exists a. split; [exact A|]. split; [|auto]. destruct A as (k0 & c & _ & A). destruct A; cbn [ma_data ma_rows ma_cols]; [lia| |assumption].
    match goal with H : Forall _ _ |- _ => revert H end. clear. induction rows as [|r0 rows IH]; intros H; [reflexivity|]. cbn [concat length]. rewrite app_length, (IH (Forall_inv_tail H)). pose proof (Forall_inv H). cbv beta in *. lia. }
  destruct X as [x F].
  apply (C113_dream rn rs now j k f t x d axis distname name grid nt r p xi g time s lg it F); try assumption.
  exact (dream_within _ _ _ _ (written_within rn rs f now k x F) DI).
Qed.
Print Assumptions C113_dream_written.

(** Contrary to the other loaders these two leave the file open, whether they succeed or not. *)
Theorem C113_open : forall (A : Type) rn rs (go : dsource -> outcome A) w j k f t x, v_fs w f = FHdf x ->
  exists w', open_file rn rs go w j k f LOk t = (go (hdf_dsource rn rs k x), w') /\ left_open w w' j k f.
Proof. intros A rn rs go w j k f t x F. apply (open_file_ok _ rn rs _ w j k f t x _ F). reflexivity. Qed.
Print Assumptions C113_open.
Theorem C113_closed_refuted : ~ (forall rn rs w j k f t x magic r nt files axis time method o w',
  v_fs w f = FHdf x -> gocode_in (hdf_view k x) magic r nt files -> open_file rn rs (gocode_load_from axis time method) w j k f LOk t = (o, w') -> left_closed w w' j k).
Proof.
  intros H. set (x := HFile [] [] [] []). set (w := HWorld (fun _ => FHdf x) (fun _ => None)).
  destruct (open_file_ok _ (fun _ => []) (fun _ => []) (gocode_load_from 0 0 0) w 0 KHdf (str_of "a") (Tm 0 0 0 0 0 0 0) x _ eq_refl eq_refl) as (w' & E & _ & O & _).
  assert (G : gocode_in (hdf_view KHdf x) None None None (fun _ _ => CFile None None None None None None)).
  { split; [reflexivity|]. split; [reflexivity|]. split; [reflexivity|]. intros rs y z i d _ E'. discriminate E'. }
  destruct (H _ _ w 0 KHdf (str_of "a") _ x None None None _ 0%R 0%Z 0%Z _ _ eq_refl G E) as (_ & C & _). rewrite O in C. discriminate C.
Qed.
Print Assumptions C113_closed_refuted.
(** DREAM files must be HDF5 or MAT files: an SDT file has no such array. *)
Theorem C113_dream_sdt : forall rd axis distname time lg it, dream_load_from axis distname time lg it (sdt_dsource rd) = Throw.
Proof.
  intros rd axis distname time lg it. unfold dream_load_from, dream_from. cbv zeta.
  assert (N : forall d s, dream_name d s <> UB).
  { intros d s. unfold dream_name. destruct s as [|c s]; cbn [obind]; repeat match goal with |- context [if ?b then _ else _] => destruct b end; cbn [obind]; repeat match goal with |- context [if ?b then _ else _] => destruct b end; discriminate. }
  destruct (dream_name _ distname) as [name| |] eqn:E; [|reflexivity|exfalso; exact (N _ _ E)]. cbn [obind].
  destruct (dream_grid name) as [grid| |] eqn:G; [reflexivity|reflexivity|]. exfalso. unfold dream_grid in G.
  assert (T : forall s n, tail_of s n <> UB) by (intros s n; unfold tail_of; repeat match goal with |- context [if ?b then _ else _] => destruct b end; discriminate).
  destruct (tail_of name 4) as [a| |] eqn:A; cbn [obind] in G; [|discriminate G|exact (T _ _ A)]. destruct (String.eqb a "f_re"); [discriminate G|].
  destruct (tail_of name 5) as [b| |] eqn:B; cbn [obind] in G; [|discriminate G|exact (T _ _ B)]. destruct (String.eqb b "f_hot"); discriminate G.
Qed.
Print Assumptions C113_dream_sdt.
(** Variables with no dimension, or more than two of them, are not refused. *)
Theorem C113_rank_refuted : forall rn rs w j k f t x d path full axis time method, v_fs w f = FHdf x -> length (d_dims d) <> 1 -> length (d_dims d) <> 2 ->
  (in_path path (str_of "y") full -> find full (h_sets x) = Some d -> fst (read_file rn rs (code_load_from path time method) w j k f LOk t) = UB) /\
  (find (str_of "type") (h_sets x) = None -> find (str_of "r") (h_sets x) = Some d -> fst (open_file rn rs (gocode_load_from axis time method) w j k f LOk t) = UB).
Proof.
  intros rn rs w j k f t x d path full axis time method F N1 N2. split.
  - intros P FR. rewrite (read_file_open _ rn rs _ w j k f t x F). cbn [fst]. unfold code_load_from, code_from.
    apply in_path_inv in P. subst full.
    rewrite (rank_ub rn rs k x _ d FR N1 N2). reflexivity.
  - intros T FR. rewrite (open_file_open _ rn rs _ w j k f t x F). cbn [fst]. unfold gocode_load_from, gocode_from, gocode_magic.
    destruct (sh_missing _ _ (hdf_shows rn rs k x) _ T) as [-> _]. cbn [obind]. rewrite (rank_ub rn rs k x _ d FR N1 N2). reflexivity.
Qed.
Print Assumptions C113_rank_refuted.
(** Whatever is loaded, files are not changed, and a file that is not there is refused. *)
Theorem C113_files : forall (A : Type) rn rs (go : dsource -> outcome A) w j k f l t,
  v_fs (snd (open_file rn rs go w j k f l t)) = v_fs w /\
  (l <> LOk \/ (forall x, v_fs w f <> FHdf x) -> fst (open_file rn rs go w j k f l t) = Throw) /\
  (forall i, i <> j -> v_obj (snd (open_file rn rs go w j k f l t)) i = v_obj w i).
Proof.
  intros A rn rs go w j k f l t. unfold open_file, hdf_create_obj, hdf_open. destruct (v_fs w f) as [| |x] eqn:F.
  - split; [reflexivity|]. split; [reflexivity|]. reflexivity.
  - split; [reflexivity|]. split; [reflexivity|]. reflexivity.
  - destruct l; cbn [o_kind v_fs v_obj]; rewrite ?F; cbn [fst snd v_fs v_obj]; (split; [reflexivity|]); (split; [|intros i I; rewrite ?put_obj_other by exact I; reflexivity]).
    + intros [L|N]; [congruence|]. exfalso. exact (N x eq_refl).
    + reflexivity.
    + reflexivity.
Qed.
Print Assumptions C113_files.

(** A program writes the groups of a GO+CODE file and loads it, the whole file and one group of it. *)
Definition c113_group (i : nat) : list hwrite :=
  let d := str_of "t0/r" ++ show_nat (Z.of_nat i) in
  [WGroup d; WNums HDouble (d ++ str_of "/y") [1; 2; 3]%Q; WNums HDouble (d ++ str_of "/delta") [1 # 2]%Q; WNums HDouble (d ++ str_of "/Tref") [2 + inject_Z (Z.of_nat i)]%Q;
   WRows HDouble (d ++ str_of "/f") 6 [[1; 2; 3; 4; 5; 6 + inject_Z (Z.of_nat i)]]%Q; WNums HDouble (d ++ str_of "/Nxi") [2]%Q].
Definition c113_writes : list hwrite :=
  [WNums HDouble (str_of "r") [1; 2]%Q; WNums HDouble (str_of "nt") [1]%Q; WGroup (str_of "t0")] ++ c113_group 0 ++ c113_group 1.
Definition c113_cfile (i : nat) : cfile :=
  CFile (Some (reals 1 3 [1; 2; 3]%Q)) (Some (reals 1 1 [1 # 2]%Q)) None (Some (reals 1 1 [2 + inject_Z (Z.of_nat i)]%Q)) (Some (reals 1 1 [2]%Q)) (Some (reals 1 6 [1; 2; 3; 4; 5; 6 + inject_Z (Z.of_nat i)]%Q)).
Definition c113_g (i t a : nat) : R := nth a (map Q2R [1; 2; 3; 4; 5; 6 + inject_Z (Z.of_nat i)]%Q) 0%R.
Lemma one_number : forall q x, Q2R q = x -> number (Some (reals 1 1 [q])) x.
Proof. intros q x E. exists (reals 1 1 [q]). split; [reflexivity|]. repeat split. intros [|j] [|i] J I; try lia. cbn. rewrite E. reflexivity. Qed.
Lemma c113_usable : forall i, usable (c113_cfile i) (map Q2R [1; 2; 3]%Q) (Q2R (1 # 2)) 1 (Q2R (2 + inject_Z (Z.of_nat i))) 2 1 (c113_g i) 0.
Proof.
  intros i. split; [|split; [reflexivity|split; [|split; [cbn; lia|split; [lia|]]]]].
  - split; [exact (rows_vector [1; 2; 3]%Q)|]. split; [apply one_number; reflexivity|]. split; [left; split; reflexivity|]. split; [right; apply one_number; reflexivity|].
    split; [apply one_number; unfold Q2R; cbn; lra|]. eexists. split; [reflexivity|]. repeat split. intros b a B A. replace b with 0 by lia. unfold c113_g, reals. cbn [NumericModel.ma_data Nat.mul Nat.add].
    apply nth_error_nth'. rewrite map_length. exact A.
  - replace 0%R with (Q2R 0) by (unfold Q2R; cbn; lra). apply Qlt_Rlt. assert (0 <= inject_Z (Z.of_nat i))%Q by (replace 0%Q with (inject_Z 0) by reflexivity; rewrite <- Zle_Qle; lia).
    apply Qlt_le_trans with (2 + 0)%Q; [reflexivity|]. apply Qplus_le_compat; [apply Qle_refl|assumption].
  - split; [|left; split; [left; reflexivity|cbn; lia]]. replace (map (fun y => y * Q2R (1 # 2))%R (map Q2R [1; 2; 3]%Q)) with (map Q2R [1 # 2; 1; 3 # 2]%Q); [apply rises_ascending; reflexivity|].
    cbn [map]. repeat f_equal; unfold Q2R; cbn; lra.
Qed.
Lemma c113_write_all : forall ws x, fst (write_all KHdf x ws) = Ok tt -> forall rn rs w i f, v_obj w i = Some (HObj KHdf (PFile f true)) -> v_fs w f = FHdf x ->
  exists w', run rn rs w (map (fun a => (HWr i a, Ok HDone)) ws) w' /\ v_fs w' f = FHdf (snd (write_all KHdf x ws)).
Proof.
  induction ws as [|a ws IH]; intros x H rn rs w i f O F; [exists w; split; [apply run_nil|exact F]|]. cbn [write_all] in *. destruct (kind_write KHdf x a) as [[[]| |] y] eqn:K; try discriminate H.
  destruct (IH y H rn rs (HWorld (put_file (v_fs w) f (FHdf y)) (v_obj w)) i f O) as [w' [T E]]; [cbn [v_fs]; apply put_file_same|]. exists w'. split; [cbn [map]|exact E].
  eapply run_step; [cbn [do_hcall]; rewrite O, F, K; reflexivity|discriminate|exact T].
Qed.
Lemma c113_group_in : forall rn rs now path i, v_fs now (str_of "d.h5") = FHdf (snd (write_all KHdf (empty_file []) c113_writes)) ->
  (forall a, In a c113_writes -> written rn rs (str_of "d.h5") now KHdf a) -> i < 2 -> mod_path path = str_of "t0/r" ++ show_nat (Z.of_nat i) ++ str_of "/" ->
  code_in (written_view rn rs (str_of "d.h5") now KHdf) path (c113_cfile i).
Proof.
  intros rn rs now path i FF WR I MP n full P. apply in_path_inv in P. rewrite MP in P. subst full.
  assert (VL : forall n l, In (WNums HDouble n l) c113_writes -> variable (written_view rn rs (str_of "d.h5") now KHdf) n (Some (reals 1 (length l) l))).
  { intros n' l H. exists (MArray 1 (length l) l). split; [exists KHdf, (WNums HDouble n' l); split; [apply WR; exact H|apply aw_list]|]. cbn. split; [lia|auto]. }
  assert (GI : forall a, In a (c113_group i) -> In a c113_writes).
  { intros a H. unfold c113_writes. apply in_or_app. right. apply in_or_app. destruct i as [|[|i]]; [left|right|lia]; exact H. }
  repeat split; intros ->.
  - apply (VL ((str_of "t0/r" ++ show_nat (Z.of_nat i) ++ str_of "/") ++ str_of "y") [1; 2; 3]%Q). apply GI. destruct i as [|[|i]]; [right; left; reflexivity|right; left; reflexivity|lia].
  - apply (VL ((str_of "t0/r" ++ show_nat (Z.of_nat i) ++ str_of "/") ++ str_of "delta") [1 # 2]%Q). apply GI. destruct i as [|[|i]]; [do 2 right; left; reflexivity|do 2 right; left; reflexivity|lia].
  - cbn [c113_cfile cf_nref variable written_view missing]. eexists. split; [exact FF|]. destruct i as [|[|i]]; [reflexivity|reflexivity|lia].
  - apply (VL ((str_of "t0/r" ++ show_nat (Z.of_nat i) ++ str_of "/") ++ str_of "Tref") [2 + inject_Z (Z.of_nat i)]%Q). apply GI. destruct i as [|[|i]]; [do 3 right; left; reflexivity|do 3 right; left; reflexivity|lia].
  - apply (VL ((str_of "t0/r" ++ show_nat (Z.of_nat i) ++ str_of "/") ++ str_of "Nxi") [2]%Q). apply GI. destruct i as [|[|i]]; [do 5 right; left; reflexivity|do 5 right; left; reflexivity|lia].
  - exists (MArray 1 6 [1; 2; 3; 4; 5; 6 + inject_Z (Z.of_nat i)]%Q). split; [|split; [reflexivity|auto]].
    exists KHdf, (WRows HDouble ((str_of "t0/r" ++ show_nat (Z.of_nat i) ++ str_of "/") ++ str_of "f") 6 [[1; 2; 3; 4; 5; 6 + inject_Z (Z.of_nat i)]]%Q). split.
    + apply WR. apply GI. destruct i as [|[|i]]; [do 4 right; left; reflexivity|do 4 right; left; reflexivity|lia].
    + apply (aw_rows ((str_of "t0/r" ++ show_nat (Z.of_nat i) ++ str_of "/") ++ str_of "f") 6 [[1; 2; 3; 4; 5; 6 + inject_Z (Z.of_nat i)]]%Q); [discriminate|repeat constructor].
Qed.
Example C113_example : forall rn rs, exists now, run rn rs c112_start (map (fun a => (HWr 0 a, Ok HDone)) c113_writes) now /\
  (forall t path, path = str_of "t0/r1" \/ path = str_of "t0/r1/" ->
   exists o w', read_file rn rs (code_load_from path 0 0) now 1 KHdf (str_of "d.h5") LOk t = (Ok o, w') /\ left_closed now w' 1 KHdf /\
     evaluates o 0 (map Q2R [1; 2; 3]%Q) (Q2R (1 # 2)) 1 (Q2R 3) 2 (c113_g 1 0)) /\
  (forall t, exists o w', open_file rn rs (gocode_load_from 6%R (-1) 0) now 1 KHdf (str_of "d.h5") LOk t = (Ok o, w') /\ left_open now w' 1 KHdf (str_of "d.h5") /\
     g_rho o = map (fun v => v + 6)%R (map Q2R [1; 2]%Q) /\ length (g_code o) = 2).
Proof.
  intros rn rs. destruct (c113_write_all c113_writes (empty_file []) eq_refl rn rs c112_start 0 (str_of "d.h5") eq_refl eq_refl) as [now [RN FF]].
  exists now. split; [exact RN|]. assert (WR := writes_obj rn rs 0 (str_of "d.h5") KHdf c113_writes c112_start now eq_refl RN).
  split.
  - intros t path P. destruct (C113_code_written rn rs now 1 KHdf (str_of "d.h5") t path (c113_cfile 1) (map Q2R [1; 2; 3]%Q) (Q2R (1 # 2)) 1%R (Q2R (2 + inject_Z (Z.of_nat 1))) 2 1 (c113_g 1) 0%Z 0%Z 0) as (o & w' & E & L & V).
    + apply (c113_group_in rn rs now path 1 FF WR ltac:(lia)). destruct P as [-> | ->]; reflexivity.
    + apply c113_usable.
    + split; [lia|left; reflexivity].
    + exists o, w'. split; [exact E|]. split; [exact L|]. replace (Q2R 3) with (Q2R (2 + inject_Z (Z.of_nat 1))) by (apply Qeq_eqR; reflexivity). exact V.
  - intros t. assert (VL : forall n l, In (WNums HDouble n l) c113_writes -> variable (written_view rn rs (str_of "d.h5") now KHdf) n (Some (reals 1 (length l) l))).
    { intros n' l H. exists (MArray 1 (length l) l). split; [exists KHdf, (WNums HDouble n' l); split; [apply WR; exact H|apply aw_list]|]. cbn. split; [lia|auto]. }
    destruct (C113_gocode_written rn rs now 1 KHdf (str_of "d.h5") t None (Some (reals 1 2 [1; 2]%Q)) (map Q2R [1; 2]%Q) 1 (fun _ i => c113_cfile i) 6%R (-1)%Z 0 0%Z
      (fun _ => map Q2R [1; 2; 3]%Q) (fun _ => Q2R (1 # 2)) (fun _ => 1%R) (fun i => Q2R (2 + inject_Z (Z.of_nat i))) (fun _ => 2) (fun _ => 0) c113_g) as (o & w' & E & L & R1 & N & _).
    + split; [eexists; split; [exact FF|reflexivity]|]. split; [apply (VL (str_of "r") [1; 2]%Q); left; reflexivity|].
      split; [exists (reals 1 1 [1]%Q); split; [apply (VL (str_of "nt") [1]%Q); right; left; reflexivity|apply one_number; unfold Q2R; cbn; lra]|].
      intros rs0 x ti i d V X T I D. injection X as <-. assert (ti = 0%Z) as ->. { destruct T as [A B]. change (INR 1) with 1%R in B. apply le_IZR in A. apply lt_IZR in B. lia. }
      assert (I2 : i < 2). { destruct V as (m & E & V). injection E as <-. destruct V as [(_ & C & _)|(C & C1 & _)]; [change (2 = length rs0) in C; lia|change (2 = 1) in C1; discriminate C1]. }
      apply (c113_group_in rn rs now d i FF WR I2). destruct D as (a & b & Na & Nb & ->). change 0%Z with (Z.of_nat 0) in Na. apply numeral_show in Na. apply numeral_show in Nb. subst a b.
      destruct i as [|[|i]]; [reflexivity|reflexivity|lia].
    + discriminate.
    + exact (rows_vector [1; 2]%Q).
    + discriminate.
    + apply rises_ascending. reflexivity.
    + reflexivity.
    + split; [lia|right; reflexivity].
    + intros i _. apply c113_usable.
    + exists o, w'. split; [exact E|]. split; [exact L|]. split; [exact R1|]. exact N.
Qed.

(** A program writes a DREAM file with two slices and loads the last. *)
Definition c113_data : list Q := map (fun i => inject_Z (Z.of_nat i)) (seq 0 16).
Definition c113_dream_writes : list hwrite :=
  [WGroup (str_of "/grid"); WGroup (str_of "/eqsys"); WGroup (str_of "/grid/hottail"); WNums HDouble (str_of "/grid/t") [0; 1]%Q; WNums HDouble (str_of "/grid/r") [1; 2]%Q;
   WNums HDouble (str_of "/grid/hottail/p1") [1; 2]%Q; WNums HDouble (str_of "/grid/hottail/p2") [-1 # 1; 1]%Q; WMulti HDouble (str_of "/eqsys/f_hot") [2; 2; 2; 2]%Z c113_data].
Definition c113_dream : dream :=
  Dream (fun s => String.eqb s "/eqsys/f_hot") (fun s => if String.eqb s "/eqsys/f_hot" then Some ([2; 2; 2; 2], map Q2R c113_data) else None)
        (fun s => if String.eqb s "/grid/t" then Some (map Q2R [0; 1]%Q) else if String.eqb s "/grid/r" then Some (map Q2R [1; 2]%Q) else
                  if String.eqb s "/grid/hottail/p1" then Some (map Q2R [1; 2]%Q) else if String.eqb s "/grid/hottail/p2" then Some (map Q2R [-1 # 1; 1]%Q) else None).
Example C113_dream_example : forall rn rs, exists now, run rn rs c112_start (map (fun a => (HWr 0 a, Ok HDone)) c113_dream_writes) now /\
  forall t distname, distname = EmptyString \/ distname = "f_hot"%string \/ distname = "/eqsys/f_hot"%string ->
  exists o w', open_file rn rs (dream_load_from 6%R distname (-1) false 0) now 1 KHdf (str_of "d.h5") LOk t = (Ok o, w') /\ left_open now w' 1 KHdf (str_of "d.h5") /\
    distribution false 0 (dd_dist o) (map (fun v => v + 6)%R (map Q2R [1; 2]%Q)) (fun _ => map Q2R [1; 2]%Q) (fun _ => map Q2R [-1 # 1; 1]%Q)
      (fun k i j => nth (((1 * 2 + k) * 2 + j) * 2 + i) (map Q2R c113_data) 0%R).
Proof.
  intros rn rs. destruct (c113_write_all c113_dream_writes (empty_file []) eq_refl rn rs c112_start 0 (str_of "d.h5") eq_refl eq_refl) as [now [RN FF]].
  exists now. split; [exact RN|]. assert (WR := writes_obj rn rs 0 (str_of "d.h5") KHdf c113_dream_writes c112_start now eq_refl RN). intros t distname D.
  assert (VL : forall n l, In (WNums HDouble n l) c113_dream_writes -> exists a, has_array (written_view rn rs (str_of "d.h5") now KHdf) n a /\ map Q2R l = map Q2R (ma_data a)).
  { intros n' l H. exists (MArray 1 (length l) l). split; [exists KHdf, (WNums HDouble n' l); split; [apply WR; exact H|apply aw_list]|reflexivity]. }
  apply (C113_dream_written rn rs now 1 KHdf (str_of "d.h5") t c113_dream 6%R distname "/eqsys/f_hot" "/grid/hottail" 2 (map Q2R [1; 2]%Q) (map Q2R [1; 2]%Q) (map Q2R [-1 # 1; 1]%Q)
    (fun t k i j => nth (((t * 2 + k) * 2 + j) * 2 + i) (map Q2R c113_data) 0%R) (-1)%Z 1).
  - assert (M : exists q, has_multi (written_view rn rs (str_of "d.h5") now KHdf) (str_of "/eqsys/f_hot") [2; 2; 2; 2] q /\ map Q2R c113_data = map Q2R q).
    { exists c113_data. split; [|reflexivity]. exists KHdf. apply WR. do 7 right. left. reflexivity. }
    split.
    + intros n N. cbn in N. destruct N as [<-|[<-|[<-|[]]]].
      * split; [reflexivity|]. eexists. split; [exact FF|reflexivity].
      * split; [reflexivity|exact M].
      * destruct D as [-> | [-> | ->]]; cbn -[map Q2R c113_data]; [|split; [reflexivity|exact M]|split; [reflexivity|exact M]]. split; [reflexivity|]. eexists. split; [exact FF|reflexivity].
    + intros n N. cbn in N. destruct N as [<-|[<-|[<-|[<-|[<-|[<-|[]]]]]]]; cbn -[map Q2R has_array str_of missing].
      * apply VL. do 3 right. left. reflexivity.
      * apply VL. do 4 right. left. reflexivity.
      * eexists. split; [exact FF|reflexivity].
      * eexists. split; [exact FF|reflexivity].
      * apply VL. do 5 right. left. reflexivity.
      * apply VL. do 6 right. left. reflexivity.
  - split; [reflexivity|]. destruct D as [-> | [-> | ->]]; [right; split; [reflexivity|right; split; reflexivity]|left; split; [discriminate|reflexivity]|left; split; [discriminate|reflexivity]].
  - right. split; [exists "/eqsys/"%string; reflexivity|reflexivity].
  - split; [eexists; split; reflexivity|]. split; [reflexivity|]. split; [reflexivity|]. split; [reflexivity|]. eexists. split; [reflexivity|]. split; [reflexivity|].
    intros t0 k j i T K J I. cbn [map length] in K, J, I. cbn [length map]. apply nth_error_nth'. unfold c113_data. rewrite map_length, map_length, seq_length. nia.
  - split; [cbn; lia|]. split; [reflexivity|lia].
  - split; [lia|right; reflexivity].
  - apply rises_ascending. reflexivity.
  - apply c112_mesh; [reflexivity|cbn; lia].
  - apply c112_mesh; [reflexivity|cbn; lia].
Qed.
