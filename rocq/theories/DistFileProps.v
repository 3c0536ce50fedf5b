(** C112: distribution functions in files. *)
From Coq Require Import Reals QArith Qreals ZArith Lia Lra.
From Verif Require Import Base SettingsModel SettingsProofs SdtModel SessionModel SFileModel SFileProofs TypedModel HdfModel HdfSpec HdfProofs DomainModel NumericModel NumericSpec NumericProofs NumericArrays DistributionModel DistributionSpec CodeModel CodeSpec GocodeProofs LoaderModel LoaderSpec LoaderProofs LoaderProps FieldFileModel FieldFileSpec FieldFileProofs ErrSpec ErrProofs DistFileModel DistFileSpec DistFileProofs.
Local Open Scope nat_scope.

(** The object a loader leaves behind: closed; nothing else has changed. *)
Definition left_closed (w w' : hworld) (j : nat) (k : kind) : Prop :=
  v_fs w' = v_fs w /\ v_obj w' j = Some (HObj k PNull) /\ forall i, i <> j -> v_obj w' i = v_obj w i.
Lemma read_file_ok : forall A rn rs (go : dsource -> outcome A) w j k f t x o, v_fs w f = FHdf x -> go (hdf_dsource rn rs k x) = Ok o ->
  exists w', read_file rn rs go w j k f LOk t = (Ok o, w') /\ left_closed w w' j k.
Proof.
  intros A rn rs go w j k f t x o F G. rewrite (read_file_open A rn rs go w j k f t x F), G. eexists; split; [reflexivity|]. split; [reflexivity|].
  cbn [v_obj]. split; [apply put_obj_same|]. intros i I. rewrite !put_obj_other by exact I. reflexivity.
Qed.
Lemma soft_load_eq : forall s v m r g axis lg it, shows s v -> soft_in v m r g -> soft_load_from axis lg it s = soft_load m r g axis lg it.
Proof. intros s v m r g axis lg it H S. unfold soft_load_from, soft_load. rewrite (soft_from_raw s v m r g axis H S). reflexivity. Qed.
Lemma soft_momentum_eq : forall s v m r g axis lg i it, shows s v -> soft_in v m r g -> soft_momentum_from axis lg i it s = soft_momentum m r g axis lg i it.
Proof. intros s v m r g axis lg i it H S. unfold soft_momentum_from, soft_momentum. rewrite (soft_from_raw s v m r g axis H S). reflexivity. Qed.
Lemma depr_load_eq : forall s v d lg it, shows s v -> depr_in v d -> depr_load_from lg it s = depr_load d lg it.
Proof. intros s v d lg it H S. unfold depr_load_from, depr_load. rewrite (depr_from_raw s v d H S). reflexivity. Qed.
Lemma depr_momentum_eq : forall s v d lg i it, shows s v -> depr_in v d -> depr_momentum_from lg i it s = depr_momentum d lg i it.
Proof. intros s v d lg i it H S. unfold depr_momentum_from, depr_momentum. rewrite (depr_from_raw s v d H S). reflexivity. Qed.
Lemma luke_load_eq : forall s v l minr maxr lg it, shows s v -> luke_in v l -> luke_load_from minr maxr lg it s = luke_load l minr maxr lg it.
Proof. intros s v l minr maxr lg it H S. unfold luke_load_from, luke_load. rewrite (luke_from_raw s v l minr maxr H S). reflexivity. Qed.
Lemma luke_momentum_eq : forall s v l minr maxr lg i it, shows s v -> luke_in v l -> luke_momentum_from minr maxr lg i it s = luke_momentum l minr maxr lg i it.
Proof. intros s v l minr maxr lg i it H S. unfold luke_momentum_from, luke_momentum. rewrite (luke_from_raw s v l minr maxr H S). reflexivity. Qed.

(** A SOFT file on disk is loaded: the radii shifted by the magnetic axis, one table each. *)
Theorem C112_soft_load : forall rn rs w j k f t x magic r groups radii p xi g axis lg it,
  v_fs w f = FHdf x -> soft_in (hdf_view k x) magic r groups -> soft_file magic r groups radii p xi g -> ascending radii ->
  (forall i, i < length radii -> mesh it (p i) /\ mesh it (xi i)) ->
  exists o w', read_file rn rs (soft_load_from axis lg it) w j k f LOk t = (Ok o, w') /\
    distribution lg it o (map (fun y => y + axis)%R radii) p xi g /\ left_closed w w' j k.
Proof.
  intros rn rs w j k f t x magic r groups radii p xi g axis lg it F SI SF AS ME.
  destruct (C86_load magic r groups radii p xi g axis lg it SF AS ME) as (o & E & D). exists o.
  destruct (read_file_ok _ rn rs (soft_load_from axis lg it) w j k f t x o F) as (w' & R1 & LC).
  { rewrite (soft_load_eq _ _ _ _ _ _ _ _ (hdf_shows rn rs k x) SI). exact E. }
  exists w'. split; [exact R1|]. split; [exact D|exact LC].
Qed.
Print Assumptions C112_soft_load.
Theorem C112_soft_momentum : forall rn rs w j k f t x magic r groups radii p xi g axis lg it i,
  v_fs w f = FHdf x -> soft_in (hdf_view k x) magic r groups -> soft_file magic r groups radii p xi g -> ascending radii ->
  i < length radii -> mesh it (p i) -> mesh it (xi i) ->
  (lg = true -> forall a b, a < length (p i) -> b < length (xi i) -> (0 <= g i a b)%R) ->
  exists m w', read_file rn rs (soft_momentum_from axis lg i it) w j k f LOk t = (Ok m, w') /\
    holds_table lg it m (p i) (xi i) (g i) /\ left_closed w w' j k.
Proof.
  intros rn rs w j k f t x magic r groups radii p xi g axis lg it i F SI SF AS I M1 M2 P.
  destruct (C86_momentum magic r groups radii p xi g axis lg it i SF AS I M1 M2 P) as (m & E & D). exists m.
  destruct (read_file_ok _ rn rs (soft_momentum_from axis lg i it) w j k f t x m F) as (w' & R1 & LC).
  { rewrite (soft_momentum_eq _ _ _ _ _ _ _ _ _ (hdf_shows rn rs k x) SI). exact E. }
  exists w'. split; [exact R1|]. split; [exact D|exact LC].
Qed.
Print Assumptions C112_soft_momentum.

(** An SDT file with the same variables. *)
Theorem C112_soft_sdt : forall rd magic r groups radii p xi g axis lg it,
  soft_in (sdt_view rd) magic r groups -> soft_file magic r groups radii p xi g -> ascending radii ->
  ((forall i, i < length radii -> mesh it (p i) /\ mesh it (xi i)) ->
   exists o, soft_load_from axis lg it (sdt_dsource rd) = Ok o /\ distribution lg it o (map (fun y => y + axis)%R radii) p xi g) /\
  (forall i, i < length radii -> mesh it (p i) -> mesh it (xi i) -> (lg = true -> forall a b, a < length (p i) -> b < length (xi i) -> (0 <= g i a b)%R) ->
   exists m, soft_momentum_from axis lg i it (sdt_dsource rd) = Ok m /\ holds_table lg it m (p i) (xi i) (g i)).
Proof.
  intros rd magic r groups radii p xi g axis lg it SI SF AS. split.
  - intros ME. rewrite (soft_load_eq _ _ _ _ _ _ _ _ (sdt_shows rd) SI). exact (C86_load magic r groups radii p xi g axis lg it SF AS ME).
  - intros i I M1 M2 P. rewrite (soft_momentum_eq _ _ _ _ _ _ _ _ _ (sdt_shows rd) SI). exact (C86_momentum magic r groups radii p xi g axis lg it i SF AS I M1 M2 P).
Qed.
Print Assumptions C112_soft_sdt.

(** A program writes the variables of a SOFT file, in any order, among other things; afterwards
    the file is loaded. *)
Theorem C112_soft_written : forall rn rs now j k f t magic r groups radii p xi g axis lg it,
  soft_in (written_view rn rs f now k) magic r groups -> soft_file magic r groups radii p xi g -> ascending radii ->
  (forall i, i < length radii -> mesh it (p i) /\ mesh it (xi i)) ->
  exists o w', read_file rn rs (soft_load_from axis lg it) now j k f LOk t = (Ok o, w') /\
    distribution lg it o (map (fun y => y + axis)%R radii) p xi g /\ left_closed now w' j k.
Proof.
  intros rn rs now j k f t magic r groups radii p xi g axis lg it SI SF AS ME.
  destruct (written_file _ _ _ _ _ _ _ (proj1 (proj2 SI))) as [x F].
  apply (C112_soft_load rn rs now j k f t x magic r groups); auto. exact (soft_within _ _ _ _ _ (written_within rn rs f now k x F) SI).
Qed.
Print Assumptions C112_soft_written.

(** What the loader of SOFT files refuses. *)
Theorem C112_soft_refused : forall rn rs w j k f t x rd magic r groups axis lg it,
  magic = Some false \/ no_vector r \/
  (exists radii i, vector r radii /\ i < length radii /\ bad_group (groups i) /\ forall i', i' < i -> exists p xi g, group (groups i') p xi g) \/
  (exists radii p xi g, soft_file magic r groups radii p xi g /\ ~ ascending radii) ->
  (v_fs w f = FHdf x -> soft_in (hdf_view k x) magic r groups ->
   fst (read_file rn rs (soft_load_from axis lg it) w j k f LOk t) = Throw /\
   forall i, fst (read_file rn rs (soft_momentum_from axis lg i it) w j k f LOk t) = Throw) /\
  (soft_in (sdt_view rd) magic r groups ->
   soft_load_from axis lg it (sdt_dsource rd) = Throw /\ forall i, soft_momentum_from axis lg i it (sdt_dsource rd) = Throw).
Proof.
  intros rn rs w j k f t x rd magic r groups axis lg it C. destruct (C86_refused magic r groups axis lg it C) as [T1 T2]. split.
  - intros F SI. split; [|intros i]; rewrite (read_file_open _ rn rs _ w j k f t x F); cbn [fst].
    + rewrite (soft_load_eq _ _ _ _ _ _ _ _ (hdf_shows rn rs k x) SI). exact T1.
    + rewrite (soft_momentum_eq _ _ _ _ _ _ _ _ _ (hdf_shows rn rs k x) SI). apply T2.
  - intros SI. split; [|intros i].
    + rewrite (soft_load_eq _ _ _ _ _ _ _ _ (sdt_shows rd) SI). exact T1.
    + rewrite (soft_momentum_eq _ _ _ _ _ _ _ _ _ (sdt_shows rd) SI). apply T2.
Qed.
Print Assumptions C112_soft_refused.

(** Radii with no dimension, or more than two of them, are not refused. *)
Lemma rank_ub : forall rn rs k x n d, find n (h_sets x) = Some d -> length (d_dims d) <> 1 -> length (d_dims d) <> 2 -> get_array (hdf_dsource rn rs k x) n = UB.
Proof.
  intros rn rs k x n d F N1 N2. unfold get_array, src_array. cbn [hdf_dsource ds_src hdf_source src_doubles]. rewrite F. cbn [kind_read]. unfold h5_get2d. rewrite F.
  destruct (d_dims d) as [|a [|b [|c l]]]; try reflexivity; exfalso; [apply N1|apply N2]; reflexivity.
Qed.
Theorem C112_rank_refuted : forall rn rs w j k f t x d axis lg it, v_fs w f = FHdf x -> length (d_dims d) <> 1 -> length (d_dims d) <> 2 ->
  ((find (str_of "type") (h_sets x) = None \/ text_in k x (str_of "type") (str_of "distribution/soft")) -> find (str_of "r") (h_sets x) = Some d ->
   fst (read_file rn rs (soft_load_from axis lg it) w j k f LOk t) = UB) /\
  (find (str_of "r") (h_sets x) = Some d -> fst (read_file rn rs (depr_load_from lg it) w j k f LOk t) = UB) /\
  (forall minr maxr, find (str_of "xrhoG") (h_sets x) = Some d -> fst (read_file rn rs (luke_load_from minr maxr lg it) w j k f LOk t) = UB).
Proof.
  intros rn rs w j k f t x d axis lg it F N1 N2. split; [|split].
  - intros T FR. rewrite (read_file_open _ rn rs _ w j k f t x F). cbn [fst]. unfold soft_load_from, soft_from.
    assert (M : exists m, get_magic (hdf_dsource rn rs k x) = Ok m /\ m <> Some false).
    { unfold get_magic. destruct T as [T|T].
      - exists None. destruct (sh_missing _ _ (hdf_shows rn rs k x) _ T) as [-> _]. split; [reflexivity|discriminate].
      - exists (Some true). destruct (sh_text _ _ (hdf_shows rn rs k x) _ _ T) as [-> ->]. split; [reflexivity|discriminate]. }
    destruct M as (m & -> & M). cbn [obind]. rewrite (rank_ub rn rs k x _ d FR N1 N2). destruct m as [[|]|]; [reflexivity|exfalso; apply M; reflexivity|reflexivity].
  - intros FR. rewrite (read_file_open _ rn rs _ w j k f t x F). cbn [fst]. unfold depr_load_from, depr_from, get_vector. rewrite (rank_ub rn rs k x _ d FR N1 N2). reflexivity.
  - intros minr maxr FR. rewrite (read_file_open _ rn rs _ w j k f t x F). cbn [fst]. unfold luke_load_from, luke_from, get_vector. rewrite (rank_ub rn rs k x _ d FR N1 N2). reflexivity.
Qed.
Print Assumptions C112_rank_refuted.

(** Whatever is loaded, files are not changed, and a file that is not there is refused. *)
Theorem C112_files : forall (A : Type) rn rs (go : dsource -> outcome A) w j k f l t,
  v_fs (snd (read_file rn rs go w j k f l t)) = v_fs w /\
  (l <> LOk \/ (forall x, v_fs w f <> FHdf x) -> fst (read_file rn rs go w j k f l t) = Throw) /\
  (forall i, i <> j -> v_obj (snd (read_file rn rs go w j k f l t)) i = v_obj w i).
Proof.
  intros A rn rs go w j k f l t. split; [apply read_file_files|]. split.
  - intros [L|N]; [|apply read_file_missing; exact N]. unfold read_file, hdf_create_obj, hdf_open. destruct (v_fs w f) as [| |x]; [reflexivity|reflexivity|].
    destruct l; [congruence|reflexivity|reflexivity].
  - intros i I. unfold read_file, hdf_create_obj, hdf_open. destruct (v_fs w f) as [| |x] eqn:F; [reflexivity|reflexivity|].
    destruct l; try reflexivity. cbn [o_kind v_fs v_obj]. rewrite F. cbv zeta. destruct (go (hdf_dsource rn rs k x)); cbn [snd v_obj]; rewrite ?put_obj_other by exact I; reflexivity.
Qed.
Print Assumptions C112_files.

(** Old SOFT files. *)
Theorem C112_depr_load : forall rn rs w j k f t x d r p xi g u norm lg it,
  v_fs w f = FHdf x -> depr_in (hdf_view k x) d -> depr_file d r p xi g -> ascending r -> mesh it p -> mesh it xi ->
  agrees (dp_fp0 d) (length p) (fun i => g 0 i 0) -> agrees (dp_fxi0 d) (length xi) (fun b => g 0 0 b) -> agrees (dp_fr0 d) (length r) (fun i => g i 0 0) ->
  dp_units d = Some u -> momentum_unit u norm ->
  (exists o w', read_file rn rs (depr_load_from lg it) w j k f LOk t = (Ok o, w') /\ left_closed w w' j k /\
    rd_r o = tl r /\ length (rd_ms o) = length r /\
    forall i, i < length r -> exists m, nth_error (rd_ms o) i = Some (Some m) /\ holds_table lg it m (map (fun q => q / norm)%R p) xi (g i)) /\
  (forall i, i < length r -> (lg = true -> forall a b, a < length p -> b < length xi -> (0 <= g i a b)%R) ->
   exists m w', read_file rn rs (depr_momentum_from lg i it) w j k f LOk t = (Ok m, w') /\ left_closed w w' j k /\
     holds_table lg it m (map (fun q => q / norm)%R p) xi (g i)).
Proof.
  intros rn rs w j k f t x d r p xi g u norm lg it F DI DF AS M1 M2 A1 A2 A3 U UN. split.
  - destruct (C89_load d r p xi g u norm lg it DF (proj1 DF) AS M1 M2 A1 A2 A3 U UN) as (o & E & RR & _ & L & T). exists o.
    destruct (read_file_ok _ rn rs (depr_load_from lg it) w j k f t x o F) as (w' & R1 & LC); [rewrite (depr_load_eq _ _ _ _ _ (hdf_shows rn rs k x) DI); exact E|].
    exists w'. split; [exact R1|]. split; [exact LC|]. split; [exact RR|]. split; [exact L|exact T].
  - intros i I P. destruct (C89_momentum d r p xi g u norm lg it i DF M1 M2 I A1 A2 A3 U UN P) as (m & E & T). exists m.
    destruct (read_file_ok _ rn rs (depr_momentum_from lg i it) w j k f t x m F) as (w' & R1 & LC); [rewrite (depr_momentum_eq _ _ _ _ _ _ (hdf_shows rn rs k x) DI); exact E|].
    exists w'. split; [exact R1|]. split; [exact LC|exact T].
Qed.
Print Assumptions C112_depr_load.
(** What is refused of them, and SDT files: as for the variables (C89). *)
Theorem C112_depr_variables : forall d lg it,
  (forall rn rs w j k f t x, v_fs w f = FHdf x -> depr_in (hdf_view k x) d ->
     fst (read_file rn rs (depr_load_from lg it) w j k f LOk t) = depr_load d lg it /\
     forall i, fst (read_file rn rs (depr_momentum_from lg i it) w j k f LOk t) = depr_momentum d lg i it) /\
  (forall rd, depr_in (sdt_view rd) d -> depr_load_from lg it (sdt_dsource rd) = depr_load d lg it /\ forall i, depr_momentum_from lg i it (sdt_dsource rd) = depr_momentum d lg i it).
Proof.
  intros d lg it. split.
  - intros rn rs w j k f t x F DI. split; [|intros i]; rewrite (read_file_open _ rn rs _ w j k f t x F); cbn [fst].
    + exact (depr_load_eq _ _ _ _ _ (hdf_shows rn rs k x) DI).
    + exact (depr_momentum_eq _ _ _ _ _ _ (hdf_shows rn rs k x) DI).
  - intros rd DI. split; [exact (depr_load_eq _ _ _ _ _ (sdt_shows rd) DI)|intros i; exact (depr_momentum_eq _ _ _ _ _ _ (sdt_shows rd) DI)].
Qed.
Print Assumptions C112_depr_variables.

(** LUKE files. *)
Theorem C112_luke_load : forall rn rs w j k f t y l x p beta xi g minr maxr lg it,
  v_fs w f = FHdf y -> luke_in (hdf_view k y) l -> luke_file l x p beta xi g -> ascending x -> mesh it p -> mesh it xi -> (0 < beta)%R -> (minr < maxr)%R ->
  (exists o w', read_file rn rs (luke_load_from minr maxr lg it) w j k f LOk t = (Ok o, w') /\ left_closed w w' j k /\
    rd_r o = tl (map (fun c => minr + c * (maxr - minr))%R x) /\ length (rd_ms o) = length x /\
    forall i, i < length x -> exists m, nth_error (rd_ms o) i = Some (Some m) /\ holds_table lg it m (map (fun q => q * beta)%R p) xi (g i)) /\
  (forall i, i < length x -> (lg = true -> forall a b, a < length p -> b < length xi -> (0 <= g i a b)%R) ->
   exists m w', read_file rn rs (luke_momentum_from minr maxr lg i it) w j k f LOk t = (Ok m, w') /\ left_closed w w' j k /\
     holds_table lg it m (map (fun q => q * beta)%R p) xi (g i)).
Proof.
  intros rn rs w j k f t y l x p beta xi g minr maxr lg it F LI LF AS M1 M2 B MM. split.
  - destruct (C88_load l x p beta xi g minr maxr lg it LF AS (proj1 LF) M1 M2 B MM) as (o & E & RR & _ & L & T). exists o.
    destruct (read_file_ok _ rn rs (luke_load_from minr maxr lg it) w j k f t y o F) as (w' & R1 & LC); [rewrite (luke_load_eq _ _ _ _ _ _ _ (hdf_shows rn rs k y) LI); exact E|].
    exists w'. split; [exact R1|]. split; [exact LC|]. split; [exact RR|]. split; [exact L|exact T].
  - intros i I P. destruct (C88_momentum l x p beta xi g minr maxr lg it i LF M1 M2 B I P) as (m & E & T). exists m.
    destruct (read_file_ok _ rn rs (luke_momentum_from minr maxr lg i it) w j k f t y m F) as (w' & R1 & LC); [rewrite (luke_momentum_eq _ _ _ _ _ _ _ _ (hdf_shows rn rs k y) LI); exact E|].
    exists w'. split; [exact R1|]. split; [exact LC|exact T].
Qed.
Print Assumptions C112_luke_load.
Theorem C112_luke_variables : forall l minr maxr lg it,
  (forall rn rs w j k f t x, v_fs w f = FHdf x -> luke_in (hdf_view k x) l ->
     fst (read_file rn rs (luke_load_from minr maxr lg it) w j k f LOk t) = luke_load l minr maxr lg it /\
     forall i, fst (read_file rn rs (luke_momentum_from minr maxr lg i it) w j k f LOk t) = luke_momentum l minr maxr lg i it).
Proof.
  intros l minr maxr lg it rn rs w j k f t x F LI. split; [|intros i]; rewrite (read_file_open _ rn rs _ w j k f t x F); cbn [fst].
  - exact (luke_load_eq _ _ _ _ _ _ _ (hdf_shows rn rs k x) LI).
  - exact (luke_momentum_eq _ _ _ _ _ _ _ _ (hdf_shows rn rs k x) LI).
Qed.
Print Assumptions C112_luke_variables.
(** SDT files cannot hold LUKE distributions. *)
Theorem C112_luke_sdt_refuted : forall rd minr maxr lg it, (forall o, luke_load_from minr maxr lg it (sdt_dsource rd) <> Ok o) /\
  (forall r p b xi, variable (sdt_view rd) (str_of "xrhoG") r -> variable (sdt_view rd) (str_of "pn") p -> variable (sdt_view rd) (str_of "betath_ref") b -> variable (sdt_view rd) (str_of "mhu") xi ->
   (forall rs ps beta xs, vector r rs -> vector p ps -> number b beta -> vector xi xs -> luke_load_from minr maxr lg it (sdt_dsource rd) = Throw)).
Proof.
  intros rd minr maxr lg it. split.
  - intros o E. unfold luke_load_from, luke_from in E. destruct (get_vector (sdt_dsource rd) (str_of "xrhoG")); try discriminate E. cbn [obind] in E.
    destruct (get_vector (sdt_dsource rd) (str_of "pn")); try discriminate E. cbn [obind] in E. destruct (get_array (sdt_dsource rd) (str_of "betath_ref")) as [b| |]; try discriminate E. cbn [obind] in E.
    destruct (scalar b); try discriminate E. cbn [obind] in E. destruct (get_vector (sdt_dsource rd) (str_of "mhu")); discriminate E.
  - intros r p b xi Vr Vp Vb Vx rs ps beta xs R1 P1 B1 X1. unfold luke_load_from, luke_from.
    rewrite (get_vector_variable _ _ _ _ (sdt_shows rd) Vr), (get_vector_variable _ _ _ _ (sdt_shows rd) Vp), (get_vector_variable _ _ _ _ (sdt_shows rd) Vx), (get_array_variable _ _ _ _ (sdt_shows rd) Vb).
    pose proof (read_vector_ok _ _ R1) as Q1. pose proof (read_vector_ok _ _ P1) as Q2. pose proof (read_vector_ok _ _ X1) as Q3.
    destruct (number_ok _ _ B1) as (m4 & -> & S4). destruct R1 as (m1 & -> & _). destruct P1 as (m2 & -> & _). destruct X1 as (m3 & -> & _). cbn [need obind].
    rewrite Q1. cbn [obind]. rewrite Q2. cbn [obind]. rewrite S4. cbn [obind]. rewrite Q3. reflexivity.
Qed.
Print Assumptions C112_luke_sdt_refuted.

(** Writes that went well, one after another. *)
Lemma writes_obj : forall rn rs i f k l w w', v_obj w i = Some (HObj k (PFile f true)) -> run rn rs w (map (fun a => (HWr i a, Ok HDone)) l) w' ->
  forall a, In a l -> written rn rs f w' k a.
Proof.
  intros rn rs i f k l. induction l as [|b l IH]; intros w w' O H a I; [destruct I|]. cbn [map] in H. inversion H as [|w0 c r w1 tr w2 D U T E1 E2 E3]. subst.
  assert (O1 : v_obj w1 i = Some (HObj k (PFile f true))).
  { cbn [do_hcall] in D. rewrite O in D. destruct (v_fs w f); try discriminate D. destruct (kind_write k x b) as [q h]. injection D as _ <-. exact O. }
  destruct I as [->|I]; [|exact (IH w1 w' O1 T a I)]. exists w, i, w1, (map (fun a => (HWr i a, Ok HDone)) l). split; [exact O|]. split; [exact D|]. split; [exact T|].
  apply Forall_forall. intros e E. apply in_map_iff in E. destruct E as (q & <- & _). cbn [fst]. intros (? & ? & ? & X). discriminate X.
Qed.
(** The file of the example for C86, with eleven radii. *)
Definition c112_p (i : nat) : list Q := match i with O => [1; 2; 3] | _ => [1; 2] end%Q.
Definition c112_rows (i : nat) : list (list Q) := match i with O => [[10; 11; 12]; [13; 14; 15]] | _ => [[-20 # 1; 21]; [22; 23 + inject_Z (Z.of_nat i)]] end%Q.
Definition c112_dir (i : nat) : str := str_of "r" ++ show_nat (Z.of_nat i).
Definition c112_radii : list Q := map (fun i => inject_Z (Z.of_nat i)) (seq 1 11).
Definition c112_writes : list hwrite :=
  WText (str_of "type") (str_of "distribution/soft") :: WNums HDouble (str_of "r") c112_radii ::
  concat (map (fun i => [WGroup (c112_dir i); WNums HDouble (c112_dir i ++ str_of "/xi") [-1 # 1; 1]%Q;
                         WRows HDouble (c112_dir i ++ str_of "/f") (length (c112_p i)) (c112_rows i); WNums HDouble (c112_dir i ++ str_of "/p") (c112_p i)]) (seq 0 11)).
Definition c112_start : hworld :=
  HWorld (put_file (fun _ => FNone) (str_of "d.h5") (FHdf (empty_file []))) (put_obj (fun _ => None) 0 (Some (HObj KHdf (PFile (str_of "d.h5") true)))).
Definition reals (r c : nat) (l : list Q) : marray R := MArray r c (map Q2R l).
Definition c112_groups (i : nat) : sgroup :=
  SGroup (Some (reals 1 (length (c112_p i)) (c112_p i))) (Some (reals 1 2 [-1 # 1; 1]%Q)) (Some (reals 2 (length (c112_p i)) (concat (c112_rows i)))).
Definition c112_g (i a b : nat) : R := nth (b * length (c112_p i) + a) (map Q2R (concat (c112_rows i))) 0%R.
Lemma c112_write_all : forall ws x, fst (write_all KHdf x ws) = Ok tt -> forall rn rs w i f, v_obj w i = Some (HObj KHdf (PFile f true)) -> v_fs w f = FHdf x ->
  exists w', run rn rs w (map (fun a => (HWr i a, Ok HDone)) ws) w'.
Proof.
  induction ws as [|a ws IH]; intros x H rn rs w i f O F; [exists w; apply run_nil|]. cbn [write_all] in H. destruct (kind_write KHdf x a) as [[[]| |] y] eqn:K; try discriminate H.
  destruct (IH y H rn rs (HWorld (put_file (v_fs w) f (FHdf y)) (v_obj w)) i f O) as [w' T]; [cbn [v_fs]; apply put_file_same|]. exists w'. cbn [map].
  eapply run_step; [cbn [do_hcall]; rewrite O, F, K; reflexivity|discriminate|exact T].
Qed.
Lemma rows_vector : forall l, vector (Some (reals 1 (length l) l)) (map Q2R l).
Proof.
  intros l. exists (reals 1 (length l) l). split; [reflexivity|left]. unfold reals. repeat split; cbn [NumericModel.ma_rows NumericModel.ma_cols NumericModel.ma_data]; rewrite ?map_length; try lia.
  intros j i J I. replace j with 0 by lia. cbn [Nat.mul Nat.add]. apply nth_error_nth'. rewrite map_length. exact I.
Qed.
Lemma numeral_show : forall i d, numeral (Z.of_nat i) d -> d = show_nat (Z.of_nat i).
Proof. intros i d N. pose proof (show_int_numeral (Z.of_nat i)) as S. unfold show_int in S. destruct (Z.of_nat i <? 0)%Z eqn:E; [apply Z.ltb_lt in E; lia|]. exact (numeral_unique _ _ _ N S). Qed.
Lemma Q2R_lt : forall a b, (a < b)%Q -> (Q2R a < Q2R b)%R.
Proof. exact Qlt_Rlt. Qed.
Fixpoint rises (l : list Q) : bool := match l with a :: (b :: _) as r => (negb (Qle_bool b a) && rises r)%bool | _ => true end.
Lemma rises_ascending : forall l, rises l = true -> ascending (map Q2R l).
Proof.
  assert (H : forall l a, rises (a :: l) = true -> forall j y, nth_error (map Q2R l) j = Some y -> (Q2R a < y)%R).
  { induction l as [|b l IH]; intros a H j y E; [destruct j; discriminate E|]. cbn [rises] in H. apply andb_prop in H. destruct H as [H1 H2].
    assert (L : (Q2R a < Q2R b)%R). { apply Qlt_Rlt. apply Qnot_le_lt. intros Q. apply Qle_bool_iff in Q. rewrite Q in H1. discriminate H1. }
    destruct j as [|j]; [injection E as <-; exact L|]. pose proof (IH b H2 j y E). lra. }
  induction l as [|a l IH]; intros R1 i j x y I E1 E2; [destruct i; discriminate E1|]. destruct j as [|j]; [lia|]. cbn [map nth_error] in E2. destruct i as [|i].
  - injection E1 as <-. exact (H l a R1 j y E2).
  - apply (IH ltac:(destruct l as [|b l]; [reflexivity|]; cbn [rises] in R1; apply andb_prop in R1; apply R1) i j x y ltac:(lia) E1 E2).
Qed.

Example C112_example : forall rn rs, exists now, run rn rs c112_start (map (fun a => (HWr 0 a, Ok HDone)) c112_writes) now /\
  (forall t, exists o w', read_file rn rs (soft_load_from 6%R false 0) now 1 KHdf (str_of "d.h5") LOk t = (Ok o, w') /\
     distribution false 0 o (map (fun y => y + 6)%R (map Q2R c112_radii)) (fun i => map Q2R (c112_p i)) (fun _ => map Q2R [-1 # 1; 1]%Q) c112_g /\ left_closed now w' 1 KHdf) /\
  c112_g 10 1 1 = Q2R (23 + 10) /\ In (WRows HDouble (str_of "r10/f") 2 [[-20 # 1; 21]; [22; 23 + 10]]%Q) c112_writes.
Proof.
  intros rn rs. destruct (c112_write_all c112_writes (empty_file []) eq_refl rn rs c112_start 0 (str_of "d.h5") eq_refl eq_refl) as [now RN].
  exists now. split; [exact RN|]. assert (WR := writes_obj rn rs 0 (str_of "d.h5") KHdf c112_writes c112_start now eq_refl RN).
  split; [|split; [reflexivity|]]; cycle 1.
  { unfold c112_writes. right. right. apply in_concat. exists (nth 10 (map (fun i => [WGroup (c112_dir i); WNums HDouble (c112_dir i ++ str_of "/xi") [-1 # 1; 1]%Q;
      WRows HDouble (c112_dir i ++ str_of "/f") (length (c112_p i)) (c112_rows i); WNums HDouble (c112_dir i ++ str_of "/p") (c112_p i)]) (seq 0 11)) []).
    split; [apply nth_In; cbn; lia|]. right. right. left. reflexivity. }
  intros t.
  assert (IG : forall i a, i < 11 -> In a [WGroup (c112_dir i); WNums HDouble (c112_dir i ++ str_of "/xi") [-1 # 1; 1]%Q;
     WRows HDouble (c112_dir i ++ str_of "/f") (length (c112_p i)) (c112_rows i); WNums HDouble (c112_dir i ++ str_of "/p") (c112_p i)] -> In a c112_writes).
  { intros i a I A. unfold c112_writes. right. right. apply in_concat. eexists. split; [apply in_map_iff; exists i; split; [reflexivity|apply in_seq; lia]|exact A]. }
  assert (VL : forall n l, In (WNums HDouble n l) c112_writes -> variable (written_view rn rs (str_of "d.h5") now KHdf) n (Some (reals 1 (length l) l))).
  { intros n l I. exists (MArray 1 (length l) l). split; [exists KHdf, (WNums HDouble n l); split; [apply WR; exact I|apply aw_list]|]. cbn. split; [lia|auto]. }
  apply (C112_soft_written rn rs now 1 KHdf (str_of "d.h5") t (Some true) (Some (reals 1 11 c112_radii)) c112_groups).
  - split; [|split].
    + exists (str_of "distribution/soft"). split; [|split; reflexivity]. cbn [written_view has_text]. split; [|exists KHdf; split; [discriminate|apply WR; left; reflexivity]].
      cbn. intros H. repeat destruct H as [H|H]; try discriminate H; exact H.
    + apply (VL (str_of "r") c112_radii). right. left. reflexivity.
    + intros radii i n V I. assert (I11 : i < 11).
      { destruct V as (m & E & V). injection E as <-. destruct V as [(_ & C & _)|(C & C1 & _)]; [change (11 = length radii) in C; lia|change (11 = 1) in C1; discriminate C1]. }
      unfold c112_groups. cbn [sg_p sg_xi sg_f].
      split; [|split]; intros (d & N & ->); apply numeral_show in N; subst d.
      * apply (VL ("r"%char :: show_nat (Z.of_nat i) ++ str_of "/p")). apply (IG i _ I11). right. right. right. left. reflexivity.
      * apply (VL ("r"%char :: show_nat (Z.of_nat i) ++ str_of "/xi") [-1 # 1; 1]%Q). apply (IG i _ I11). right. left. reflexivity.
      * exists (MArray 2 (length (c112_p i)) (concat (c112_rows i))). split.
        -- exists KHdf, (WRows HDouble (c112_dir i ++ str_of "/f") (length (c112_p i)) (c112_rows i)). split; [apply WR; apply (IG i _ I11); right; right; left; reflexivity|].
           replace (MArray 2 (length (c112_p i)) (concat (c112_rows i))) with (MArray (length (c112_rows i)) (length (c112_p i)) (concat (c112_rows i))) by (destruct i; reflexivity).
           apply (aw_rows (c112_dir i ++ str_of "/f")); destruct i; try discriminate; repeat constructor.
        -- split; [destruct i; reflexivity|auto].
  - split; [discriminate|]. split; [discriminate|]. split; [exact (rows_vector c112_radii)|]. intros i I.
    split; [destruct i; discriminate|]. split; [discriminate|]. split; [exact (rows_vector (c112_p i))|]. split; [exact (rows_vector [-1 # 1; 1]%Q)|].
    eexists; split; [reflexivity|]. unfold c112_g. rewrite !map_length. repeat split; try (destruct i; reflexivity).
    intros b a B A. cbn [reals NumericModel.ma_data]. apply nth_error_nth'. rewrite map_length. destruct i; cbn in *; nia.
  - apply rises_ascending. reflexivity.
  - intros i I. split; (split; [apply rises_ascending; destruct i; reflexivity|]); [destruct i; cbn; lia|cbn; lia].
Qed.

(** A LUKE file and an old SOFT file. *)
Definition c112_luke_sets : list (str * dataset) :=
  [(str_of "xrhoG", Dataset HDouble [3%Z] [0; 1 # 2; 1]%Q); (str_of "pn", Dataset HDouble [1; 2]%Z [1; 2]%Q); (str_of "betath_ref", Dataset HDouble [1; 1]%Z [2]%Q);
   (str_of "mhu", Dataset HDouble [2%Z] [-1 # 1; 1]%Q); (str_of "f", Dataset HDouble [3; 2; 2]%Z [1; 2; 3; 4; 5; 6; 7; 8; 9; 10; 11; 12]%Q)].
Definition c112_luke : luke :=
  Luke (Some (reals 1 3 [0; 1 # 2; 1]%Q)) (Some (reals 1 2 [1; 2]%Q)) (Some (reals 1 1 [2]%Q)) (Some (reals 1 2 [-1 # 1; 1]%Q)) (Some ([3; 2; 2], map Q2R [1; 2; 3; 4; 5; 6; 7; 8; 9; 10; 11; 12]%Q)).
Definition c112_depr_sets : list (str * dataset) :=
  [(str_of "r", Dataset HDouble [2%Z] [1; 2]%Q); (str_of "p", Dataset HDouble [2%Z] [1; 2]%Q); (str_of "xi", Dataset HDouble [1; 2]%Z [-1 # 1; 1]%Q);
   (str_of "f", Dataset HDouble [2; 4]%Z [1; 2; 3; 4; 5; 6; 7; 8]%Q); (str_of "fp0", Dataset HDouble [2%Z] [1; 2]%Q);
   (str_of "punits", Dataset HString [2%Z] (text_data (str_of "ev")))].
Definition c112_depr : depr :=
  Depr (Some (reals 1 2 [1; 2]%Q)) (Some (reals 1 2 [1; 2]%Q)) (Some (reals 1 2 [-1 # 1; 1]%Q)) (Some (reals 2 4 [1; 2; 3; 4; 5; 6; 7; 8]%Q))
       (Some (reals 1 2 [1; 2]%Q)) None None (Some "ev"%string).
Definition c112_world (l : list (str * dataset)) : hworld := HWorld (fun _ => FHdf (HFile [] [] l [])) (fun _ => None).
Ltac show_variable q := exists q; split; [eexists; split; [reflexivity|]; split; [discriminate|]; split; [reflexivity|]; split; [reflexivity|]; split; [discriminate|]; first [left; reflexivity|right; split; reflexivity]|split; [reflexivity|auto]].
Lemma c112_mesh : forall l, rises l = true -> 2 <= length l -> mesh 0 (map Q2R l).
Proof. intros l R1 L. split; [apply rises_ascending; exact R1|]. rewrite map_length. exact L. Qed.
Example C112_luke_example : forall rn rs, exists o w', read_file rn rs (luke_load_from 1%R 2%R false 0) (c112_world c112_luke_sets) 0 KHdf (str_of "l.h5") LOk (Tm 0 0 0 0 0 0 0) = (Ok o, w') /\
  length (rd_ms o) = 3 /\ forall m, nth_error (rd_ms o) 2 = Some (Some m) -> holds_table false 0 m (map (fun q => q * Q2R 2)%R (map Q2R [1; 2]%Q)) (map Q2R [-1 # 1; 1]%Q) (fun a b => nth ((2 * 2 + b) * 2 + a) (map Q2R [1; 2; 3; 4; 5; 6; 7; 8; 9; 10; 11; 12]%Q) 0%R).
Proof.
  intros rn rs.
  destruct (C112_luke_load rn rs (c112_world c112_luke_sets) 0 KHdf (str_of "l.h5") (Tm 0 0 0 0 0 0 0) (HFile [] [] c112_luke_sets []) c112_luke (map Q2R [0; 1 # 2; 1]%Q) (map Q2R [1; 2]%Q) (Q2R 2) (map Q2R [-1 # 1; 1]%Q)
    (fun i a b => nth ((i * 2 + b) * 2 + a) (map Q2R [1; 2; 3; 4; 5; 6; 7; 8; 9; 10; 11; 12]%Q) 0%R) 1%R 2%R false 0%Z eq_refl) as ((o & w' & E & _ & _ & L & T) & _).
  - split; [show_variable (MArray 1 3 [0; 1 # 2; 1]%Q)|]. split; [show_variable (MArray 1 2 [1; 2]%Q)|]. split; [show_variable (MArray 1 1 [2]%Q)|]. split; [show_variable (MArray 1 2 [-1 # 1; 1]%Q)|].
    exists [1; 2; 3; 4; 5; 6; 7; 8; 9; 10; 11; 12]%Q. split; [|split; [cbn; lia|reflexivity]]. eexists. split; [reflexivity|]. split; [discriminate|split; reflexivity].
  - split; [discriminate|]. split; [discriminate|]. split; [discriminate|]. split; [exact (rows_vector [0; 1 # 2; 1]%Q)|]. split; [exact (rows_vector [1; 2]%Q)|].
    split; [exists (reals 1 1 [2]%Q); split; [reflexivity|]; repeat split; intros [|j] [|i] J I; try (cbn in *; lia); reflexivity|].
    split; [exact (rows_vector [-1 # 1; 1]%Q)|]. eexists. split; [reflexivity|]. split; [reflexivity|]. intros i b a I B A. cbn [map length] in *. apply nth_error_nth'. cbn [length]. nia.
  - apply rises_ascending; reflexivity.
  - apply c112_mesh; [reflexivity|cbn; lia].
  - apply c112_mesh; [reflexivity|cbn; lia].
  - unfold Q2R; cbn; lra.
  - lra.
  - exists o, w'. split; [exact E|]. split; [exact L|]. intros m M. destruct (T 2 ltac:(cbn; lia)) as (m' & M' & H). rewrite M in M'. injection M' as <-. exact H.
Qed.
Example C112_depr_example : forall rn rs, exists o w', read_file rn rs (depr_load_from false 0) (c112_world c112_depr_sets) 0 KHdf (str_of "l.h5") LOk (Tm 0 0 0 0 0 0 0) = (Ok o, w') /\ length (rd_ms o) = 2.
Proof.
  intros rn rs.
  destruct (C112_depr_load rn rs (c112_world c112_depr_sets) 0 KHdf (str_of "l.h5") (Tm 0 0 0 0 0 0 0) (HFile [] [] c112_depr_sets []) c112_depr (map Q2R [1; 2]%Q) (map Q2R [1; 2]%Q) (map Q2R [-1 # 1; 1]%Q)
    (fun i a b => nth ((i * 2 + b) * 2 + a) (map Q2R [1; 2; 3; 4; 5; 6; 7; 8]%Q) 0%R) "ev" 510998.9461%R false 0%Z eq_refl) as ((o & w' & E & _ & _ & L & T) & _).
  - split; [show_variable (MArray 1 2 [1; 2]%Q)|]. split; [show_variable (MArray 1 2 [1; 2]%Q)|]. split; [show_variable (MArray 1 2 [-1 # 1; 1]%Q)|]. split; [show_variable (MArray 2 4 [1; 2; 3; 4; 5; 6; 7; 8]%Q)|].
    split; [show_variable (MArray 1 2 [1; 2]%Q)|]. split; [reflexivity|]. split; [reflexivity|]. split; [|eexists; split; [reflexivity|split; reflexivity]].
    cbn. intros H. repeat destruct H as [H|H]; try discriminate H; exact H.
  - split; [discriminate|]. split; [discriminate|]. split; [discriminate|]. split; [exact (rows_vector [1; 2]%Q)|]. split; [exact (rows_vector [1; 2]%Q)|]. split; [exact (rows_vector [-1 # 1; 1]%Q)|].
    eexists. split; [reflexivity|]. split; [|left; split; reflexivity]. split; [reflexivity|]. intros i b a I B A. cbn [map length] in *. apply nth_error_nth'. cbn [length reals NumericModel.ma_data map]. nia.
  - apply rises_ascending; reflexivity.
  - apply c112_mesh; [reflexivity|cbn; lia].
  - apply c112_mesh; [reflexivity|cbn; lia].
  - right. exists (map Q2R [1; 2]%Q). split; [exact (rows_vector [1; 2]%Q)|]. split; [reflexivity|]. intros i x X. replace x with (nth ((0 * 2 + 0) * 2 + i) (map Q2R [1; 2; 3; 4; 5; 6; 7; 8]%Q) 0%R); [apply close_refl|].
    destruct i as [|[|i]]; [injection X as <-; reflexivity|injection X as <-; reflexivity|destruct i; discriminate X].
  - left. reflexivity.
  - left. reflexivity.
  - reflexivity.
  - right. left. split; reflexivity.
  - exists o, w'. split; [exact E|exact L].
Qed.
