(** Proofs about numeric magnetic fields in files. *)
From Coq Require Import Reals QArith Qreals ZArith Lia.
From Verif Require Import Base SettingsModel SdtModel SessionModel SFileModel SFileProofs TypedModel HdfModel HdfSpec HdfProofs DomainModel NumericModel NumericSpec NumericProofs NumericArrays NumericProps FieldFileModel FieldFileSpec.
Local Open Scope Z_scope.

(** * Reading *)
Definition gives {A : Type} (x : reading A) (v : option A) : Prop := x = match v with Some a => RYes a | None => RNo end.
Record provides (s : source) (m : mfile Q str) : Prop := {
  pr_name : src_text s (str_of "name") = need (f_name Q str m);
  pr_desc : src_text s (str_of "desc") = need (f_desc Q str m);
  pr_maxis : exists q, gives (src_list s (str_of "maxis")) q /\ f_maxis Q str m = option_map (map Q2R) q;
  pr_r : gives (src_list s (str_of "r")) (f_r Q str m);
  pr_z : gives (src_list s (str_of "z")) (f_z Q str m);
  pr_Br : gives (src_array s (str_of "Br")) (f_Br Q str m);
  pr_Bphi : gives (src_array s (str_of "Bphi")) (f_Bphi Q str m);
  pr_Bz : gives (src_array s (str_of "Bz")) (f_Bz Q str m);
  pr_Psi : gives (src_array s (str_of "Psi")) (f_Psi Q str m);
  pr_verBr : gives (src_list s (str_of "verBr")) (f_verBr Q str m);
  pr_verBphi : gives (src_list s (str_of "verBphi")) (f_verBphi Q str m);
  pr_verBz : gives (src_list s (str_of "verBz")) (f_verBz Q str m);
  pr_wall : exists q, gives (src_array s (str_of "wall")) q /\ f_wall Q str m = option_map to_reals q;
  pr_sep : exists q, gives (src_array s (str_of "separatrix")) q /\ f_sep Q str m = option_map to_reals q }.

Lemma plainly_gives : forall A (x : reading A) v, gives x v -> plainly x = need v.
Proof. intros A x v ->. destruct v; reflexivity. Qed.
Lemma tried_gives : forall A (x : reading A) v, gives x v -> tried x = Ok v.
Proof. intros A x v ->. destruct v; reflexivity. Qed.
Lemma obind_ext : forall A B (x : outcome A) (f g : A -> outcome B), (forall v, f v = g v) -> obind x f = obind x g.
Proof. intros A B [v| |] f g H; cbn [obind]; auto. Qed.
Lemma optional_map : forall A B C (x : option A) (h : A -> B) (g : B -> outcome C),
  optional (option_map h x) g = optional x (fun a => g (h a)).
Proof. intros A B C [a|] h g; reflexivity. Qed.

Lemma provides_load : forall s m, provides s m -> load_from s = load Q str Qeq_bool Qbelow m.
Proof.
  intros s m [P1 P2 [qa [P3 P3']] P4 P5 P6 P7 P8 P9 P10 P11 P12 [qw [P13 P13']] [qs [P14 P14']]].
  unfold load_from, load. rewrite P1, P2, P3', P13', P14', (plainly_gives _ _ _ P3), (plainly_gives _ _ _ P4), (plainly_gives _ _ _ P5),
    (plainly_gives _ _ _ P6), (plainly_gives _ _ _ P7), (plainly_gives _ _ _ P8), (tried_gives _ _ _ P9), (tried_gives _ _ _ P10),
    (tried_gives _ _ _ P11), (tried_gives _ _ _ P12), (tried_gives _ _ _ P13), (tried_gives _ _ _ P14).
  apply obind_ext; intros name. apply obind_ext; intros desc.
  destruct qa as [[|a [|b [|c qa]]]|]; try reflexivity. cbn [option_map need obind map]. cbv zeta.
  repeat first [ reflexivity | rewrite optional_map | apply obind_ext; intros ? | progress cbn [obind] ].
Qed.

Lemma pieces_all : forall (A : Type) k n (l : list A), length l = (k * n)%nat -> concat (pieces k n l) = l.
Proof.
  induction k as [|k IH]; intros n l H; [destruct l; [reflexivity|discriminate]|]. cbn [pieces concat].
  rewrite Nat.mul_succ_l in H. rewrite IH; [apply firstn_skipn|]. rewrite skipn_length. lia.
Qed.
Lemma numeric_of : forall t, t <> HString -> SFileModel.numeric t = true.
Proof. intros [] H; try reflexivity; contradiction. Qed.
Lemma array_in_length : forall x n a, array_in x n a -> length (ma_data a) = (ma_rows a * ma_cols a)%nat /\ ma_rows a <> 0%nat.
Proof. intros x n a [d [_ [_ [_ [L [NR _]]]]]]. split; assumption. Qed.
Lemma array_source : forall rn rs k x n a, array_in x n a -> exists rows, src_doubles (hdf_source rn rs k x) n = RYes (Z.of_nat (ma_rows a), Z.of_nat (ma_cols a), rows) /\
  concat rows = ma_data a /\ length rows = ma_rows a.
Proof.
  intros rn rs k x n a [d [F [T [D [L [NR M]]]]]]. cbn [hdf_source src_doubles]. rewrite F. cbn [kind_read]. unfold h5_get2d. rewrite F.
  rewrite (numeric_of _ T). destruct M as [M|[M0 M]]; rewrite M; cbn [obind].
  - eexists; split; [reflexivity|]. rewrite !Nat2Z.id, D. split; [apply pieces_all; exact L|].
    clear. generalize (ma_data a). induction (ma_rows a) as [|r IH]; intros l; [reflexivity|]. cbn [pieces length]. f_equal. apply IH.
  - rewrite M0. eexists; split; [reflexivity|]. rewrite D. split; [apply app_nil_r|reflexivity].
Qed.
Lemma array_reading : forall rn rs k x n a, array_in x n a -> src_array (hdf_source rn rs k x) n = RYes a.
Proof.
  intros rn rs k x n a H. destruct (array_source rn rs k x n a H) as [rows [E [C L]]]. unfold src_array. rewrite E, !Nat2Z.id, C.
  destruct a; reflexivity.
Qed.
Lemma list_reading : forall rn rs k x n l, list_in x n l -> src_list (hdf_source rn rs k x) n = RYes l.
Proof.
  intros rn rs k x n l [a [H [D S]]]. destruct (array_source rn rs k x n a H) as [rows [E [C L]]]. unfold src_list. rewrite E.
  cbn [get_list obind]. assert (B : ((Z.of_nat (ma_rows a) =? 1) || (Z.of_nat (ma_cols a) =? 1))%bool = true).
  { destruct S as [S|S]; rewrite S; [reflexivity|]. apply Bool.orb_true_r. }
  unfold get_list; cbn [obind]. rewrite B. destruct rows as [|r rows]; [exfalso; exact (proj2 (array_in_length _ _ _ H) (eq_sym L))|].
  rewrite C, D. reflexivity.
Qed.
Lemma missing_reading : forall rn rs k x n, find n (h_sets x) = None -> src_doubles (hdf_source rn rs k x) n = RNo.
Proof. intros rn rs k x n F. cbn [hdf_source src_doubles]. rewrite F. reflexivity. Qed.
Lemma missing_array : forall rn rs k x n, find n (h_sets x) = None -> src_array (hdf_source rn rs k x) n = RNo.
Proof. intros. unfold src_array. rewrite missing_reading by assumption. reflexivity. Qed.
Lemma missing_list : forall rn rs k x n, find n (h_sets x) = None -> src_list (hdf_source rn rs k x) n = RNo.
Proof. intros. unfold src_list. rewrite missing_reading by assumption. reflexivity. Qed.
Lemma missing_text : forall rn rs k x n, find n (h_sets x) = None -> src_text (hdf_source rn rs k x) n = Throw.
Proof.
  intros rn rs k x n F. cbn [hdf_source src_text kind_read]. destruct k; cbn [obind].
  - unfold hdf_text. rewrite F. reflexivity.
  - unfold mat_get_string. rewrite F. reflexivity.
Qed.
Lemma text_reading : forall rn rs k x n s, text_in k x n s -> src_text (hdf_source rn rs k x) n = Ok s.
Proof.
  intros rn rs k x n s [N [d [F D]]]. cbn [hdf_source src_text]. destruct k.
  - cbn [kind_read]. unfold hdf_text. rewrite F. destruct D as [T D]. rewrite T, D, char_text, (until_nul_id _ N). reflexivity.
  - destruct D as [D|D]; subst d.
    + rewrite (stored_reads rn rs KHdf KMat (WText n s) x (RdText n) (HText s)); [reflexivity|exact F|apply rb_text_mat; exact N].
    + rewrite (stored_reads rn rs KMat KMat (WText n s) x (RdText n) (HText s)); [reflexivity|exact F|apply rb_text; exact N].
Qed.

Lemma holds_provides : forall rn rs k x m, holds k x m -> provides (hdf_source rn rs k x) m.
Proof.
  intros rn rs k x m (H1 & H2 & H3 & H4 & H5 & H6 & H7 & H8 & H9 & H10 & H11 & H12 & H13 & H14).
  split.
  - destruct (f_name Q str m); [apply text_reading|apply missing_text]; assumption.
  - destruct (f_desc Q str m); [apply text_reading|apply missing_text]; assumption.
  - destruct (f_maxis Q str m) as [l|]; [destruct H3 as [q [H3 ->]]; exists (Some q)|exists None]; split; try reflexivity;
      [apply list_reading|apply missing_list]; assumption.
  - destruct (f_r Q str m); [apply list_reading|apply missing_list]; assumption.
  - destruct (f_z Q str m); [apply list_reading|apply missing_list]; assumption.
  - destruct (f_Br Q str m); [apply array_reading|apply missing_array]; assumption.
  - destruct (f_Bphi Q str m); [apply array_reading|apply missing_array]; assumption.
  - destruct (f_Bz Q str m); [apply array_reading|apply missing_array]; assumption.
  - destruct (f_Psi Q str m); [apply array_reading|apply missing_array]; assumption.
  - destruct (f_verBr Q str m); [apply list_reading|apply missing_list]; assumption.
  - destruct (f_verBphi Q str m); [apply list_reading|apply missing_list]; assumption.
  - destruct (f_verBz Q str m); [apply list_reading|apply missing_list]; assumption.
  - destruct (f_wall Q str m) as [[r c l]|]; [destruct H13 as [q [H13 [E1 [E2 E3]]]]; cbn [ma_rows ma_cols ma_data] in E1, E2, E3; subst; exists (Some q)|exists None];
      split; try reflexivity; [apply array_reading|apply missing_array]; assumption.
  - destruct (f_sep Q str m) as [[r c l]|]; [destruct H14 as [q [H14 [E1 [E2 E3]]]]; cbn [ma_rows ma_cols ma_data] in E1, E2, E3; subst; exists (Some q)|exists None];
      split; try reflexivity; [apply array_reading|apply missing_array]; assumption.
Qed.

Lemma holds_load : forall rn rs k x m, holds k x m -> load_from (hdf_source rn rs k x) = load Q str Qeq_bool Qbelow m.
Proof. intros. apply provides_load. apply holds_provides. assumption. Qed.

(** SDT files. *)
Lemma sdt_array_reading : forall rd n a, sdt_array rd n a -> src_array (sdt_source rd) n = RYes a.
Proof. intros rd n [r c l] [rows [E [N C]]]. unfold src_array. cbn [sdt_source src_doubles]. rewrite E. cbn [ma_rows ma_cols ma_data] in *. rewrite !Nat2Z.id, C. reflexivity. Qed.
Lemma sdt_list_reading : forall rd n l, sdt_list rd n l -> src_list (sdt_source rd) n = RYes l.
Proof.
  intros rd n l [a [[rows [E [N C]]] [D S]]]. unfold src_list. cbn [sdt_source src_doubles]. rewrite E. unfold get_list; cbn [obind].
  assert (B : ((Z.of_nat (ma_rows a) =? 1) || (Z.of_nat (ma_cols a) =? 1))%bool = true).
  { destruct S as [S|S]; rewrite S; [reflexivity|]. apply Bool.orb_true_r. }
  rewrite B. destruct rows; [contradiction|]. rewrite C, D. reflexivity.
Qed.
Lemma sdt_missing_array : forall rd n, fst (do_read rd (RDoubles n)) = Throw -> src_array (sdt_source rd) n = RNo.
Proof. intros rd n E. unfold src_array. cbn [sdt_source src_doubles]. rewrite E. reflexivity. Qed.
Lemma sdt_missing_list : forall rd n, fst (do_read rd (RDoubles n)) = Throw -> src_list (sdt_source rd) n = RNo.
Proof. intros rd n E. unfold src_list. cbn [sdt_source src_doubles]. rewrite E. reflexivity. Qed.
Lemma sdt_holds_load : forall rd m, sdt_holds rd m -> load_from (sdt_source rd) = load Q str Qeq_bool Qbelow m.
Proof.
  intros rd m (H1 & H2 & H3 & H4 & H5 & H6 & H7 & H8 & H9 & H10 & H11 & H12 & H13 & H14). apply provides_load. split.
  - cbn [sdt_source src_text]. destruct (f_name Q str m); [unfold sdt_text in H1|]; rewrite H1; reflexivity.
  - cbn [sdt_source src_text]. destruct (f_desc Q str m); [unfold sdt_text in H2|]; rewrite H2; reflexivity.
  - destruct (f_maxis Q str m) as [l|]; [destruct H3 as [q [H3 ->]]; exists (Some q)|exists None]; split; try reflexivity;
      [apply sdt_list_reading|apply sdt_missing_list]; assumption.
  - destruct (f_r Q str m); [apply sdt_list_reading|apply sdt_missing_list]; assumption.
  - destruct (f_z Q str m); [apply sdt_list_reading|apply sdt_missing_list]; assumption.
  - destruct (f_Br Q str m); [apply sdt_array_reading|apply sdt_missing_array]; assumption.
  - destruct (f_Bphi Q str m); [apply sdt_array_reading|apply sdt_missing_array]; assumption.
  - destruct (f_Bz Q str m); [apply sdt_array_reading|apply sdt_missing_array]; assumption.
  - destruct (f_Psi Q str m); [apply sdt_array_reading|apply sdt_missing_array]; assumption.
  - destruct (f_verBr Q str m); [apply sdt_list_reading|apply sdt_missing_list]; assumption.
  - destruct (f_verBphi Q str m); [apply sdt_list_reading|apply sdt_missing_list]; assumption.
  - destruct (f_verBz Q str m); [apply sdt_list_reading|apply sdt_missing_list]; assumption.
  - destruct (f_wall Q str m) as [[r c l]|]; [destruct H13 as [q [H13 [E1 [E2 E3]]]]; cbn [ma_rows ma_cols ma_data] in E1, E2, E3; subst; exists (Some q)|exists None];
      split; try reflexivity; [apply sdt_array_reading|apply sdt_missing_array]; assumption.
  - destruct (f_sep Q str m) as [[r c l]|]; [destruct H14 as [q [H14 [E1 [E2 E3]]]]; cbn [ma_rows ma_cols ma_data] in E1, E2, E3; subst; exists (Some q)|exists None];
      split; try reflexivity; [apply sdt_array_reading|apply sdt_missing_array]; assumption.
Qed.

(** Opening to read. *)
Lemma load_file_open : forall rn rs w j k f t x, v_fs w f = FHdf x ->
  load_file rn rs w j k f LOk t =
  (load_from (hdf_source rn rs k x),
   HWorld (v_fs w) (match load_from (hdf_source rn rs k x) with
                    | Ok _ => put_obj (put_obj (v_obj w) j (Some (HObj k (PFile f false)))) j (Some (HObj k PNull))
                    | _ => put_obj (v_obj w) j (Some (HObj k (PFile f false))) end)).
Proof.
  intros rn rs w j k f t x F. unfold load_file, hdf_create_obj, hdf_open. rewrite F. cbn [o_kind v_fs v_obj]. rewrite F. cbv zeta.
  destruct (load_from (hdf_source rn rs k x)); reflexivity.
Qed.
Lemma load_file_files : forall rn rs w j k f l t, v_fs (snd (load_file rn rs w j k f l t)) = v_fs w.
Proof.
  intros. unfold load_file, hdf_create_obj, hdf_open.
  destruct (v_fs w f) as [| |x] eqn:F; try reflexivity.
  destruct l; try reflexivity. cbn [o_kind v_fs v_obj]. rewrite F. cbv zeta. cbn [snd].
  destruct (load_from (hdf_source rn rs k x)); reflexivity.
Qed.
Lemma load_file_missing : forall rn rs w j k f l t, (forall x, v_fs w f <> FHdf x) -> load_file rn rs w j k f l t = (Throw, HWorld (v_fs w) (v_obj w)).
Proof.
  intros rn rs w j k f l t H. unfold load_file, hdf_create_obj, hdf_open. destruct (v_fs w f) as [| |x]; [reflexivity|reflexivity|].
  exfalso; apply (H x); reflexivity.
Qed.

(** A variable that is missing. *)
Lemma orient_ok : forall A nz (a : marray A), length (ma_data a) = (ma_rows a * ma_cols a)%nat /\ ma_rows a <> 0%nat -> exists b, orient nz a = Ok b.
Proof.
  intros A nz a [L NR]. unfold orient. destruct (Nat.eqb (ma_rows a) nz); [eexists; reflexivity|].
  destruct (ma_data a) as [|v0 data] eqn:D.
  - unfold transpose. rewrite <- L, release_ok by exact NR. cbn [length]. eexists; reflexivity.
  - destruct (transpose_ok A a (ma_rows a) (ma_cols a) (fun j i => nth (j * ma_cols a + i) (ma_data a) v0)) as [b [E _]].
    + repeat split; [rewrite D; exact L|]. intros j i J I. apply nth_error_nth'. rewrite D, L.
      apply Nat.lt_le_trans with (j * ma_cols a + ma_cols a)%nat; [lia|]. rewrite <- Nat.mul_succ_l. apply Nat.mul_le_mono_r. lia.
    + exact NR.
    + exists b; exact E.
Qed.
Lemma array_found : forall x n a, array_in x n a -> find n (h_sets x) <> None.
Proof. intros x n a [d [F _]]. congruence. Qed.
Lemma list_found : forall x n a, list_in x n a -> find n (h_sets x) <> None.
Proof. intros x n a [b [F _]]. exact (array_found _ _ _ F). Qed.
Lemma axis_found : forall x n a, axis_in x n a -> find n (h_sets x) <> None.
Proof. intros x n a [b [F _]]. exact (list_found _ _ _ F). Qed.
Lemma text_found : forall k x n a, text_in k x n a -> find n (h_sets x) <> None.
Proof. intros k x n a [_ [d [F _]]]. congruence. Qed.

Lemma missing_load : forall k x m n, holds k x m -> In n required -> find n (h_sets x) = None -> load Q str Qeq_bool Qbelow m = Throw.
Proof.
  intros k x m n (H1 & H2 & H3 & H4 & H5 & H6 & H7 & H8 & _) I F. unfold load.
  destruct (f_name Q str m) as [a1|]; [|reflexivity]. destruct (f_desc Q str m) as [a2|]; [|reflexivity]. cbn [need obind].
  destruct (f_maxis Q str m) as [[|p [|q [|? ?]]]|]; try reflexivity. cbn [need obind].
  destruct (f_r Q str m) as [a4|]; [|reflexivity]. destruct (f_z Q str m) as [a5|]; [|reflexivity]. cbn [need obind].
  destruct (f_Br Q str m) as [a6|]; [|reflexivity]. cbn [need obind]. cbv zeta.
  destruct (orient_ok Q (length a5) a6 (array_in_length _ _ _ H6)) as [b6 ->]. cbn [obind].
  destruct (f_Bphi Q str m) as [a7|]; [|reflexivity]. cbn [need obind].
  destruct (orient_ok Q (length a5) a7 (array_in_length _ _ _ H7)) as [b7 ->]. cbn [obind].
  destruct (f_Bz Q str m) as [a8|]; [|reflexivity]. exfalso.
  cbn [maybe] in *. unfold required in I. cbn [map In] in I.
  destruct I as [I|[I|[I|[I|[I|[I|[I|[I|[]]]]]]]]]; subst n.
  - exact (text_found _ _ _ _ H1 F).
  - exact (text_found _ _ _ _ H2 F).
  - exact (axis_found _ _ _ H3 F).
  - exact (list_found _ _ _ H4 F).
  - exact (list_found _ _ _ H5 F).
  - exact (array_found _ _ _ H6 F).
  - exact (array_found _ _ _ H7 F).
  - exact (array_found _ _ _ H8 F).
Qed.
Lemma axis_load : forall (m : mfile Q str) l, f_maxis Q str m = Some l -> length l <> 2%nat -> load Q str Qeq_bool Qbelow m = Throw.
Proof.
  intros m l E L. unfold load. rewrite E. destruct (f_name Q str m); [|reflexivity]. destruct (f_desc Q str m); [|reflexivity]. cbn [need obind].
  destruct l as [|p [|q [|? ?]]]; try reflexivity. exfalso; apply L; reflexivity.
Qed.

(** * Writing *)
Definition wname (w : hwrite) : str :=
  match w with WNums _ n _ | WRows _ n _ _ | WMulti _ n _ _ | WText n _ | WGroup n => n | WAttr d _ _ | WAttrText d _ _ => d end.
Definition simple (w : hwrite) : Prop :=
  match w with
  | WNums HDouble _ _ | WMulti HDouble _ _ _ | WText _ _ => True
  | WRows HDouble _ _ (_ :: _) => True
  | _ => False
  end.
Definition bare (n : str) : Prop := n <> [] /\ ~ In "/"%char n.
Lemma created : forall x n d, bare n -> ~ used x n -> exists y, h_create x n d = Ok y /\ h_groups y = h_groups x /\ h_attrs y = h_attrs x /\
  find n (h_sets y) = Some d /\ (forall k, k <> n -> find k (h_sets y) = find k (h_sets x)).
Proof.
  intros x n d S U. destruct (proj1 (h_create_iff x n d)) as [_ K]. destruct K as [y E]; [split; [exists n; split; [exact (proj1 S)|split; [exact (proj2 S)|left; reflexivity]]|exact U]|].
  exists y. destruct (h_create_ok _ _ _ _ E) as (_ & _ & F & O & G & A & _). repeat split; assumption.
Qed.
Lemma attributed : forall x n a c d, attrs_ok x -> find n (h_sets x) = None -> forall y, h_attrs y = h_attrs x -> find n (h_sets y) = Some d ->
  exists z, h_add_attr y n a c = Ok z /\ h_sets z = h_sets y /\ h_groups z = h_groups y.
Proof.
  intros x n a c d A F y E G. unfold h_add_attr, h5_has. rewrite G, E.
  destruct (find_attr n a (h_attrs x)) as [b|] eqn:B; [destruct (A _ _ _ B) as [e H]; congruence|].
  eexists; split; [reflexivity|]. split; reflexivity.
Qed.
Lemma one_write : forall k x w, attrs_ok x -> simple w -> bare (wname w) -> ~ used x (wname w) ->
  exists y, kind_write k x w = (Ok tt, y) /\ h_groups y = h_groups x /\ (forall n, n <> wname w -> find n (h_sets y) = find n (h_sets x)).
Proof.
  intros k x w A S N U.
  assert (F : find (wname w) (h_sets x) = None).
  { destruct (find (wname w) (h_sets x)) as [d|] eqn:F; [|reflexivity]. exfalso; apply U. right; exists d; exact F. }
  assert (P : forall d, exists y, h_create x (wname w) d = Ok y /\ h_groups y = h_groups x /\ h_attrs y = h_attrs x /\
    find (wname w) (h_sets y) = Some d /\ (forall k, k <> wname w -> find k (h_sets y) = find k (h_sets x))) by (intros d; apply created; assumption).
  destruct k.
  - destruct w as [t n l|t n nc rows|t n dims data|n v|n|d n v|d n v]; try contradiction; cbn [wname kind_write hdf_write] in *.
    + destruct (P (Dataset t [Z.of_nat (length l)] l)) as (y & -> & G & _ & _ & O). exists y; auto.
    + destruct rows as [|r rows]; [destruct t; contradiction|]. destruct (P (Dataset t [Z.of_nat (length (r :: rows)); Z.of_nat nc] (concat (r :: rows)))) as (y & E & G & _ & _ & O).
      rewrite E. exists y; auto.
    + destruct (P (Dataset t dims data)) as (y & -> & G & _ & _ & O). exists y; auto.
    + destruct (P (Dataset HString [Z.of_nat (length v)] (text_data v))) as (y & -> & G & _ & _ & O). exists y; auto.
  - destruct w as [t n l|t n nc rows|t n dims data|n v|n|d n v|d n v]; try contradiction; cbn [wname kind_write mat_write hdf_write] in *.
    + destruct (P (Dataset t [Z.of_nat (length l)] l)) as (y & -> & G & _ & _ & O). exists y; auto.
    + destruct rows as [|r rows]; [destruct t; contradiction|]. destruct (P (Dataset t [Z.of_nat (length (r :: rows)); Z.of_nat nc] (concat (r :: rows)))) as (y & E & G & B & Y & O).
      rewrite E. destruct (attributed x n class_name (AText (mat_class t)) _ A F y B Y) as (z & -> & Z1 & Z2).
      exists z; split; [reflexivity|]. split; [congruence|]. intros q Q1. rewrite Z1. apply O; exact Q1.
    + destruct t; try contradiction. destruct (P (Dataset HDouble dims data)) as (y & -> & G & B & Y & O).
      destruct (attributed x n class_name (AText (mat_class HDouble)) _ A F y B Y) as (z & -> & Z1 & Z2).
      exists z; split; [reflexivity|]. split; [congruence|]. intros q Q1. rewrite Z1. apply O; exact Q1.
    + destruct (P (Dataset HU16 [Z.of_nat (length v); 1] (map (fun c => inject_Z (ushort_of_char c)) v))) as (y & E & G & B & Y & O).
      assert (M : mat_text x n v <> UB /\ exists z, mat_text x n v = Ok z).
      { split; [apply mat_text_iff; exact A|]. apply (mat_text_iff x n v A). split; [exists n; split; [exact (proj1 N)|split; [exact (proj2 N)|left; reflexivity]]|exact U]. }
      destruct M as [_ [z M]]. rewrite M. exists z; split; [reflexivity|].
      unfold mat_text in M. rewrite E in M. cbn [obind] in M.
      destruct (h_add_attr y n class_name (AText (str_of "char"))) as [x2| |] eqn:A2; try discriminate M. cbn [obind] in M.
      destruct (h_add_attr_ok _ _ _ _ _ A2) as (_ & _ & _ & _ & _ & G2 & S2 & _). destruct (h_add_attr_ok _ _ _ _ _ M) as (_ & _ & _ & _ & _ & G3 & S3 & _).
      split; [congruence|]. intros q Q1. rewrite S3, S2. apply O; exact Q1.
Qed.

Lemma all_writes : forall k ws x, attrs_ok x -> NoDup (map wname ws) ->
  (forall w, In w ws -> simple w /\ bare (wname w) /\ ~ used x (wname w)) ->
  exists y, write_all k x ws = (Ok tt, y) /\ kept x y /\ h_groups y = h_groups x /\ (forall w, In w ws -> HdfProofs.stored k w y) /\
    (forall n, ~ In n (map wname ws) -> find n (h_sets y) = find n (h_sets x)).
Proof.
  intros k ws. induction ws as [|w ws IH]; intros x A ND H.
  - exists x. split; [reflexivity|]. split; [apply kept_refl|]. split; [reflexivity|]. split; [intros w []|reflexivity].
  - destruct (H w (or_introl eq_refl)) as [H1 [H2 H3]]. destruct (one_write k x w A H1 H2 H3) as (y & E & G & O).
    assert (A' : attrs_ok y) by exact (kind_write_attrs _ _ _ _ _ E A).
    cbn [map] in ND. apply NoDup_cons_iff in ND. destruct ND as [N1 N2].
    destruct (IH y A' N2) as (z & E2 & K2 & G2 & S2 & O2).
    { intros v I. destruct (H v (or_intror I)) as [V1 [V2 V3]]. split; [exact V1|]. split; [exact V2|]. intros U. apply V3.
      assert (D : wname v <> wname w). { intros D. apply N1. rewrite <- D. apply in_map. exact I. }
      destruct U as [U|[d U]]; [left; rewrite <- G; exact U|right; exists d; rewrite <- (O _ D); exact U]. }
    exists z. cbn [write_all]. rewrite E. split; [exact E2|].
    split; [exact (kept_trans _ _ _ (kind_write_kept _ _ _ _ _ E) K2)|]. split; [congruence|]. split.
    + intros v [V|V]; [subst v; exact (stored_kept _ _ _ _ K2 (kind_write_stored _ _ _ _ E))|exact (S2 v V)].
    + intros n N. cbn [map In] in N. rewrite O2; [apply O; intros D; apply N; left; symmetry; exact D|]. intros I; apply N; right; exact I.
Qed.

(** The content of a saved file. *)
Definition grid_array (d : fdata) (l : list Q) : marray Q := MArray (length (e_Z d)) (length (e_R d)) l.
Definition contour_arr (c : option (list (Q * Q))) : option (marray R) :=
  match c with None | Some [] => None | Some l => Some (MArray 2 (length l) (map (fun p => Q2R (fst p)) l ++ map (fun p => Q2R (snd p)) l)) end.
Definition content (d : fdata) : mfile Q str :=
  let nr := length (e_R d) in
  MFile Q str (Some (e_name d)) (Some (e_desc d)) (Some [Q2R (fst (e_axis d)); Q2R (snd (e_axis d))]) (Some (e_R d)) (Some (e_Z d))
    (Some (grid_array d (e_Br d))) (Some (grid_array d (e_Bphi d))) (Some (grid_array d (e_Bz d))) (option_map (grid_array d) (e_Psi d))
    (Some (firstn nr (e_Br d))) (Some (firstn nr (e_Bphi d))) (Some (firstn nr (e_Bz d)))
    (contour_arr (e_wall d)) (contour_arr (e_sep d)).

Lemma elements_ok : forall n l, (n <= length l)%nat -> elements n l = Ok (firstn n l).
Proof. intros n l H. unfold elements. destruct (length l <? n)%nat eqn:E; [apply Nat.ltb_lt in E; lia|reflexivity]. Qed.
Lemma elements_all : forall n l, length l = n -> elements n l = Ok l.
Proof. intros n l H. rewrite elements_ok by lia. rewrite <- H, firstn_all. reflexivity. Qed.

Definition calls_of (d : fdata) (psi : list Q) : list hwrite :=
  let nr := length (e_R d) in let dims := [Z.of_nat (length (e_Z d)); Z.of_nat nr] in
  [WMulti HDouble (str_of "Bphi") dims (e_Bphi d); WMulti HDouble (str_of "Br") dims (e_Br d); WMulti HDouble (str_of "Bz") dims (e_Bz d);
   WText (str_of "desc") (e_desc d); WText (str_of "name") (e_name d);
   WNums HDouble (str_of "maxis") [fst (e_axis d); snd (e_axis d)];
   WMulti HDouble (str_of "Psi") dims psi;
   WNums HDouble (str_of "r") (e_R d); WNums HDouble (str_of "z") (e_Z d);
   WNums HDouble (str_of "verBphi") (firstn nr (e_Bphi d)); WNums HDouble (str_of "verBr") (firstn nr (e_Br d)); WNums HDouble (str_of "verBz") (firstn nr (e_Bz d))] ++
  contour_call (str_of "separatrix") (e_sep d) ++ contour_call (str_of "wall") (e_wall d).
Lemma save_calls_ok : forall d, savable d -> exists psi, e_Psi d = Some psi /\ length psi = (length (e_Z d) * length (e_R d))%nat /\ save_calls d = Ok (calls_of d psi).
Proof.
  intros d (N & L1 & L2 & L3 & [psi [P L4]] & _). exists psi. split; [exact P|]. rewrite Nat.mul_comm in L1, L2, L3, L4. split; [exact L4|].
  unfold save_calls. rewrite P. cbv zeta. rewrite (elements_all _ _ L1), (elements_all _ _ L2), (elements_all _ _ L3), (elements_all _ _ L4). cbn [obind].
  assert (M : (length (e_R d) <= length (e_Z d) * length (e_R d))%nat).
  { destruct (length (e_Z d)) as [|q]; [exfalso; apply N; rewrite Nat.mul_comm; reflexivity|]. rewrite Nat.mul_succ_l. lia. }
  rewrite !elements_ok by lia. reflexivity.
Qed.
Definition all_names : list str := map str_of ["Bphi"; "Br"; "Bz"; "desc"; "name"; "maxis"; "Psi"; "r"; "z"; "verBphi"; "verBr"; "verBz"; "separatrix"; "wall"]%string.
Lemma all_names_fine : NoDup all_names /\ Forall bare all_names.
Proof.
  split.
  - unfold all_names; cbn [map]. repeat constructor; cbn [In]; intros H; repeat destruct H as [H|H]; try discriminate H; assumption.
  - unfold all_names; cbn [map]. repeat constructor; cbn; intros H; repeat destruct H as [H|H]; try discriminate H; assumption.
Qed.
Lemma contour_call_names : forall n c, map wname (contour_call n c) = [n] \/ map wname (contour_call n c) = [].
Proof. intros n [[|p l]|]; cbn; auto. Qed.
Lemma nodup_tail : forall (A : Type) (m k : list A), NoDup (m ++ k) -> NoDup k.
Proof. intros A m k H. induction m as [|a m IH]; [exact H|]. apply NoDup_cons_iff in H. apply IH. exact (proj2 H). Qed.
Lemma nodup_sub : forall (A : Type) (l m k : list A), NoDup (l ++ m ++ k) -> NoDup (l ++ k).
Proof. intros A l m k H. induction l as [|a l IH]; cbn [app] in *; [exact (nodup_tail _ _ _ H)|].
  apply NoDup_cons_iff in H. destruct H as [H1 H2]. apply NoDup_cons; [|exact (IH H2)]. intros I. apply H1. apply in_app_or in I. apply in_or_app. destruct I; [left; assumption|right; apply in_or_app; right; assumption]. Qed.
Lemma calls_names : forall d psi, NoDup (map wname (calls_of d psi)) /\ (forall n, In n (map wname (calls_of d psi)) -> In n all_names).
Proof.
  intros d psi. destruct all_names_fine as [ND _]. unfold calls_of. cbv zeta. rewrite !map_app.
  destruct (contour_call_names (str_of "separatrix") (e_sep d)) as [-> | ->]; destruct (contour_call_names (str_of "wall") (e_wall d)) as [-> | ->]; cbn [map wname].
  - split; [exact ND|intros n I; exact I].
  - rewrite app_nil_r. split.
    + rewrite <- (app_nil_r (_ ++ _)). apply (nodup_sub _ _ [str_of "wall"] []). exact ND.
    + intros n I. apply in_app_or in I. unfold all_names. cbn [map In] in *. intuition.
  - rewrite app_nil_l. split.
    + apply (nodup_sub _ _ [str_of "separatrix"] [str_of "wall"]). exact ND.
    + intros n I. apply in_app_or in I. unfold all_names. cbn [map In] in *. intuition.
  - rewrite app_nil_l. split.
    + apply (nodup_sub _ _ [str_of "separatrix"; str_of "wall"] []). exact ND.
    + intros n I. apply in_app_or in I. unfold all_names. cbn [map In] in *. intuition.
Qed.
Lemma calls_simple : forall d psi w, In w (calls_of d psi) -> simple w.
Proof.
  intros d psi w I. unfold calls_of in I. cbv zeta in I. rewrite app_assoc in I. apply in_app_or in I. destruct I as [I|I].
  - apply in_app_or in I. destruct I as [I|I].
    + cbn [In] in I. repeat (destruct I as [I|I]; [subst w; exact Logic.I|]). destruct I.
    + destruct (e_sep d) as [[|p l]|]; cbn [contour_call In] in I; try destruct I as [I|[]]; try contradiction. subst w. exact Logic.I.
  - destruct (e_wall d) as [[|p l]|]; cbn [contour_call In] in I; try destruct I as [I|[]]; try contradiction. subst w. exact Logic.I.
Qed.

Lemma stored_in : forall k d psi y w, (forall w, In w (calls_of d psi) -> HdfProofs.stored k w y) -> In w (calls_of d psi) -> HdfProofs.stored k w y.
Proof. intros k d psi y w H I. exact (H w I). Qed.
Lemma contour_stored : forall k n c y, (forall w, In w (contour_call n c) -> HdfProofs.stored k w y) ->
  (contour_call n c = [] -> find n (h_sets y) = None) -> maybe y n contour_in (contour_arr c).
Proof.
  intros k n [[|p l]|] y S M; cbn [contour_arr maybe]; try (apply M; reflexivity).
  specialize (S _ (or_introl eq_refl)). cbn [HdfProofs.stored] in S. set (c := p :: l) in *.
  exists (MArray 2 (length c) (map fst c ++ map snd c)). split.
  - eexists; split; [exact S|]. cbn [d_type d_data d_dims ma_data ma_rows ma_cols concat].
    split; [discriminate|]. split; [rewrite app_nil_r; reflexivity|]. split; [rewrite app_length, !map_length; lia|]. split; [discriminate|]. left. reflexivity.
  - cbn [ma_rows ma_cols ma_data]. split; [reflexivity|]. split; [reflexivity|]. rewrite map_app, !map_map. reflexivity.
Qed.
Lemma contour_none : forall d psi n c, (n, c) = (str_of "separatrix", e_sep d) \/ (n, c) = (str_of "wall", e_wall d) ->
  contour_call n c = [] -> ~ In n (map wname (calls_of d psi)).
Proof.
  intros d psi n c [E|E] C I; pose proof (f_equal fst E) as E1; pose proof (f_equal snd E) as E2; cbn [fst snd] in E1, E2; subst n c; clear E; unfold calls_of in I; cbv zeta in I; rewrite !map_app, C in I; apply in_app_or in I; destruct I as [I|I].
  - cbn [map wname In] in I. repeat destruct I as [I|I]; try discriminate I; exact I.
  - cbn [map app] in I. destruct (contour_call_names (str_of "wall") (e_wall d)) as [W|W]; rewrite W in I; cbn [In] in I; [destruct I as [I|I]; [discriminate I|exact I]|exact I].
  - cbn [map wname In] in I. repeat destruct I as [I|I]; try discriminate I; exact I.
  - rewrite app_nil_r in I. destruct (contour_call_names (str_of "separatrix") (e_sep d)) as [W|W]; rewrite W in I; cbn [In] in I; [destruct I as [I|I]; [discriminate I|exact I]|exact I].
Qed.
Lemma saved_holds : forall k k' d psi y, (k, k') <> (KMat, KHdf) -> savable d -> e_Psi d = Some psi -> length psi = (length (e_Z d) * length (e_R d))%nat ->
  (forall w, In w (calls_of d psi) -> HdfProofs.stored k w y) ->
  (forall n, ~ In n (map wname (calls_of d psi)) -> find n (h_sets y) = None) -> holds k' y (content d).
Proof.
  intros k k' d psi y KK (N & L1 & L2 & L3 & _ & T1 & T2) P L4 S M. rewrite Nat.mul_comm in L1, L2, L3.
  assert (A : forall n l, In (WMulti HDouble n [Z.of_nat (length (e_Z d)); Z.of_nat (length (e_R d))] l) (calls_of d psi) ->
    length l = (length (e_Z d) * length (e_R d))%nat -> array_in y n (grid_array d l)).
  { intros n l I L. specialize (S _ I). cbn [HdfProofs.stored] in S. eexists; split; [exact S|]. cbn [d_type d_data d_dims grid_array ma_data ma_rows ma_cols].
    split; [discriminate|]. split; [reflexivity|]. split; [exact L|]. split; [nia|]. left. reflexivity. }
  assert (B : forall n l, In (WNums HDouble n l) (calls_of d psi) -> list_in y n l).
  { intros n l I. specialize (S _ I). cbn [HdfProofs.stored] in S. exists (MArray 1 (length l) l). split; [|split; [reflexivity|left; reflexivity]].
    eexists; split; [exact S|]. cbn [d_type d_data d_dims ma_data ma_rows ma_cols]. split; [discriminate|]. split; [reflexivity|]. split; [lia|]. split; [discriminate|]. right. split; reflexivity. }
  assert (C : forall n v, In (WText n v) (calls_of d psi) -> ~ In cNUL v -> text_in k' y n v).
  { intros n v I V. specialize (S _ I). cbn [HdfProofs.stored] in S. split; [exact V|]. eexists; split; [exact S|].
    destruct k, k'; [split; reflexivity|left; reflexivity|exfalso; apply KK; reflexivity|right; reflexivity]. }
  unfold holds, content. cbv zeta. cbn [f_name f_desc f_maxis f_r f_z f_Br f_Bphi f_Bz f_Psi f_verBr f_verBphi f_verBz f_wall f_sep]. rewrite P. cbn [option_map maybe].
  assert (H0 : forall w, In w (firstn 12 (calls_of d psi)) -> In w (calls_of d psi)).
  { intros w I. rewrite <- (firstn_skipn 12 (calls_of d psi)). apply in_or_app. left. exact I. }
  do 2 (split; [apply C; [apply H0; cbn; tauto|assumption]|]).
  split; [exists [fst (e_axis d); snd (e_axis d)]; split; [apply B; apply H0; cbn; tauto|reflexivity]|].
  do 2 (split; [apply B; apply H0; cbn; tauto|]).
  do 4 (split; [apply A; [apply H0; cbn; tauto|assumption]|]).
  do 3 (split; [apply B; apply H0; cbn; tauto|]). split.
  - apply (contour_stored k).
    + intros w I. apply S. unfold calls_of. cbv zeta. apply in_or_app. right. apply in_or_app. right. exact I.
    + intros C0. apply M. apply (contour_none d psi _ (e_wall d)); [right; reflexivity|exact C0].
  - apply (contour_stored k).
    + intros w I. apply S. unfold calls_of. cbv zeta. apply in_or_app. right. apply in_or_app. left. exact I.
    + intros C0. apply M. apply (contour_none d psi _ (e_sep d)); [left; reflexivity|exact C0].
Qed.

(** Saving to a file that can be created. *)
Definition creatable (k : kind) (t : tm) : Prop := match k with KHdf => True | KMat => exists b, user_block t = Ok b end.
Lemma save_file_ok : forall w i k f t d, creatable k t -> savable d -> exists w' y,
  save_file w i k f LOk t d = (Ok tt, w') /\ v_fs w' f = FHdf y /\ (forall g, g <> f -> v_fs w' g = v_fs w g) /\
  v_obj w' i = Some (HObj k PNull) /\ (forall j, j <> i -> v_obj w' j = v_obj w j) /\
  (forall k', (k, k') <> (KMat, KHdf) -> holds k' y (content d)) /\
  (forall n, ~ In n all_names -> find n (h_sets y) = None) /\ h_groups y = [].
Proof.
  intros w i k f t d CR SV. destruct (save_calls_ok d SV) as [psi [P [L4 SC]]].
  assert (E : exists b, hdf_create_obj w i k f MWrite LOk t = (Ok tt, HWorld (put_file (v_fs w) f (FHdf (empty_file b))) (put_obj (v_obj w) i (Some (HObj k (PFile f true)))))).
  { unfold hdf_create_obj, hdf_open. cbn [o_kind]. destruct k; [exists []; reflexivity|]. destruct CR as [b CR]. rewrite CR. exists b. reflexivity. }
  destruct E as [b E]. unfold save_file. rewrite E. cbn [v_fs v_obj]. rewrite put_file_same, SC.
  destruct (calls_names d psi) as [ND NA].
  destruct (all_writes k (calls_of d psi) (empty_file b)) as (y & W & _ & G & S & O).
  - intros n a c F. discriminate F.
  - exact ND.
  - intros v I. split; [exact (calls_simple d psi v I)|]. split.
    + destruct all_names_fine as [_ FA]. rewrite Forall_forall in FA. apply FA. apply NA. apply in_map. exact I.
    + intros [[]|[e U]]. discriminate U.
  - rewrite W. eexists _, y. split; [reflexivity|]. cbn [v_fs v_obj]. split; [apply put_file_same|].
    split; [intros g D; rewrite !put_file_other by exact D; reflexivity|]. split; [apply put_obj_same|].
    split; [intros j D; rewrite !put_obj_other by exact D; reflexivity|].
    split; [intros k' KK; apply (saved_holds k k' d psi y KK SV P L4 S); intros n N; rewrite (O n N); reflexivity|].
    split; [|exact G]. intros n N. rewrite O; [reflexivity|]. intros I. apply N. apply NA. exact I.
Qed.

(** The content of a saved file describes the field. *)
Lemma embed_length : forall (l : list (Q * Q)), length (map to_point l) = length l.
Proof. intros. apply map_length. Qed.
Lemma nth_app_2 : forall (l : list (Q * Q)) k i, (k < 2)%nat -> (i < length l)%nat ->
  nth_error (map (fun p => Q2R (fst p)) l ++ map (fun p => Q2R (snd p)) l) (k * length l + i) = Some (coordinate k (nth i (map to_point l) (0%R, 0%R))).
Proof.
  intros l k i K L. assert (E : nth_error l i = Some (nth i l (0%Q, 0%Q))) by (apply nth_error_nth'; exact L).
  assert (N : nth i (map to_point l) (0%R, 0%R) = to_point (nth i l (0%Q, 0%Q))).
  { rewrite (nth_indep _ _ (to_point (0%Q, 0%Q))) by (rewrite map_length; exact L). apply map_nth. }
  rewrite N. destruct k as [|[|k]]; [| |lia].
  - rewrite Nat.mul_0_l, Nat.add_0_l. rewrite nth_error_app1 by (rewrite map_length; exact L). rewrite nth_error_map, E. reflexivity.
  - rewrite Nat.mul_1_l. rewrite nth_error_app2 by (rewrite map_length; lia). rewrite map_length.
    replace (length l + i - length l)%nat with i by lia. rewrite nth_error_map, E. reflexivity.
Qed.
Lemma contour_outlines : forall c, c <> Some [] -> both outlines (contour_arr c) (to_contour c).
Proof.
  intros [[|p l]|] N; [exfalso; apply N; reflexivity| |exact Logic.I]. cbn [contour_arr to_contour option_map both].
  set (c := p :: l). left. rewrite embed_length. repeat split; [cbn [ma_data]; rewrite app_length, !map_length; lia|].
  intros j i J L. cbn [ma_data]. apply nth_app_2; assumption.
Qed.
Lemma grid_represents : forall d l, length l = (length (e_Z d) * length (e_R d))%nat -> represents (length (e_R d)) (length (e_Z d)) (grid_array d l) l.
Proof.
  intros d l L. set (nr := length (e_R d)) in *. set (nz := length (e_Z d)) in *.
  exists (fun i j => nth (i + j * nr) l 0%Q). split.
  - split; [rewrite L; apply Nat.mul_comm|]. intros i j I J. apply nth_error_nth'. rewrite L.
    apply Nat.lt_le_trans with (j * nr + nr)%nat; [lia|]. rewrite <- Nat.mul_succ_l. apply Nat.mul_le_mono_r. lia.
  - left. repeat split; [exact L|]. intros j i J I. cbn [ma_data grid_array]. fold nr nz. rewrite (Nat.add_comm i). apply nth_error_nth'. rewrite L.
    apply Nat.lt_le_trans with (j * nr + nr)%nat; [lia|]. rewrite <- Nat.mul_succ_l. apply Nat.mul_le_mono_r. lia.
Qed.
Lemma content_loads : forall d, savable d -> e_sep d <> Some [] -> e_wall d <> Some [] -> load Q str Qeq_bool Qbelow (content d) = field_with d.
Proof.
  intros d (N & L1 & L2 & L3 & [psi [P L4]] & T1 & T2) S W. rewrite Nat.mul_comm in L1, L2, L3, L4. unfold field_with. apply C48_load.
  - unfold describes, content. cbv zeta. cbn [f_name f_desc f_maxis f_r f_z f_Br f_Bphi f_Bz f_Psi f_wall f_sep both to_point fst snd].
    repeat split; try (apply grid_represents; assumption); try (apply contour_outlines; assumption).
    rewrite P. cbn [option_map both]. apply grid_represents; assumption.
  - intro X. cbv zeta in N. rewrite X in N. cbn [length] in N. lia.
  - unfold verified, content. cbv zeta. cbn [f_verBr f_verBphi f_verBz].
    repeat split; try (rewrite firstn_length; lia); intros i w E; exists w; (split; [exact (firstn_nth _ _ _ _ _ E)|apply Qeq_bool_iff; reflexivity]).
Qed.
