(** Proofs about CODE, GO+CODE and DREAM distribution functions in files. *)
From Coq Require Import Reals QArith Qreals ZArith Lia Lra String.
From Verif Require Import Base SettingsModel SettingsProofs SdtModel SessionModel SFileModel SFileProofs TypedModel HdfModel HdfSpec HdfProofs DomainModel NumericModel NumericSpec NumericProofs NumericArrays DistributionModel CodeModel CodeSpec GocodeProofs LoaderModel LoaderSpec LoaderProofs FieldFileModel FieldFileSpec FieldFileProofs ErrSpec ErrProofs DistFileModel DistFileSpec DistFileProofs CodeFileModel CodeFileSpec.
Local Open Scope nat_scope.

(** * CODE *)
Lemma mod_path_in : forall path n, in_path path n (mod_path path ++ n).
Proof.
  intros path n. unfold mod_path. destruct path as [|c p] using rev_ind; [apply ip_root|]. clear IHp. rewrite rev_app_distr. cbn [rev app].
  destruct (Ascii.eqb c "/") eqn:E.
  - apply Ascii.eqb_eq in E. subst c. rewrite <- app_assoc. apply ip_slash.
  - apply Ascii.eqb_neq in E. rewrite <- !app_assoc. cbn [app]. replace (p ++ c :: "/"%char :: n) with ((p ++ [c]) ++ "/"%char :: n) by (rewrite <- app_assoc; reflexivity). apply ip_plain. exact E.
Qed.
Lemma in_path_inv : forall path n full, in_path path n full -> full = mod_path path ++ n.
Proof.
  intros path n full P. pose proof (mod_path_in path n) as Q. revert P Q. generalize (mod_path path ++ n). intros a P Q. inversion P; subst; inversion Q; subst;
    repeat match goal with H : [] = _ ++ [_] |- _ => symmetry in H; apply app_eq_nil in H; destruct H as [_ H]; discriminate H | H : _ ++ [_] = [] |- _ => apply app_eq_nil in H; destruct H as [_ H]; discriminate H
      | H : _ ++ [_] = _ ++ [_] |- _ => apply app_inj_tail in H; destruct H as [? ?]; subst end; try reflexivity; exfalso; congruence.
Qed.
Lemma get_optional_variable : forall s v n o, shows s v -> variable v n o ->
  get_optional s n = match o with Some a => obind (scalar a) (fun _ => Ok (Some a)) | None => Ok None end.
Proof.
  intros s v n o H V. unfold get_optional. pose proof (get_array_variable s v n o H V) as E. destruct o as [a|]; cbn [variable] in V.
  - destruct V as (q & A & V). rewrite (sh_has _ _ H _ _ A), E. reflexivity.
  - destruct (sh_missing _ _ H _ V) as [-> _]. reflexivity.
Qed.
Lemma code_from_load : forall s v path m time method, shows s v -> code_in v path m -> code_from s path time method = code_load m time method.
Proof.
  intros s v path [y d nref Tref nx f] time method H C. unfold code_from.
  pose proof (proj1 (C _ _ (mod_path_in path (str_of "y"))) eq_refl) as V1.
  pose proof (proj1 (proj2 (C _ _ (mod_path_in path (str_of "delta")))) eq_refl) as V2.
  pose proof (proj1 (proj2 (proj2 (C _ _ (mod_path_in path (str_of "nref"))))) eq_refl) as V3.
  pose proof (proj1 (proj2 (proj2 (proj2 (C _ _ (mod_path_in path (str_of "Tref")))))) eq_refl) as V4.
  pose proof (proj1 (proj2 (proj2 (proj2 (proj2 (C _ _ (mod_path_in path (str_of "Nxi"))))))) eq_refl) as V5.
  pose proof (proj2 (proj2 (proj2 (proj2 (proj2 (C _ _ (mod_path_in path (str_of "f"))))))) eq_refl) as V6.
  cbn [cf_y cf_delta cf_nref cf_Tref cf_Nxi cf_f] in *.
  rewrite (get_array_variable s v _ _ H V1), (get_array_variable s v _ _ H V2), (get_optional_variable s v _ _ H V3), (get_optional_variable s v _ _ H V4),
    (get_array_variable s v _ _ H V5), (get_array_variable s v _ _ H V6).
  unfold code_load at 2. cbn [cf_y cf_delta cf_nref cf_Tref cf_Nxi cf_f].
  destruct y as [y|]; cbn [need obind]; [|reflexivity]. destruct (vector_length y) as [np| |] eqn:E1; cbn [obind]; [|reflexivity|reflexivity].
  destruct d as [d|]; cbn [need obind]; [|reflexivity]. destruct (scalar d) as [delta| |] eqn:E2; cbn [obind]; [|reflexivity|reflexivity].
  assert (O : forall (o : option (marray R)) (B : Type) (k : option (marray R) -> outcome B) (k2 : R -> outcome B),
    (forall x, scalar_or_one o = Ok x -> k o = k2 x) ->
    obind (match o with Some a => obind (scalar a) (fun _ => Ok (Some a)) | None => Ok None end) k = obind (scalar_or_one o) k2).
  { intros [a|] B k k2 K; cbn [scalar_or_one] in *; [destruct (scalar a) as [x| |]; cbn [obind]; [apply K; reflexivity|reflexivity|reflexivity]|cbn [obind]; apply K; reflexivity]. }
  apply O. intros xn E3. apply O. intros xt E4.
  destruct nx as [nx|]; cbn [need obind]; [|reflexivity]. destruct (scalar nx) as [nxi| |] eqn:E5; cbn [obind]; [|reflexivity|reflexivity].
  destruct (int_of nxi) as [nleg| |] eqn:E6; cbn [obind]; [|reflexivity|reflexivity].
  destruct (fill np (fun i => obind (aget y 0 i) (fun v0 => Ok (v0 * delta)%R))) as [ps| |] eqn:E7; cbn [obind]; [|reflexivity|reflexivity].
  destruct f as [f|]; cbn [need obind]; [|reflexivity].
  unfold code_load. cbn [cf_y cf_delta cf_nref cf_Tref cf_Nxi cf_f need obind]. rewrite E1. cbn [obind]. rewrite E2. cbn [obind]. rewrite E3. cbn [obind]. rewrite E4. cbn [obind]. rewrite E5. cbn [obind].
  rewrite E6. cbn [obind]. rewrite E7. reflexivity.
Qed.

(** * GO+CODE *)
Lemma show_nat_is : forall t, (0 <= t)%Z -> numeral t (show_nat t).
Proof.
  intros t T. exists (show_nat t). destruct (show_nat_numeral t T) as (A & B & C).
  split; [destruct (t <? 0)%Z eqn:E; [apply Z.ltb_lt in E; lia|reflexivity]|]. split; [exact A|]. split; [rewrite B; symmetry; apply Z.abs_eq; lia|exact C].
Qed.
Lemma slice_group_for : forall t i, (0 <= t)%Z -> for_slice t i (slice_group t i).
Proof.
  intros t i T. exists (show_nat t), (show_nat (Z.of_nat i)). split; [apply show_nat_is; exact T|]. split; [apply show_nat_is; lia|reflexivity].
Qed.
Lemma int_of_range : forall x z, int_of x = Ok z -> (0 < z)%Z -> (IZR z <= x)%R.
Proof.
  intros x z H P. unfold int_of in H. destruct (Rlt_dec x 0) as [L|L].
  - destruct (Rle_dec x (-2147483649)); [discriminate H|]. injection H as <-. exfalso.
    assert (Q : (0 <= Int_part (- x))%Z). { apply le_IZR. destruct (base_Int_part (- x)) as [_ B]. assert (-1 < Int_part (- x))%Z; [|apply IZR_le; lia]. apply lt_IZR. lra. }
    lia.
  - destruct (Rle_dec 2147483648 x); [discriminate H|]. injection H as <-. apply base_Int_part.
Qed.
Lemma gocode_magic_in : forall s v magic r nt files, shows s v -> gocode_in v magic r nt files -> gocode_magic s = Ok magic.
Proof.
  intros s v magic r nt files H (M & _). unfold gocode_magic. destruct magic as [b|].
  - destruct M as (t & T & E). destruct (sh_text _ _ H _ _ T) as [-> ->]. cbn [obind]. do 2 f_equal.
    change (str_of "distribution/gocode") with gocode_type in E.
    destruct (str_eqb t gocode_type) eqn:Q; [apply str_eqb_eq in Q; destruct b; [reflexivity|]; symmetry; apply E; exact Q|].
    destruct b; [|reflexivity]. rewrite (proj1 E eq_refl), str_eqb_refl in Q. discriminate Q.
  - destruct (sh_missing _ _ H _ M) as [-> _]. reflexivity.
Qed.
Lemma scalar_number : forall a x, number (Some a) x -> scalar a = Ok x.
Proof.
  intros a x (m & E & R1 & C1 & L & V). injection E as ->. unfold scalar. rewrite R1, C1. cbn [Nat.eqb andb]. unfold aget. rewrite C1. specialize (V 0 0 ltac:(lia) ltac:(lia)).
  cbn [Nat.mul Nat.add] in *. unfold dget. rewrite V. rewrite ?R1. reflexivity.
Qed.
Lemma gocode_from_load : forall s v magic r nt files axis time method, shows s v -> gocode_in v magic r nt files ->
  gocode_from s axis time method = gocode_load magic r nt files axis time method.
Proof.
  intros s v magic r nt files axis time method H G. unfold gocode_from, gocode_load. rewrite (gocode_magic_in s v magic r nt files H G). cbn [obind].
  destruct G as (_ & VR & VN & VG).
  enough (E : obind (get_array s (str_of "r")) (fun a => obind (vector_length a) (fun nr =>
    obind (fill nr (fun i => obind (aget a 0 i) (fun v => Ok (v + axis)%R))) (fun rho =>
    if negb (monotone true rho) then Throw else
    obind (dget rho 0) (fun _ => obind (get_array s (str_of "nt")) (fun nt => obind (scalar nt) (fun n => obind (int_of n) (fun ntimes =>
    obind (slice ntimes time) (fun t =>
    obind (fill nr (fun i => code_from s (slice_group t i) 0 method)) (fun cs => Ok (Gocode rho cs)))))))))) =
    obind (need r) (fun a => obind (vector_length a) (fun nr =>
    obind (fill nr (fun i => obind (aget a 0 i) (fun v => Ok (v + axis)%R))) (fun rho =>
    if negb (monotone true rho) then Throw else
    obind (dget rho 0) (fun _ => obind (need nt) (fun n => obind (int_of n) (fun ntimes =>
    obind (slice ntimes time) (fun t =>
    obind (fill nr (fun i => code_load (files t i) 0 method)) (fun cs => Ok (Gocode rho cs)))))))))) by (destruct magic as [[|]|]; [exact E|reflexivity|exact E]).
  rewrite (get_array_variable s v _ r H VR). destruct r as [r|]; cbn [need obind]; [|reflexivity].
  destruct (vector_length r) as [nr| |] eqn:E1; cbn [obind]; [|reflexivity|reflexivity].
  destruct (vector_of_length r nr E1 (variable_length _ _ _ VR)) as (rs & V & L).
  destruct (fill nr (fun i => obind (aget r 0 i) (fun v0 => Ok (v0 + axis)%R))) as [rho| |]; cbn [obind]; [|reflexivity|reflexivity].
  destruct (negb (monotone true rho)); [reflexivity|]. destruct (dget rho 0); cbn [obind]; [|reflexivity|reflexivity].
  destruct nt as [x|].
  - destruct VN as (an & VA & NA). rewrite (get_array_variable s v _ _ H VA). cbn [need obind]. rewrite (scalar_number _ _ NA). cbn [obind].
    destruct (int_of x) as [n| |] eqn:E2; cbn [obind]; [|reflexivity|reflexivity]. destruct (slice n time) as [t| |] eqn:E3; cbn [obind]; [|reflexivity|reflexivity].
    f_equal. apply fill_same. intros i I. assert (T : (0 <= t < n)%Z).
    { unfold slice in E3. cbv zeta in E3. destruct (_ || _)%bool eqn:B in E3; [discriminate E3|]. injection E3 as <-. apply Bool.orb_false_iff in B. destruct B as [B1 B2]. apply Z.leb_gt in B1. apply Z.ltb_ge in B2. lia. }
    apply (code_from_load s v _ _ _ _ H). apply (VG rs x t i); [exact V|reflexivity| |lia|apply slice_group_for; lia].
    pose proof (int_of_range _ _ E2 ltac:(lia)) as Q. pose proof (IZR_le 0 t ltac:(lia)). pose proof (IZR_lt t n ltac:(lia)). split; lra.
  - pose proof (get_array_variable s v _ None H VN) as Q. rewrite Q. reflexivity.
Qed.

(** * DREAM *)
Lemma hdf_vec : forall rn rs k x n a, has_array (hdf_view k x) n a -> ds_vec (hdf_dsource rn rs k x) n = RYes (map Q2R (ma_data a)).
Proof.
  intros rn rs k x n a (d & F & T & D & L & NR & DD). cbn [hdf_dsource ds_vec kind_read]. rewrite F. unfold h5_get1d. rewrite F.
  destruct DD as [DD|[_ DD]]; rewrite DD, (numeric_of _ T), D; reflexivity.
Qed.
Lemma hdf_no_vec : forall rn rs k x n, missing (hdf_view k x) n -> ds_vec (hdf_dsource rn rs k x) n = RNo.
Proof. intros rn rs k x n M. cbn [hdf_dsource ds_vec hdf_view missing] in *. rewrite M. reflexivity. Qed.
Lemma multi_has : forall rn rs k x n dims q, has_multi (hdf_view k x) n dims q -> ds_has (hdf_dsource rn rs k x) n = true.
Proof. intros rn rs k x n dims q (d & F & _). cbn [hdf_dsource ds_has kind_read]. unfold h5_has. rewrite F. reflexivity. Qed.
Lemma str_of_append : forall a b, str_of (String.append a b) = str_of a ++ str_of b.
Proof. intros a b. induction a as [|c a IH]; [reflexivity|]. cbn [String.append]. change (str_of (String c (a ++ b)%string)) with (c :: str_of (a ++ b)%string). rewrite IH. reflexivity. Qed.
Lemma dream_name_in : forall (d : dream) (h : string -> bool) o1 o2 distname, (forall n, In n (dream_names distname) -> h n = has d n) ->
  dream_name (Dream h o1 o2) distname = dream_name d distname.
Proof.
  intros d h o1 o2 distname H. unfold dream_name. cbn [has]. unfold dream_names in H. destruct distname as [|c r].
  - rewrite (H "/eqsys/f_re"%string), (H "/eqsys/f_hot"%string) by (cbn; auto). destruct (has d "/eqsys/f_re") eqn:E; cbn [obind]; [rewrite H by (cbn; auto); reflexivity|].
    destruct (has d "/eqsys/f_hot") eqn:E2; cbn [obind]; [|reflexivity]. rewrite H by (cbn; auto). reflexivity.
  - cbn [obind]. rewrite (H (if Ascii.eqb c "/" then String c r else String.append "/eqsys/" (String c r))); [reflexivity|]. right. right. left. unfold full_name.
    destruct (Ascii.eqb c "/") eqn:E; [apply Ascii.eqb_eq in E; subst c; reflexivity|]. apply Ascii.eqb_neq in E.
    destruct c as [[|] [|] [|] [|] [|] [|] [|] [|]]; try reflexivity; exfalso; apply E; reflexivity.
Qed.
Lemma dream_name_of : forall d distname name, dream_name d distname = Ok name -> In name (dream_names distname) /\ has d name = true.
Proof.
  intros d distname name E. unfold dream_name in E. destruct distname as [|c r].
  - destruct (has d "/eqsys/f_re") eqn:E1; cbn [obind] in E; [rewrite E1 in E; injection E as <-; split; [left; reflexivity|exact E1]|].
    destruct (has d "/eqsys/f_hot") eqn:E2; cbn [obind] in E; [|discriminate E]. rewrite E2 in E. injection E as <-. split; [right; left; reflexivity|exact E2].
  - cbn [obind] in E. match type of E with (if has d ?n then _ else _) = _ => destruct (has d n) eqn:E1; [injection E as <-|discriminate E] end. split; [|exact E1].
    right. right. left. unfold full_name. destruct (Ascii.eqb c "/") eqn:Q; [apply Ascii.eqb_eq in Q; subst c; reflexivity|]. apply Ascii.eqb_neq in Q.
    destruct c as [[|] [|] [|] [|] [|] [|] [|] [|]]; try reflexivity; exfalso; apply Q; reflexivity.
Qed.
Lemma dream_grid_of : forall name grid, dream_grid name = Ok grid -> grid = "/grid/runaway"%string \/ grid = "/grid/hottail"%string.
Proof.
  intros name grid E. unfold dream_grid in E. destruct (tail_of name 4) as [s4| |]; try discriminate E. cbn [obind] in E. destruct (String.eqb s4 "f_re"); [injection E as <-; left; reflexivity|].
  destruct (tail_of name 5) as [s5| |]; try discriminate E. cbn [obind] in E. destruct (String.eqb s5 "f_hot"); [injection E as <-; right; reflexivity|discriminate E].
Qed.
Lemma dream_from_raw : forall rn rs k x d axis distname time, dream_in (hdf_view k x) d distname ->
  dream_from (hdf_dsource rn rs k x) axis distname time = dream_raw d axis distname time.
Proof.
  intros rn rs k x d axis distname time (N & G). set (s := hdf_dsource rn rs k x).
  assert (HH : forall n, In n (dream_names distname) -> ds_has s (str_of n) = has d n).
  { intros n I. specialize (N n I). destruct (dr_array d n) as [[dims l]|].
    - destruct N as (-> & q & M & _). apply (multi_has rn rs k x _ _ _ M).
    - destruct N as (-> & M). destruct (sh_missing _ _ (hdf_shows rn rs k x) _ M) as [E _]. exact E. }
  assert (VV : forall n, In n dream_grids -> plainly (ds_vec s (str_of n)) = need (dr_vec d n)).
  { intros n I. specialize (G n I). destruct (dr_vec d n) as [l|]; [destruct G as (a & A & ->); unfold s; rewrite (hdf_vec rn rs k x _ _ A)|unfold s; rewrite (hdf_no_vec rn rs k x _ G)]; reflexivity. }
  unfold dream_from. cbv zeta. rewrite (dream_name_in d) by exact HH. unfold dream_raw at 2.
  destruct (dream_name d distname) as [name| |] eqn:E1; cbn [obind]; [|reflexivity|reflexivity].
  destruct (dream_grid name) as [grid| |] eqn:E2; cbn [obind]; [|reflexivity|reflexivity].
  destruct (dream_name_of d distname name E1) as [IN HN]. pose proof (N name IN) as NN.
  destruct (dr_array d name) as [[dims l]|]; [|destruct NN as [NN _]; congruence]. destruct NN as (_ & q & M & ->). cbn [need].
  unfold s at 1. rewrite (sh_multi _ _ (hdf_shows rn rs k x) _ _ _ M 4). fold s. cbn [plainly obind].
  rewrite (VV "/grid/t"%string) by (cbn; auto). destruct (dr_vec d "/grid/t") as [ts|]; cbn [need obind]; [|reflexivity].
  rewrite (VV "/grid/r"%string) by (cbn; auto). destruct (dr_vec d "/grid/r") as [r|]; cbn [need obind]; [|reflexivity].
  rewrite <- !str_of_append. pose proof (dream_grid_of _ _ E2) as GG.
  rewrite (VV (String.append grid "/p1")) by (destruct GG as [-> | ->]; cbn; auto 10). destruct (dr_vec d (String.append grid "/p1")) as [p|]; cbn [need obind]; [|reflexivity].
  rewrite (VV (String.append grid "/p2")) by (destruct GG as [-> | ->]; cbn; auto 10). destruct (dr_vec d (String.append grid "/p2")) as [xi|]; cbn [need obind]; [|reflexivity].
  unfold dream_raw. rewrite (dream_name_in d) by exact HH. rewrite E1. cbn [obind]. rewrite E2. cbn [obind dr_array dr_vec need].
  replace (String.eqb "/grid/t" "/grid/t") with true by reflexivity. replace (String.eqb "/grid/r" "/grid/t") with false by reflexivity. replace (String.eqb "/grid/r" "/grid/r") with true by reflexivity.
  assert (P1 : String.eqb (String.append grid "/p1") "/grid/t" = false /\ String.eqb (String.append grid "/p1") "/grid/r" = false) by (destruct GG as [-> | ->]; split; reflexivity).
  assert (P2 : String.eqb (String.append grid "/p2") "/grid/t" = false /\ String.eqb (String.append grid "/p2") "/grid/r" = false /\ String.eqb (String.append grid "/p2") (String.append grid "/p1") = false) by (destruct GG as [-> | ->]; repeat split; reflexivity).
  destruct P1 as [-> ->]. destruct P2 as [-> [-> ->]]. rewrite String.eqb_refl.
  destruct (4 <? length dims) eqn:E4; [|reflexivity]. apply Nat.ltb_lt in E4. destruct dims as [|d0 [|d1 [|d2 [|d3 [|d4 dims]]]]]; cbn [length] in E4; try lia. reflexivity.
Qed.

(** * Files *)
Lemma open_file_open : forall A rn rs (go : dsource -> outcome A) w j k f t x, v_fs w f = FHdf x ->
  open_file rn rs go w j k f LOk t = (go (hdf_dsource rn rs k x), HWorld (v_fs w) (put_obj (v_obj w) j (Some (HObj k (PFile f false))))).
Proof. intros A rn rs go w j k f t x F. unfold open_file, hdf_create_obj, hdf_open. rewrite F. cbn [o_kind v_fs v_obj]. rewrite F. reflexivity. Qed.

(** * Written files *)
Lemma code_within : forall v v' path m, within v v' -> code_in v path m -> code_in v' path m.
Proof.
  intros v v' path m W C n full I. destruct (C n full I) as (C1 & C2 & C3 & C4 & C5 & C6).
  repeat split; intros E; (apply (variable_within v); [exact W|auto]).
Qed.
Lemma gocode_within : forall v v' magic r nt files, within v v' -> gocode_in v magic r nt files -> gocode_in v' magic r nt files.
Proof.
  intros v v' magic r nt files W (M & V & N & G). split; [|split; [apply (variable_within v); assumption|split]].
  - destruct magic as [b|]; [|apply (wi_missing _ _ W); exact M]. destruct M as (t & T & E). exists t. split; [apply (wi_text _ _ W); exact T|exact E].
  - destruct nt as [x|]; [|apply (wi_missing _ _ W); exact N]. destruct N as (a & VA & NA). exists a. split; [apply (variable_within v); assumption|exact NA].
  - intros rs x t i d V1 X T I D. apply (code_within v); [exact W|]. apply (G rs x t i d); assumption.
Qed.
Lemma dream_within : forall v v' d distname, within v v' -> dream_in v d distname -> dream_in v' d distname.
Proof.
  intros v v' d distname W (N & G). split.
  - intros n I. specialize (N n I). destruct (dr_array d n) as [[dims l]|].
    + destruct N as (H & q & M & E). split; [exact H|]. exists q. split; [apply (wi_multi _ _ W); exact M|exact E].
    + destruct N as (H & M). split; [exact H|apply (wi_missing _ _ W); exact M].
  - intros n I. specialize (G n I). destruct (dr_vec d n) as [l|]; [|apply (wi_missing _ _ W); exact G]. destruct G as (a & A & E). exists a. split; [apply (wi_array _ _ W); exact A|exact E].
Qed.
