(** Proofs about distribution functions in files. *)
From Coq Require Import Reals QArith Qreals ZArith Lia.
From Verif Require Import Base SettingsModel SettingsProofs SdtModel SessionModel SFileModel SFileProofs TypedModel HdfModel HdfSpec HdfProofs DomainModel NumericModel NumericSpec NumericProofs NumericArrays DistributionModel CodeModel CodeSpec GocodeProofs LoaderModel LoaderSpec LoaderProofs FieldFileModel FieldFileSpec FieldFileProofs ErrSpec ErrProofs DistFileModel DistFileSpec.
Local Open Scope nat_scope.

(** * Sources *)
(** A source that shows what a file holds. *)
Record shows (s : dsource) (v : view) : Prop := {
  sh_missing : forall n, missing v n -> ds_has s n = false /\ src_text (ds_src s) n = Throw /\ src_array (ds_src s) n = RNo /\ forall room, ds_multi s room n = RNo;
  sh_text : forall n t, has_text v n t -> ds_has s n = true /\ src_text (ds_src s) n = Ok t;
  sh_array : forall n a, has_array v n a -> src_array (ds_src s) n = RYes a;
  sh_has : forall n a, has_array v n a -> ds_has s n = true;
  sh_multi : forall n dims q, has_multi v n dims q -> forall room, ds_multi s room n = RYes (if (room <? length dims) then None else Some (dims, map Q2R q)) }.

Lemma hdf_shows : forall rn rs k x, shows (hdf_dsource rn rs k x) (hdf_view k x).
Proof.
  intros rn rs k x. split; cbn [hdf_view missing has_text has_array has_multi hdf_dsource ds_has ds_src ds_multi kind_read].
  - intros n M. split; [unfold h5_has; rewrite M; reflexivity|]. split; [apply missing_text; exact M|]. split; [apply missing_array; exact M|]. intros room. rewrite M. reflexivity.
  - intros n t T. split; [|apply text_reading; exact T]. unfold h5_has. pose proof (text_found _ _ _ _ T) as F. destruct (find n (h_sets x)); [reflexivity|congruence].
  - intros n a A. apply array_reading. exact A.
  - intros n a (d & F & _). unfold h5_has. rewrite F. reflexivity.
  - intros n dims q (d & F & T & D & L) room. rewrite F. unfold h5_get_multi. rewrite F, D, map_length, (numeric_of _ T), L.
    destruct (room <? length dims)%nat; cbn [obind]; [reflexivity|]. rewrite map_map. do 3 f_equal. erewrite map_ext; [apply map_id|]. intros a; apply Nat2Z.id.
Qed.
Lemma sdt_shows : forall rd, shows (sdt_dsource rd) (sdt_view rd).
Proof.
  intros rd. split; cbn [sdt_view missing has_text has_array has_multi sdt_dsource ds_has ds_src ds_multi].
  - intros n M. rewrite M. split; [reflexivity|]. cbn [do_read fst] in M. destruct (find n (r_mats rd)) eqn:E1; [discriminate M|]. destruct (find n (r_strs rd)) eqn:E2; [discriminate M|].
    split; [cbn [sdt_source src_text do_read fst]; rewrite E2; reflexivity|]. split; [|reflexivity]. apply sdt_missing_array. cbn [do_read]. unfold with_matrix. rewrite E1. reflexivity.
  - intros n t T. unfold sdt_text in T. split; [|cbn [sdt_source src_text]; rewrite T; reflexivity]. cbn [do_read fst] in T |- *.
    destruct (find n (r_strs rd)); [|discriminate T]. destruct (find n (r_mats rd)); reflexivity.
  - intros n a A. apply sdt_array_reading. exact A.
  - intros n a (rows & A & _). cbn [do_read fst] in *. unfold with_matrix in A. destruct (find n (r_mats rd)); [reflexivity|discriminate A].
  - intros n dims q [].
Qed.

Lemma get_array_variable : forall s v n o, shows s v -> variable v n o -> get_array s n = need o.
Proof.
  intros s v n o H V. unfold get_array. destruct o as [a|]; cbn [variable need] in *.
  - destruct V as (q & A & LQ & R1 & C1 & D1). rewrite (sh_array _ _ H _ _ A). cbn [plainly obind]. unfold to_reals. destruct a; cbn [NumericModel.ma_rows NumericModel.ma_cols NumericModel.ma_data] in *. congruence.
  - destruct (sh_missing _ _ H _ V) as (_ & _ & -> & _). reflexivity.
Qed.
Lemma try_array_variable : forall s v n o, shows s v -> variable v n o -> try_array s n = Ok o.
Proof.
  intros s v n o H V. unfold try_array. destruct o as [a|]; cbn [variable need] in *.
  - destruct V as (q & A & LQ & R1 & C1 & D1). rewrite (sh_array _ _ H _ _ A). cbn [tried obind option_map]. unfold to_reals. destruct a; cbn [NumericModel.ma_rows NumericModel.ma_cols NumericModel.ma_data] in *. congruence.
  - destruct (sh_missing _ _ H _ V) as (_ & _ & -> & _). reflexivity.
Qed.
Lemma get_vector_variable : forall s v n o, shows s v -> variable v n o -> get_vector s n = obind (need o) (fun a => obind (read_vector (Some a)) (fun _ => Ok a)).
Proof. intros s v n o H V. unfold get_vector. rewrite (get_array_variable s v n o H V). reflexivity. Qed.

(** * SOFT files *)
Lemma group_name_for : forall i n, for_radius i n (group_name i ++ n).
Proof.
  intros i n. exists (show_nat (Z.of_nat i)). split.
  - exists (show_nat (Z.of_nat i)). destruct (show_nat_numeral (Z.of_nat i) ltac:(lia)) as (A & B & C).
    split; [destruct (Z.of_nat i <? 0)%Z eqn:E; [apply Z.ltb_lt in E; lia|reflexivity]|]. split; [exact A|]. split; [rewrite B; symmetry; apply Z.abs_eq; lia|exact C].
  - unfold group_name. rewrite <- !app_assoc. reflexivity.
Qed.

Lemma fill_status : forall (A B : Type) n (h : nat -> outcome A) (h2 : nat -> outcome B),
  (forall i, i < n -> match h i with Ok _ => exists v, h2 i = Ok v | Throw => h2 i = Throw | UB => h2 i = UB end) ->
  match fill n h with Ok l => length l = n /\ forall i d, i < n -> h i = Ok (nth i l d) | Throw => fill n h2 = Throw | UB => fill n h2 = UB end.
Proof.
  intros A B. assert (G : forall n k (h : nat -> outcome A) (h2 : nat -> outcome B),
    (forall i, i < n -> match h (k + i) with Ok _ => exists v, h2 (k + i) = Ok v | Throw => h2 (k + i) = Throw | UB => h2 (k + i) = UB end) ->
    match fill_from k n h with Ok l => length l = n /\ forall i d, i < n -> h (k + i) = Ok (nth i l d) | Throw => fill_from k n h2 = Throw | UB => fill_from k n h2 = UB end).
  { induction n as [|n IH]; intros k h h2 H; [split; [reflexivity|intros; lia]|]. cbn [fill_from]. pose proof (H 0 ltac:(lia)) as H0. rewrite Nat.add_0_r in H0.
    destruct (h k) as [v| |] eqn:E; cbn [obind]; [|rewrite H0; reflexivity|rewrite H0; reflexivity].
    destruct H0 as [v2 ->]. cbn [obind]. specialize (IH (S k) h h2). destruct (fill_from (S k) n h) as [l| |]; cbn [obind].
    - destruct IH as [L F]; [intros i I; replace (S k + i) with (k + S i) by lia; apply H; lia|]. split; [cbn [length]; lia|].
      intros [|i] d I; [rewrite Nat.add_0_r; exact E|]. replace (k + S i) with (S k + i) by lia. apply F. lia.
    - rewrite IH; [reflexivity|]. intros i I; replace (S k + i) with (k + S i) by lia; apply H; lia.
    - rewrite IH; [reflexivity|]. intros i I; replace (S k + i) with (k + S i) by lia; apply H; lia. }
  intros n h h2 H. apply (G n 0 h h2). exact H.
Qed.
Lemma fill_same : forall (A : Type) n (h h2 : nat -> outcome A), (forall i, i < n -> h i = h2 i) -> fill n h = fill n h2.
Proof.
  intros A. assert (G : forall n k (h h2 : nat -> outcome A), (forall i, i < n -> h (k + i) = h2 (k + i)) -> fill_from k n h = fill_from k n h2).
  { induction n as [|n IH]; intros k h h2 H; [reflexivity|]. cbn [fill_from]. pose proof (H 0 ltac:(lia)) as H0. rewrite Nat.add_0_r in H0. rewrite H0.
    rewrite (IH (S k) h h2); [reflexivity|]. intros i I; replace (S k + i) with (k + S i) by lia; apply H; lia. }
  intros n h h2 H. apply (G n 0). exact H.
Qed.

Lemma radius_from : forall s v i g, shows s v ->
  variable v (group_name i ++ str_of "p") (sg_p g) -> variable v (group_name i ++ str_of "xi") (sg_xi g) -> variable v (group_name i ++ str_of "f") (sg_f g) ->
  obind (get_group s i) soft_radius = soft_radius g /\ (forall g', get_group s i = Ok g' -> g' = g).
Proof.
  intros s v i [p xi f] H Vp Vx Vf. cbn [sg_p sg_xi sg_f] in *. unfold get_group.
  rewrite (get_vector_variable s v _ _ H Vp), (get_vector_variable s v _ _ H Vx), (get_array_variable s v _ _ H Vf).
  destruct p as [p|]; cbn [need obind]; [|split; [reflexivity|discriminate]].
  unfold soft_radius. cbn [sg_p sg_xi sg_f].
  destruct (read_vector (Some p)) as [lp| |] eqn:Ep; cbn [obind]; [|split; [reflexivity|discriminate]|split; [reflexivity|discriminate]].
  destruct xi as [xi|]; cbn [need obind]; [|split; [reflexivity|discriminate]].
  destruct (read_vector (Some xi)) as [lx| |] eqn:Ex; cbn [obind]; [|split; [reflexivity|discriminate]|split; [reflexivity|discriminate]].
  destruct f as [f|]; cbn [need obind sg_p sg_xi sg_f]; [|split; [reflexivity|discriminate]].
  rewrite Ep. cbn [obind]. rewrite Ex. cbn [obind need]. split; [reflexivity|]. intros g' E. injection E as <-. reflexivity.
Qed.

(** The values of a vector that has a length. *)
Lemma vector_of_length : forall a n, vector_length a = Ok n -> length (ma_data a) = ma_rows a * ma_cols a -> exists l, vector (Some a) l /\ length l = n.
Proof.
  intros a n H L. exists (ma_data a). unfold vector_length in H.
  destruct (Nat.eqb_spec (ma_rows a) 1) as [E|E].
  - injection H as <-. rewrite E, Nat.mul_1_l in L. split; [|exact L]. exists a. split; [reflexivity|left]. repeat split; try lia.
    intros j i J I. replace j with 0 by lia. cbn [Nat.mul Nat.add]. apply nth_error_nth'. exact I.
  - destruct (Nat.eqb_spec (ma_cols a) 1) as [E1|E1]; [|discriminate H]. injection H as <-. rewrite E1, Nat.mul_1_r in L. split; [|exact L]. exists a. split; [reflexivity|right].
    repeat split; try lia. intros j i J I. replace i with 0 by lia. rewrite Nat.mul_1_r, Nat.add_0_r. apply nth_error_nth'. exact J.
Qed.

Lemma variable_length : forall v n a, variable v n (Some a) -> length (ma_data a) = ma_rows a * ma_cols a.
Proof. intros v n a (q & _ & L & R1 & C1 & D1). rewrite D1, map_length, R1, C1. exact L. Qed.
Lemma read_vector_length : forall a l, read_vector (Some a) = Ok l -> vector_length a = Ok (length l).
Proof.
  intros a l H. unfold read_vector in H. cbn [need obind] in H. destruct (vector_length a) as [n| |]; try discriminate H. cbn [obind] in H.
  pose proof (fill_status _ _ n (aget a 0) (fun i => aget a 0 i)) as F. rewrite H in F. destruct F as [L _]; [|congruence].
  intros i _. destruct (aget a 0 i); eauto.
Qed.

Lemma get_magic_in : forall s v magic r groups, shows s v -> soft_in v magic r groups -> get_magic s = Ok magic.
Proof.
  intros s v magic r groups H (M & _). unfold get_magic. destruct magic as [b|].
  - destruct M as (t & T & E). destruct (sh_text _ _ H _ _ T) as [-> ->]. cbn [obind]. do 2 f_equal.
    change (str_of "distribution/soft") with soft_type in E.
    destruct (str_eqb t soft_type) eqn:Q; [apply str_eqb_eq in Q; destruct b; [reflexivity|]; symmetry; apply E; exact Q|].
    destruct b; [|reflexivity]. rewrite (proj1 E eq_refl), str_eqb_refl in Q. discriminate Q.
  - destruct (sh_missing _ _ H _ M) as [-> _]. reflexivity.
Qed.

Lemma soft_from_raw : forall s v magic r groups axis, shows s v -> soft_in v magic r groups -> soft_from s axis = soft_raw magic r groups axis.
Proof.
  intros s v magic r groups axis H SI. unfold soft_from. rewrite (get_magic_in s v magic r groups H SI). cbn [obind].
  destruct SI as (_ & VR & VG). destruct magic as [[|]|]; [|reflexivity|].
  1,2: rewrite (get_array_variable s v _ r H VR); unfold soft_raw; destruct r as [r|]; cbn [need obind]; [|reflexivity].
  1,2: destruct (vector_length r) as [nr| |] eqn:E; cbn [obind]; [|reflexivity|reflexivity].
  1,2: destruct (vector_of_length r nr E (variable_length _ _ _ VR)) as (rs & V & L).
  1,2: pose proof (fill_status _ _ nr (fun i => obind (get_group s i) (fun g => obind (soft_radius g) (fun _ => Ok g))) (fun i => soft_radius (groups i))) as F.
  1,2: assert (P : forall i, i < nr -> obind (get_group s i) soft_radius = soft_radius (groups i) /\ forall g', get_group s i = Ok g' -> g' = groups i).
  1,3: intros i I; apply (radius_from s v i (groups i) H);
    [apply (VG rs i _ V ltac:(lia)), group_name_for | apply (proj1 (proj2 (VG rs i _ V ltac:(lia)))), group_name_for | apply (proj2 (proj2 (VG rs i _ V ltac:(lia)))), group_name_for].
  1,2: assert (Q : forall i, i < nr -> match obind (get_group s i) (fun g => obind (soft_radius g) (fun _ => Ok g)) with
       Ok _ => exists v, soft_radius (groups i) = Ok v | Throw => soft_radius (groups i) = Throw | UB => soft_radius (groups i) = UB end).
  1,3: intros i I; destruct (P i I) as [P1 _]; rewrite <- P1; destruct (get_group s i) as [g| |]; cbn [obind]; [|reflexivity|reflexivity];
       destruct (soft_radius g); cbn [obind]; eauto.
  1,2: specialize (F Q); destruct (fill nr (fun i => obind (get_group s i) (fun g => obind (soft_radius g) (fun _ => Ok g)))) as [gs| |]; cbn [obind]; [|rewrite F; reflexivity|rewrite F; reflexivity].
  1,2: destruct F as [_ F]; f_equal; apply fill_same; intros i I; f_equal; destruct (P i I) as [_ P2]; apply P2;
       specialize (F i (SGroup None None None) I); destruct (get_group s i) as [g| |]; cbn [obind] in F; try discriminate F;
       destruct (soft_radius g); cbn [obind] in F; try discriminate F; exact F.
Qed.

(** * Old SOFT files *)
Lemma depr_from_raw : forall s v d, shows s v -> depr_in v d -> depr_from s = depr_raw d.
Proof.
  intros s v [r p xi f fp0 fxi0 fr0 u] H (Vr & Vp & Vx & Vf & V1 & V2 & V3 & Vu). cbn [dp_r dp_p dp_xi dp_f dp_fp0 dp_fxi0 dp_fr0 dp_units] in *.
  unfold depr_from. rewrite (get_vector_variable s v _ _ H Vr), (get_vector_variable s v _ _ H Vp), (get_vector_variable s v _ _ H Vx), (get_array_variable s v _ _ H Vf),
    (try_array_variable s v _ _ H V1), (try_array_variable s v _ _ H V2), (try_array_variable s v _ _ H V3).
  unfold depr_raw at 2. cbn [dp_r dp_p dp_xi dp_f dp_fp0 dp_fxi0 dp_fr0 dp_units].
  destruct r as [r|]; cbn [need obind]; [|reflexivity]. destruct (read_vector (Some r)) as [lr| |] eqn:Er; cbn [obind]; [|reflexivity|reflexivity].
  destruct p as [p|]; cbn [need obind]; [|reflexivity]. destruct (read_vector (Some p)) as [lp| |] eqn:Ep; cbn [obind]; [|reflexivity|reflexivity].
  destruct xi as [xi|]; cbn [need obind]; [|reflexivity]. destruct (read_vector (Some xi)) as [lx| |] eqn:Ex; cbn [obind]; [|reflexivity|reflexivity].
  rewrite (read_vector_length _ _ Er), (read_vector_length _ _ Ep), (read_vector_length _ _ Ex). cbn [obind].
  destruct f as [f|]; cbn [need obind]; [|reflexivity]. destruct (release f) as [[]| |] eqn:Ef; cbn [obind]; [|reflexivity|reflexivity].
  match goal with |- (if ?b then _ else _) = _ => destruct b eqn:ES end; [reflexivity|].
  destruct (depr_verify fp0 (ma_data f) (length lp) 1) as [[|]| |] eqn:E1; cbn [obind negb]; try reflexivity.
  destruct (depr_verify fxi0 (ma_data f) (length lx) (length lp)) as [[|]| |] eqn:E2; cbn [obind negb]; try reflexivity.
  destruct (depr_verify fr0 (ma_data f) (length lr) (length lp * length lx)) as [[|]| |] eqn:E3; cbn [obind negb]; try reflexivity.
  destruct u as [u|].
  - destruct (sh_text _ _ H _ _ Vu) as [_ ->]. cbn [need obind]. unfold depr_raw. cbn [dp_r dp_p dp_xi dp_f dp_fp0 dp_fxi0 dp_fr0 dp_units need obind].
    rewrite Er. cbn [obind]. rewrite Ep. cbn [obind]. rewrite Ex. cbn [obind]. rewrite Ef. cbn [obind]. rewrite ES, E1. cbn [obind]. rewrite E2. cbn [obind]. rewrite E3. cbn [obind].
    unfold str_of. rewrite string_of_list_ascii_of_string. reflexivity.
  - destruct (sh_missing _ _ H _ Vu) as (_ & -> & _). reflexivity.
Qed.

(** * LUKE files *)
Lemma luke_from_raw : forall s v l minr maxr, shows s v -> luke_in v l -> luke_from s minr maxr = luke_raw l minr maxr.
Proof.
  intros s v [r p b xi f] minr maxr H (Vr & Vp & Vb & Vx & Vf). cbn [lk_r lk_p lk_beta lk_xi lk_f] in *.
  unfold luke_from. rewrite (get_vector_variable s v _ _ H Vr), (get_vector_variable s v _ _ H Vp), (get_vector_variable s v _ _ H Vx), (get_array_variable s v _ _ H Vb).
  unfold luke_raw at 2. cbn [lk_r lk_p lk_beta lk_xi lk_f].
  destruct r as [r|]; cbn [need obind]; [|reflexivity]. destruct (read_vector (Some r)) as [lr| |] eqn:Er; cbn [obind]; [|reflexivity|reflexivity].
  destruct p as [p|]; cbn [need obind]; [|reflexivity]. destruct (read_vector (Some p)) as [lp| |] eqn:Ep; cbn [obind]; [|reflexivity|reflexivity].
  destruct b as [b|]; cbn [need obind]; [|reflexivity]. destruct (scalar b) as [lb| |] eqn:Eb; cbn [obind]; [|reflexivity|reflexivity].
  destruct xi as [xi|]; cbn [need obind]; [|reflexivity]. destruct (read_vector (Some xi)) as [lx| |] eqn:Ex; cbn [obind]; [|reflexivity|reflexivity].
  destruct f as [[dims data]|].
  - destruct Vf as (q & M & L & ->). rewrite (sh_multi _ _ H _ _ _ M). destruct (3 <? length dims) eqn:E; [apply Nat.ltb_lt in E; lia|]. cbn [plainly obind].
    unfold luke_raw. cbn [lk_r lk_p lk_beta lk_xi lk_f need obind]. rewrite Er. cbn [obind]. rewrite Ep. cbn [obind]. rewrite Eb. cbn [obind]. rewrite Ex. reflexivity.
  - destruct Vf as [M|(dims & data & M & L)].
    + destruct (sh_missing _ _ H _ M) as (_ & _ & _ & E). rewrite E. reflexivity.
    + rewrite (sh_multi _ _ H _ _ _ M). destruct (3 <? length dims) eqn:E; [reflexivity|apply Nat.ltb_ge in E; lia].
Qed.

(** * Files *)
Lemma read_file_open : forall A rn rs (go : dsource -> outcome A) w j k f t x, v_fs w f = FHdf x ->
  read_file rn rs go w j k f LOk t =
  (go (hdf_dsource rn rs k x),
   HWorld (v_fs w) (match go (hdf_dsource rn rs k x) with
                    | Ok _ => put_obj (put_obj (v_obj w) j (Some (HObj k (PFile f false)))) j (Some (HObj k PNull))
                    | _ => put_obj (v_obj w) j (Some (HObj k (PFile f false))) end)).
Proof.
  intros A rn rs go w j k f t x F. unfold read_file, hdf_create_obj, hdf_open. rewrite F. cbn [o_kind v_fs v_obj]. rewrite F. cbv zeta.
  destruct (go (hdf_dsource rn rs k x)); reflexivity.
Qed.
Lemma read_file_files : forall A rn rs (go : dsource -> outcome A) w j k f l t, v_fs (snd (read_file rn rs go w j k f l t)) = v_fs w.
Proof.
  intros. unfold read_file, hdf_create_obj, hdf_open.
  destruct (v_fs w f) as [| |x] eqn:F; try reflexivity.
  destruct l; try reflexivity. cbn [o_kind v_fs v_obj]. rewrite F. cbv zeta. cbn [snd].
  destruct (go (hdf_dsource rn rs k x)); reflexivity.
Qed.
Lemma read_file_missing : forall A rn rs (go : dsource -> outcome A) w j k f l t, (forall x, v_fs w f <> FHdf x) -> fst (read_file rn rs go w j k f l t) = Throw.
Proof.
  intros A rn rs go w j k f l t H. unfold read_file, hdf_create_obj, hdf_open. destruct (v_fs w f) as [| |x]; [reflexivity|reflexivity|].
  exfalso; apply (H x); reflexivity.
Qed.

(** * Written files *)
Lemma written_stored : forall rn rs f now k a, written rn rs f now k a -> exists y, v_fs now f = FHdf y /\ HdfProofs.stored k a y.
Proof.
  intros rn rs f now k a (w1 & i & w2 & tr & O & W & T & NR). cbn [do_hcall] in W. rewrite O in W.
  destruct (v_fs w1 f) as [| |h] eqn:F; try discriminate W. destruct (kind_write k h a) as [r h'] eqn:K. injection W as W1 W2.
  destruct r as [[]| |]; try discriminate W1. subst w2.
  destruct (run_kept rn rs _ tr now f T NR h') as (y & Y1 & Y2); [cbn [v_fs]; apply put_file_same|]. exists y. split; [exact Y1|].
  exact (stored_kept _ _ _ _ Y2 (kind_write_stored _ _ _ _ K)).
Qed.
Record within (v v' : view) : Prop := {
  wi_missing : forall n, missing v n -> missing v' n;
  wi_text : forall n t, has_text v n t -> has_text v' n t;
  wi_array : forall n a, has_array v n a -> has_array v' n a;
  wi_multi : forall n d l, has_multi v n d l -> has_multi v' n d l }.
Lemma written_within : forall rn rs f now k x, v_fs now f = FHdf x -> within (written_view rn rs f now k) (hdf_view k x).
Proof.
  intros rn rs f now k x F. split; cbn [written_view hdf_view missing has_text has_array has_multi].
  - intros n (y & Y & M). congruence.
  - intros n t (N & k0 & KK & W). destruct (written_stored _ _ _ _ _ _ W) as (y & Y & S). assert (y = x) by congruence. subst y. cbn [HdfProofs.stored] in S.
    split; [exact N|]. eexists; split; [exact S|]. destruct k0, k; [split; reflexivity|left; reflexivity|exfalso; apply KK; reflexivity|right; reflexivity].
  - intros n a (k0 & c & W & AW). destruct (written_stored _ _ _ _ _ _ W) as (y & Y & S). assert (y = x) by congruence. subst y.
    destruct AW as [n l|n nc rows NE FR|n r c l NE L]; cbn [HdfProofs.stored] in S; (eexists; split; [exact S|]); cbn [d_type d_data d_dims NumericModel.ma_data NumericModel.ma_rows NumericModel.ma_cols];
      (split; [discriminate|]); (split; [reflexivity|]).
    + split; [lia|]. split; [discriminate|]. right. split; reflexivity.
    + split; [|split; [destruct rows; [congruence|discriminate]|left; reflexivity]]. clear -FR. induction rows as [|r rows IH]; [reflexivity|]. cbn [concat length].
      inversion FR; subst. rewrite app_length, IH by assumption. reflexivity.
    + split; [exact L|]. split; [exact NE|]. left. reflexivity.
  - intros n dims l (k0 & W). destruct (written_stored _ _ _ _ _ _ W) as (y & Y & S). assert (y = x) by congruence. subst y. cbn [HdfProofs.stored] in S.
    eexists; split; [exact S|]. cbn [d_type d_dims d_data]. split; [discriminate|]. split; reflexivity.
Qed.
Lemma variable_within : forall v v' n o, within v v' -> variable v n o -> variable v' n o.
Proof.
  intros v v' n [a|] W V; cbn [variable] in *; [|apply (wi_missing _ _ W); exact V]. destruct V as (q & A & V). exists q. split; [apply (wi_array _ _ W); exact A|exact V].
Qed.
Lemma soft_within : forall v v' m r g, within v v' -> soft_in v m r g -> soft_in v' m r g.
Proof.
  intros v v' m r g W (M & V & G). split; [|split; [apply (variable_within v); assumption|]].
  - destruct m as [b|]; [|apply (wi_missing _ _ W); exact M]. destruct M as (t & T & E). exists t. split; [apply (wi_text _ _ W); exact T|exact E].
  - intros rs i n VR I. destruct (G rs i n VR I) as (G1 & G2 & G3). split; [|split]; intros N; (apply (variable_within v); [exact W|auto]).
Qed.
Lemma depr_within : forall v v' d, within v v' -> depr_in v d -> depr_in v' d.
Proof.
  intros v v' d W (V1 & V2 & V3 & V4 & V5 & V6 & V7 & U). unfold depr_in. repeat (split; [apply (variable_within v); assumption|]).
  destruct (dp_units d); [apply (wi_text _ _ W)|apply (wi_missing _ _ W)]; exact U.
Qed.
Lemma luke_within : forall v v' l, within v v' -> luke_in v l -> luke_in v' l.
Proof.
  intros v v' l W (V1 & V2 & V3 & V4 & F). unfold luke_in. repeat (split; [apply (variable_within v); assumption|]).
  destruct (lk_f l) as [[dims data]|].
  - destruct F as (q & M & F). exists q. split; [apply (wi_multi _ _ W); exact M|exact F].
  - destruct F as [M|(dims & data & M & F)]; [left; apply (wi_missing _ _ W); exact M|right]. exists dims, data. split; [apply (wi_multi _ _ W); exact M|exact F].
Qed.
Lemma written_file : forall rn rs f now k n a, variable (written_view rn rs f now k) n a -> exists x, v_fs now f = FHdf x.
Proof.
  intros rn rs f now k n [a|] V; cbn [variable written_view missing has_array] in V.
  - destruct V as (q & (k0 & c & W & _) & _). destruct (written_stored _ _ _ _ _ _ W) as (y & Y & _). exists y. exact Y.
  - destruct V as (x & F & _). exists x. exact F.
Qed.
