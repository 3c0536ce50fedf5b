(** Lemmas about file types, multi-dimensional tables and the HDF5/MAT back ends. *)
From Verif Require Import Base SettingsModel SettingsProofs SdtModel NumText DoubleText SdtSpec SdtProofs SdtReadProofs SFileModel.
From Coq Require Import ZArith QArith.
Local Open Scope Z_scope.

(** * File types *)
Definition dotless (s : str) : Prop := ~ In "."%char s.

Lemma after_last_dot_none : forall s, after_last_dot s = None <-> dotless s.
Proof.
  unfold dotless. induction s as [|c s IH]; cbn [after_last_dot]; [split; [intros _ []|reflexivity]|].
  destruct (after_last_dot s) as [e|].
  - split; [discriminate|]. intro H. exfalso. apply H. right.
    destruct (in_dec ascii_dec "."%char s) as [Hi|Hi]; [exact Hi|]. apply IH in Hi. discriminate.
  - destruct (Ascii.eqb_spec c "."%char) as [E|E].
    + split; [discriminate|]. intro H. exfalso. apply H. left. exact E.
    + split; [|reflexivity]. intros _ [H|H]; [apply E; exact H|]. apply (proj1 IH eq_refl H).
Qed.
Lemma after_last_dot_some : forall a e, dotless e -> after_last_dot (a ++ "."%char :: e) = Some e.
Proof.
  induction a as [|c a IH]; intros e H; cbn [app after_last_dot].
  - apply after_last_dot_none in H. rewrite H. reflexivity.
  - rewrite IH by exact H. reflexivity.
Qed.

(** * Multi-dimensional tables *)
Definition product (dims : list Z) : Z := fold_right Z.mul 1 dims.
(** Row-major position of an index vector. *)
Fixpoint row_major (dims idx : list Z) : Z :=
  match dims, idx with
  | _ :: ds, i :: is => i * product ds + row_major ds is
  | _, _ => 0
  end.
Definition in_range_idx (dims idx : list Z) : Prop := Forall2 (fun d i => 0 <= i < d) dims idx.

Fixpoint fwd (P : Z) (ds : list Z) : list (list Z) :=
  match ds with
  | [] => []
  | n :: r => map (fun j => Z.of_nat j * n) (seq 0 (Z.to_nat P)) :: fwd (P * n) r
  end.
Lemma product_app : forall a b, product (a ++ b) = product a * product b.
Proof. induction a as [|x a IH]; intro b; unfold product in *; cbn [app fold_right]; [lia|]. rewrite IH. lia. Qed.
Lemma fwd_app : forall a P n, fwd P (a ++ [n]) = fwd P a ++ [map (fun j => Z.of_nat j * n) (seq 0 (Z.to_nat (P * product a)))].
Proof.
  induction a as [|x a IH]; intros P n; cbn [app fwd].
  - unfold product. cbn [fold_right]. rewrite Z.mul_1_r. reflexivity.
  - rewrite IH. change (product (x :: a)) with (x * product a). rewrite Z.mul_assoc. reflexivity.
Qed.
Lemma build_tables_fwd : forall ds P acc, (forall d, In d ds -> 0 < d) ->
  build_tables (rev ds) (P * product ds) acc = Ok (fwd P ds ++ acc).
Proof.
  induction ds as [|n ds IH] using rev_ind; intros P acc H.
  - reflexivity.
  - rewrite rev_app_distr. cbn [rev app build_tables].
    assert (Hn : 0 < n) by (apply H; apply in_or_app; right; left; reflexivity).
    replace (n =? 0) with false by (symmetry; apply Z.eqb_neq; lia).
    rewrite product_app. change (product [n]) with (n * 1).
    replace (P * (product ds * (n * 1)) / n) with (P * product ds).
    2:{ replace (P * (product ds * (n * 1))) with (P * product ds * n) by ring. rewrite Z.div_mul by lia. reflexivity. }
    rewrite IH by (intros d Hd; apply H; apply in_or_app; left; exact Hd).
    rewrite fwd_app, <- app_assoc. reflexivity.
Qed.

Lemma nth_error_seq_map : forall (f : nat -> Z) n i, (i < n)%nat -> nth_error (map f (seq 0 n)) i = Some (f i).
Proof.
  intros f n i H. rewrite nth_error_map, nth_error_nth' with (d := O) by (rewrite seq_length; exact H).
  cbn [option_map]. rewrite seq_nth by exact H. reflexivity.
Qed.

Lemma deref_fwd : forall ds P off i is, 0 <= off + i < P -> in_range_idx ds is ->
  deref (fwd P ds) off (i :: is) = Ok ((off + i) * product ds + row_major ds is).
Proof.
  induction ds as [|n ds IH]; intros P off i is H Hr.
  - inversion Hr; subst. cbn [fwd deref]. unfold product. cbn [fold_right row_major]. f_equal. lia.
  - inversion Hr as [|x y l l' Hxy Hl]; subst. cbn [fwd deref].
    replace (off + i <? 0) with false by (symmetry; apply Z.ltb_ge; lia).
    rewrite nth_error_seq_map by lia. rewrite Z2Nat.id by lia.
    rewrite IH; [|nia|exact Hl]. cbn [row_major]. change (product (n :: ds)) with (n * product ds). f_equal. ring.
Qed.

Lemma row_major_bound : forall ds is, (forall d, In d ds -> 0 < d) -> in_range_idx ds is -> 0 <= row_major ds is < product ds.
Proof.
  induction ds as [|n ds IH]; intros is H Hr; inversion Hr as [|x y l l' Hxy Hl]; subst; cbn [row_major].
  - unfold product. cbn [fold_right]. lia.
  - change (product (n :: ds)) with (n * product ds).
    specialize (IH l' (fun d Hd => H d (or_intror Hd)) Hl). nia.
Qed.
Lemma product_pos : forall ds, (forall d, In d ds -> 0 < d) -> 0 < product ds.
Proof.
  induction ds as [|n ds IH]; intro H; [reflexivity|]. change (product (n :: ds)) with (n * product ds).
  assert (A := H n (or_introl eq_refl)). assert (B := IH (fun d Hd => H d (or_intror Hd))). nia.
Qed.
Lemma prod64_product : forall ds a, 0 < a -> (forall d, In d ds -> 0 < d) -> a * product ds < 2 ^ 64 ->
  fold_left (fun a d => (a * d) mod 2 ^ 64) ds a = a * product ds.
Proof.
  induction ds as [|n ds IH]; intros a Ha H Hb; cbn [fold_left].
  - unfold product. cbn [fold_right]. lia.
  - change (product (n :: ds)) with (n * product ds) in *.
    assert (A := H n (or_introl eq_refl)). assert (B := product_pos ds (fun d Hd => H d (or_intror Hd))).
    rewrite Z.mod_small by nia.
    rewrite IH; [ring|nia|intros d Hd; apply H; right; exact Hd|].
    replace (a * n * product ds) with (a * (n * product ds)) by ring. exact Hb.
Qed.

Lemma multi_tables_ok : forall d0 ds, ds <> [] -> (forall d, In d (d0 :: ds) -> 0 < d) -> product (d0 :: ds) < 2 ^ 64 ->
  multi_tables (d0 :: ds) = Ok (fwd d0 ds).
Proof.
  intros d0 ds Hne Hp Hb. unfold multi_tables. destruct ds as [|d1 ds]; [contradiction|].
  cbn [tl]. unfold prod64. rewrite (prod64_product (d0 :: d1 :: ds) 1); [|lia|exact Hp|lia].
  rewrite Z.mul_1_l. change (product (d0 :: d1 :: ds)) with (d0 * product (d1 :: ds)).
  rewrite build_tables_fwd by (intros d Hd; apply Hp; right; exact Hd). rewrite app_nil_r. reflexivity.
Qed.

Lemma multi_tables_deref : forall dims idx, (2 <= length dims)%nat -> (forall d, In d dims -> 0 < d) -> product dims < 2 ^ 64 ->
  in_range_idx dims idx ->
  exists ts, multi_tables dims = Ok ts /\ deref ts 0 idx = Ok (row_major dims idx) /\ 0 <= row_major dims idx < product dims.
Proof.
  intros dims idx Hl Hp Hb Hr. destruct dims as [|d0 ds]; [cbn [length] in Hl; lia|].
  exists (fwd d0 ds). split; [|split].
  - apply multi_tables_ok; [|exact Hp|exact Hb]. destruct ds; [cbn [length] in Hl; lia|discriminate].
  - inversion Hr as [|x i l is Hi His]; subst. rewrite deref_fwd by (lia || assumption). reflexivity.
  - apply row_major_bound; assumption.
Qed.

(** Row-major positions are distinct. *)
Lemma row_major_inj : forall ds a b, (forall d, In d ds -> 0 < d) -> in_range_idx ds a -> in_range_idx ds b ->
  row_major ds a = row_major ds b -> a = b.
Proof.
  induction ds as [|n ds IH]; intros a b H Ha Hb E; inversion Ha as [|x i l la Hi Hla]; inversion Hb as [|x' j l' lb Hj Hlb]; subst.
  - reflexivity.
  - cbn [row_major] in E. assert (Hp : forall d, In d ds -> 0 < d) by (intros d Hd; apply H; right; exact Hd).
    assert (A := row_major_bound ds la Hp Hla). assert (B := row_major_bound ds lb Hp Hlb).
    assert (i = j) by nia. subst j. f_equal. apply IH; try assumption. lia.
Qed.

Lemma build_tables_zero : forall ds nel acc, In 0 ds -> build_tables ds nel acc = UB.
Proof.
  induction ds as [|n ds IH]; intros nel acc H; [destruct H|]. cbn [build_tables].
  destruct (n =? 0) eqn:E; [reflexivity|]. apply Z.eqb_neq in E. destruct H as [H|H]; [lia|]. apply IH. exact H.
Qed.

(** * HDF5 *)
Lemma find_app_new : forall (A : Type) k (v : A) l, find k l = None -> find k (l ++ [(k, v)]) = Some v.
Proof.
  intros A k v l H. induction l as [|[k0 v0] l IH]; cbn [find app] in *; [rewrite str_eqb_refl; reflexivity|].
  destruct (str_eqb k k0); [discriminate|]. apply IH. exact H.
Qed.
Lemma find_app_other : forall (A : Type) k k' (v : A) l, k <> k' -> find k (l ++ [(k', v)]) = find k l.
Proof.
  intros A k k' v l H. induction l as [|[k0 v0] l IH]; cbn [find app].
  - destruct (str_eqb_spec k k'); [contradiction|reflexivity].
  - destruct (str_eqb k k0); [reflexivity|exact IH].
Qed.
Lemma h5_create_ok : forall f name d f', h5_create f name d = Ok f' ->
  find name f = None /\ find name f' = Some d /\ forall k, k <> name -> find k f' = find k f.
Proof.
  intros f name d f' H. unfold h5_create in H. destruct (find name f) eqn:E; [discriminate|]. inversion H; subst.
  split; [reflexivity|]. split; [apply find_app_new; exact E|]. intros k Hk. apply find_app_other. exact Hk.
Qed.

Lemma pieces_concat : forall (A : Type) (rows : list (list A)) n, (forall r, In r rows -> length r = n) ->
  pieces (length rows) n (concat rows) = rows.
Proof.
  induction rows as [|r rows IH]; intros n H; [reflexivity|]. cbn [length pieces concat].
  assert (L := H r (or_introl eq_refl)). subst n.
  rewrite firstn_app, Nat.sub_diag, firstn_O, app_nil_r, firstn_all.
  rewrite skipn_app, Nat.sub_diag, skipn_O, skipn_all. cbn [app].
  rewrite IH by (intros x Hx; apply H; right; exact Hx). reflexivity.
Qed.

(** * MAT strings *)
Lemma ushort_char : forall c, char_of_code (Qnum (inject_Z (ushort_of_char c))) = c.
Proof.
  intro c. cbn [inject_Z Qnum]. unfold ushort_of_char. rewrite <- (char_code_inv c) at 2. unfold char_of_code.
  f_equal. f_equal. rewrite <- Znumtheory.Zmod_div_mod; [reflexivity|lia|lia|exists 256; reflexivity].
Qed.
Lemma until_nul_spec : forall s, until_nul s = s <-> ~ In cNUL s.
Proof.
  induction s as [|c s IH]; cbn [until_nul]; [split; [intros _ []|reflexivity]|].
  destruct (Ascii.eqb_spec c cNUL) as [E|E].
  - split; [discriminate|]. intro H. exfalso. apply H. left. exact E.
  - split.
    + intros H [H2|H2]; [apply E; exact H2|]. inversion H as [H3]. apply IH in H3. contradiction.
    + intro H. f_equal. apply IH. intro H2. apply H. right. exact H2.
Qed.
Lemma until_nul_app : forall a b, ~ In cNUL a -> until_nul (a ++ cNUL :: b) = a.
Proof.
  induction a as [|c a IH]; intros b H; cbn [app until_nul]; [reflexivity|].
  destruct (Ascii.eqb_spec c cNUL) as [E|E]; [exfalso; apply H; left; exact E|].
  rewrite IH by (intro H2; apply H; right; exact H2). reflexivity.
Qed.

Lemma mat_string_read : forall f f' name v, mat_write_string f name v = Ok f' -> mat_get_string f' name = Ok (until_nul v).
Proof.
  intros f f' name v H. unfold mat_write_string in H. apply h5_create_ok in H. destruct H as (_ & F & _).
  unfold mat_get_string. rewrite F. cbn [d_dims d_type d_data]. rewrite map_length, Z.eqb_refl, map_map.
  f_equal. f_equal. rewrite <- (map_id v) at 2. apply map_ext. apply ushort_char.
Qed.

(** * The MAT header *)
Lemma digits_len2 : forall z, 0 <= z < 100 -> length (show2 z) = 2%nat.
Proof.
  intros z H. unfold show2, show_int. replace (z <? 0) with false by (symmetry; apply Z.ltb_ge; lia).
  destruct (show_nat_spec z ltac:(lia)) as (_ & _ & N & C & L).
  destruct (z <? 10) eqn:E.
  - apply Z.ltb_lt in E. unfold show_nat. cbn [length]. rewrite rev_length, digits_rev_S.
    replace (z <? 10) with true by (symmetry; apply Z.ltb_lt; lia). reflexivity.
  - apply Z.ltb_ge in E. specialize (C E).
    assert (1 < Z.of_nat (length (show_nat z))).
    { apply (Z.pow_lt_mono_r_iff 10); [lia|lia|]. change (10 ^ 1) with 10. lia. }
    assert (Z.of_nat (length (show_nat z)) - 1 < 2).
    { apply (Z.pow_lt_mono_r_iff 10); [lia|lia|]. change (10 ^ 2) with 100. lia. }
    lia.
Qed.
Lemma year_len : forall y, 1000 <= y < 10000 -> length (show_int y) = 4%nat.
Proof.
  intros z H. unfold show_int. replace (z <? 0) with false by (symmetry; apply Z.ltb_ge; lia).
  destruct (show_nat_spec z ltac:(lia)) as (_ & _ & N & C & L). specialize (C ltac:(lia)).
  assert (3 < Z.of_nat (length (show_nat z))).
  { apply (Z.pow_lt_mono_r_iff 10); [lia|lia|]. change (10 ^ 3) with 1000. lia. }
  assert (Z.of_nat (length (show_nat z)) - 1 < 4).
  { apply (Z.pow_lt_mono_r_iff 10); [lia|lia|]. change (10 ^ 4) with 10000. lia. }
  lia.
Qed.

Definition valid_tm (t : tm) : Prop :=
  0 <= t_wday t <= 6 /\ 0 <= t_mon t <= 11 /\ 1 <= t_mday t <= 31 /\ 0 <= t_hour t <= 23 /\
  0 <= t_min t <= 59 /\ 0 <= t_sec t <= 60 /\ 1000 <= t_year t < 10000.

Lemma nth_names : forall (l : list str) i n, Forall (fun s => length s = 3%nat) l -> length l = n -> 0 <= i < Z.of_nat n ->
  at_array l i = Ok (nth (Z.to_nat i) l []) /\ length (nth (Z.to_nat i) l []) = 3%nat.
Proof.
  intros l i n H L Hi. unfold at_array. replace (i <? 0) with false by (symmetry; apply Z.ltb_ge; lia).
  rewrite (nth_error_nth' l []) by lia. split; [reflexivity|].
  rewrite Forall_forall in H. apply H. apply nth_In. lia.
Qed.
Lemma day_names_3 : Forall (fun s => length s = 3%nat) day_names. Proof. repeat constructor. Qed.
Lemma month_names_3 : Forall (fun s => length s = 3%nat) month_names. Proof. repeat constructor. Qed.

Lemma mat_header_ok : forall t, valid_tm t -> 1 <= t_mon t ->
  exists s, mat_header t = Ok s /\ length s = 116%nat /\
    firstn 59 s = str_of "MATLAB 7.3 MAT-file, Platform: libsoft, Created on: " ++
      nth (Z.to_nat (t_wday t)) day_names [] ++ cSP :: nth (Z.to_nat (t_mon t - 1)) month_names [].
Proof.
  intros t (H1 & H2 & H3 & H4 & H5 & H6 & H7) Hm. unfold mat_header.
  destruct (nth_names day_names (t_wday t) 7 day_names_3 eq_refl ltac:(lia)) as [D DL].
  destruct (nth_names month_names (t_mon t - 1) 12 month_names_3 eq_refl ltac:(lia)) as [M ML].
  rewrite D. cbn [obind]. rewrite M. cbn [obind].
  set (day := nth (Z.to_nat (t_wday t)) day_names []) in *. set (mon := nth (Z.to_nat (t_mon t - 1)) month_names []) in *.
  set (P := str_of "MATLAB 7.3 MAT-file, Platform: libsoft, Created on: ").
  set (tail := cSP :: show2 (t_mday t) ++ cSP :: show2 (t_hour t) ++ ":"%char :: show2 (t_min t) ++ ":"%char ::
     show2 (t_sec t) ++ cSP :: show_int (t_year t) ++ str_of " HDF5 schema 1.00 .").
  assert (E : P ++ day ++ cSP :: mon ++ tail = (P ++ day ++ cSP :: mon) ++ tail).
  { repeat (rewrite <- app_assoc || rewrite <- app_comm_cons). reflexivity. }
  fold tail. rewrite E.
  assert (LP : length (P ++ day ++ cSP :: mon) = 59%nat).
  { rewrite !app_length. cbn [length]. rewrite DL, ML. reflexivity. }
  assert (LT : length tail = 36%nat).
  { unfold tail. cbn [length]. repeat (rewrite app_length; cbn [length]). rewrite !digits_len2 by lia. rewrite year_len by lia. reflexivity. }
  rewrite app_length, LP, LT. change (Nat.ltb 116 (59 + 36)) with false. cbv iota.
  eexists. split; [reflexivity|]. split.
  - unfold pad_to. rewrite app_length, repeat_length, app_length, LP, LT. reflexivity.
  - unfold pad_to. rewrite <- app_assoc, firstn_app, LP, Nat.sub_diag, firstn_O, app_nil_r. rewrite <- LP. apply firstn_all.
Qed.

(** * Statements used by the properties *)
Lemma type_of_name : forall a e, dotless e ->
  type_of_file (a ++ "."%char :: e) =
    (if (str_eqb e (str_of "h5") || str_eqb e (str_of "hdf5"))%bool then FHdf5
     else if str_eqb e (str_of "mat") then FMatlab
     else if (str_eqb e (str_of "sdt") || str_eqb e (str_of "out"))%bool then FSdt else FUnknown) /\
  type_of_file e = FUnknown.
Proof.
  intros a e H. split.
  - unfold type_of_file. rewrite after_last_dot_some by exact H. unfold file_type.
    destruct (str_eqb e (str_of "h5")), (str_eqb e (str_of "hdf5")), (str_eqb e (str_of "mat")),
      (str_eqb e (str_of "sdt")), (str_eqb e (str_of "out")); reflexivity.
  - unfold type_of_file. apply after_last_dot_none in H. rewrite H. reflexivity.
Qed.
Lemma create_name : forall hdf5 name,
  (type_of_file name = FUnknown -> create hdf5 name = Throw) /\
  (type_of_file name = FHdf5 -> create hdf5 name = if hdf5 then Ok FHdf5 else Throw) /\
  (type_of_file name <> FUnknown -> type_of_file name <> FHdf5 -> create hdf5 name = Ok (type_of_file name)).
Proof.
  intros h name. unfold create. destruct (type_of_file name); (split; [|split]); intros; try reflexivity; try discriminate; try contradiction.
Qed.

Lemma pieces_one : forall (A : Type) (l : list A) k, (forall x, In x (pieces (length l) 1 l) -> True) -> k = length l ->
  concat (pieces k 1 l) = l.
Proof.
  intros A l. induction l as [|x l IH]; intros k _ E; subst k; [reflexivity|].
  cbn [length pieces firstn skipn concat app]. f_equal. apply IH; auto.
Qed.
Lemma h5_list_scalar : forall f n d, find n f = Some d -> d_type d <> HString ->
  (forall k, d_dims d = [k] -> get_list (h5_get2d f n) = Ok (d_data d) /\
     (k <> 1 -> get_scalar (h5_get2d f n) = Throw) /\
     (forall q, k = 1 -> d_data d = [q] -> get_scalar (h5_get2d f n) = Ok q)) /\
  (forall a b, d_dims d = [a; b] -> 0 <= a -> 0 <= b -> Z.of_nat (length (d_data d)) = a * b ->
     (a = 1 \/ (b = 1 /\ a <> 0) -> get_list (h5_get2d f n) = Ok (d_data d)) /\
     (a = 0 -> b = 1 -> get_list (h5_get2d f n) = UB) /\
     (a <> 1 -> b <> 1 -> get_list (h5_get2d f n) = Throw) /\
     (a <> 1 \/ b <> 1 -> get_scalar (h5_get2d f n) = Throw) /\
     (forall q, a = 1 -> b = 1 -> d_data d = [q] -> get_scalar (h5_get2d f n) = Ok q)).
Proof.
  intros f n d F T. unfold h5_get2d. rewrite F. assert (N : numeric (d_type d) = true) by (destruct (d_type d); [reflexivity..|contradiction|reflexivity]).
  rewrite N. split.
  - intros k E. rewrite E. cbn [get_list get_scalar obind]. split; [|split].
    + change (1 =? 1) with true. cbn [orb concat]. rewrite app_nil_r. reflexivity.
    + intro H. change (1 =? 1) with true. replace (k =? 1) with false by (symmetry; apply Z.eqb_neq; exact H). reflexivity.
    + intros q Hk Hq. subst k. rewrite Hq. reflexivity.
  - intros a b E Ha Hb L. rewrite E. cbn [get_list get_scalar obind]. split; [|split; [|split; [|split]]].
    + intro H. assert (((a =? 1) || (b =? 1))%bool = true) as -> by (apply orb_true_iff; rewrite !Z.eqb_eq; lia).
      assert (C : concat (pieces (Z.to_nat a) (Z.to_nat b) (d_data d)) = d_data d).
      { destruct H as [H|[H _]].
        - subst a. change (Z.to_nat 1) with 1%nat. cbn [pieces concat]. rewrite app_nil_r.
          replace (Z.to_nat b) with (length (d_data d)) by lia. apply firstn_all.
        - subst b. apply pieces_one; [auto|lia]. }
      rewrite C. destruct (Z.to_nat a) eqn:A0; [exfalso; lia|]. reflexivity.
    + intros H1 H2. subst a b. reflexivity.
    + intros H1 H2. assert (((a =? 1) || (b =? 1))%bool = false) as -> by (apply orb_false_iff; rewrite !Z.eqb_neq; auto). reflexivity.
    + intro H. assert ((negb (a =? 1) || negb (b =? 1))%bool = true) as -> by
        (apply orb_true_iff; rewrite !negb_true_iff, !Z.eqb_neq; exact H). reflexivity.
    + intros q H1 H2 Hq. subst a b. rewrite Hq. reflexivity.
Qed.

Lemma h5_shapes : forall t f name f', t <> HString ->
  (forall l, h5_write_list t f name l = Ok f' -> h5_get2d f' name = Ok (1, Z.of_nat (length l), [l]) /\ h5_get1d f' name = Ok l) /\
  (forall nc rows, (forall r, In r rows -> length r = nc) -> h5_write_array t f name nc rows = Ok f' ->
     h5_get2d f' name = Ok (Z.of_nat (length rows), Z.of_nat nc, rows)) /\
  (forall dims data k, (length dims <= k)%nat -> h5_write_multi t f name dims data = Ok f' -> h5_get_multi f' name k = Ok (Some (dims, data))).
Proof.
  intros t f name f' T. assert (N : numeric t = true) by (destruct t; [reflexivity..|contradiction|reflexivity]). split; [|split].
  - intros l H. apply h5_create_ok in H. destruct H as (_ & F & _). unfold h5_get2d, h5_get1d. rewrite F. cbn [d_dims d_type d_data]. rewrite N. split; reflexivity.
  - intros nc rows Hr H. unfold h5_write_array in H. destruct rows as [|r0 rows]; [discriminate|].
    apply h5_create_ok in H. destruct H as (_ & F & _). unfold h5_get2d. rewrite F. cbn [d_dims d_type d_data].
    rewrite N, !Nat2Z.id, pieces_concat by exact Hr. reflexivity.
  - intros dims data k Hk H. apply h5_create_ok in H. destruct H as (_ & F & _). unfold h5_get_multi. rewrite F. cbn [d_dims d_type d_data]. rewrite N.
    replace (Nat.ltb k (length dims)) with false by (symmetry; apply Nat.ltb_ge; exact Hk). reflexivity.
Qed.
Lemma h5_text : forall f name d k, find name f = Some d -> d_type d = HString ->
  (length (d_dims d) = 1 \/ length (d_dims d) = 2)%nat -> (length (d_dims d) <= k)%nat ->
  h5_get2d f name = Throw /\ h5_get1d f name = Throw /\ h5_get_multi f name k = Throw.
Proof.
  intros f name d k F T L K. unfold h5_get2d, h5_get1d, h5_get_multi. rewrite F, T.
  replace (Nat.ltb k (length (d_dims d))) with false by (symmetry; apply Nat.ltb_ge; exact K).
  destruct (d_dims d) as [|x [|y [|z r]]]; cbn [length] in L; try (exfalso; lia); repeat split; reflexivity.
Qed.
Lemma h5_missing : forall f name k, h5_has f name = false ->
  h5_get2d f name = Throw /\ h5_get1d f name = Throw /\ h5_get_multi f name k = Throw.
Proof.
  intros f name k H. unfold h5_has in H. unfold h5_get2d, h5_get1d, h5_get_multi.
  destruct (find name f); [discriminate H|]. repeat split; reflexivity.
Qed.
Lemma h5_others : forall t f name f' other, other <> name ->
  (forall l, h5_write_list t f name l = Ok f' -> h5_get2d f' other = h5_get2d f other) /\
  (forall nc rows, h5_write_array t f name nc rows = Ok f' -> h5_get2d f' other = h5_get2d f other).
Proof.
  intros t f name f' other Ho. split.
  - intros l H. apply h5_create_ok in H. destruct H as (_ & _ & F). unfold h5_get2d. rewrite (F other Ho). reflexivity.
  - intros nc rows H. unfold h5_write_array in H. destruct rows; [discriminate|].
    apply h5_create_ok in H. destruct H as (_ & _ & F). unfold h5_get2d. rewrite (F other Ho). reflexivity.
Qed.
Lemma h5_new_names : forall t f name l,
  (h5_has f name = false -> exists f', h5_write_list t f name l = Ok f' /\ h5_has f' name = true) /\
  (h5_has f name = true -> h5_write_list t f name l = Throw).
Proof.
  intros t f name l. unfold h5_has, h5_write_list, h5_create. destruct (find name f) eqn:E; split; intro H; try discriminate; try reflexivity.
  eexists. split; [reflexivity|]. rewrite find_app_new by exact E. reflexivity.
Qed.
Lemma mat_strings : forall f f' name v, mat_write_string f name v = Ok f' ->
  (~ In cNUL v -> mat_get_string f' name = Ok v) /\
  (forall a b, v = a ++ cNUL :: b -> ~ In cNUL a -> mat_get_string f' name = Ok a).
Proof.
  intros f f' name v H. apply mat_string_read in H. split.
  - intro N. apply until_nul_spec in N. rewrite N in H. exact H.
  - intros a b E N. rewrite E, until_nul_app in H by exact N. exact H.
Qed.

Lemma multi_tables_all : forall dims, (2 <= length dims)%nat -> (forall d, In d dims -> 0 < d) -> product dims < 2 ^ 64 ->
  exists ts, multi_tables dims = Ok ts /\ forall idx, in_range_idx dims idx ->
    deref ts 0 idx = Ok (row_major dims idx) /\ 0 <= row_major dims idx < product dims /\
    forall idx', in_range_idx dims idx' -> row_major dims idx = row_major dims idx' -> idx = idx'.
Proof.
  intros dims Hl Hp Hb. destruct dims as [|d0 ds] eqn:E; [cbn [length] in Hl; lia|]. rewrite <- E in *.
  assert (M : multi_tables dims = Ok (fwd d0 ds)).
  { rewrite E in *. apply multi_tables_ok; [destruct ds; [cbn [length] in Hl; lia|discriminate]|exact Hp|exact Hb]. }
  exists (fwd d0 ds). split; [exact M|]. intros idx Hi.
  destruct (multi_tables_deref dims idx Hl Hp Hb Hi) as (ts & T1 & T2 & T3). rewrite M in T1. inversion T1; subst ts.
  split; [exact T2|]. split; [exact T3|]. intros idx' Hi' Er. apply (row_major_inj dims); assumption.
Qed.
Lemma multi_tables_outside : forall d ds ts i idx, ds <> [] -> (forall x, In x (d :: ds) -> 0 < x) -> product (d :: ds) < 2 ^ 64 ->
  multi_tables (d :: ds) = Ok ts -> i < 0 \/ d <= i -> deref ts 0 (i :: idx) = UB.
Proof.
  intros d ds ts i idx Hd Hp Hb M Hi. rewrite (multi_tables_ok d ds Hd Hp Hb) in M. injection M; intros <-.
  destruct ds as [|n ds]; [contradiction|]. cbn [fwd deref]. assert (D : 0 < d) by (apply Hp; left; reflexivity).
  destruct (Z.ltb_spec (0 + i) 0) as [L|L]; [reflexivity|].
  replace (nth_error _ (Z.to_nat (0 + i))) with (@None Z); [reflexivity|].
  symmetry. apply nth_error_None. rewrite map_length, seq_length. lia.
Qed.
Lemma multi_tables_ub : forall dims, (length dims < 2)%nat \/ (exists d ds, dims = d :: ds /\ (2 <= length dims)%nat /\ In 0 ds) ->
  multi_tables dims = UB.
Proof.
  intros dims [H|(d & ds & E & L & H)].
  - destruct dims as [|a [|b r]]; try reflexivity. cbn [length] in H. lia.
  - subst dims. destruct ds as [|d1 ds]; [destruct H|]. unfold multi_tables. apply build_tables_zero. apply in_rev in H. exact H.
Qed.

Lemma mat_header_all : forall t, valid_tm t ->
  (1 <= t_mon t -> exists x, mat_header t = Ok x /\ length x = 116%nat /\
     firstn 59 x = str_of "MATLAB 7.3 MAT-file, Platform: libsoft, Created on: " ++
       nth (Z.to_nat (t_wday t)) day_names [] ++ cSP :: nth (Z.to_nat (t_mon t - 1)) month_names []) /\
  (t_mon t = 0 -> mat_header t = UB).
Proof.
  intros t H. split; [apply mat_header_ok; exact H|]. intro M. unfold mat_header. rewrite M.
  destruct H as (H1 & _). destruct (nth_names day_names (t_wday t) 7 day_names_3 eq_refl ltac:(lia)) as [D _]. rewrite D. reflexivity.
Qed.
Lemma month_names_differ : forall i, 1 <= i <= 11 -> nth (Z.to_nat (i - 1)) month_names [] <> nth (Z.to_nat i) month_names [].
Proof.
  intros i H E.
  assert (C : i = 1 \/ i = 2 \/ i = 3 \/ i = 4 \/ i = 5 \/ i = 6 \/ i = 7 \/ i = 8 \/ i = 9 \/ i = 10 \/ i = 11) by lia.
  repeat (destruct C as [C|C]; [subst i; vm_compute in E; discriminate|]). subst i. vm_compute in E. discriminate.
Qed.
Lemma mat_header_month : ~ exists t x, valid_tm t /\ mat_header t = Ok x /\
  firstn 59 x = str_of "MATLAB 7.3 MAT-file, Platform: libsoft, Created on: " ++
    nth (Z.to_nat (t_wday t)) day_names [] ++ cSP :: nth (Z.to_nat (t_mon t)) month_names [].
Proof.
  intros (t & x & V & M & F). destruct (mat_header_all t V) as [A B].
  assert (V' := V). destruct V' as (_ & Vm & _).
  destruct (Z.eq_dec (t_mon t) 0) as [Z0|Z0]; [rewrite (B Z0) in M; discriminate|].
  destruct A as (y & M' & _ & F'); [lia|]. rewrite M in M'. inversion M'; subst y. rewrite F in F'.
  apply app_inv_head in F'. apply app_inv_head in F'. inversion F' as [E]. apply (month_names_differ (t_mon t)); [lia|].
  symmetry. exact E.
Qed.

Lemma mat_multi_int : forall t cls f name dims data, t <> HString ->
  fst (mat_write_multi_int t cls f name dims data) = Throw /\
  (h5_has f name = false -> forall k, (length dims <= k)%nat ->
     h5_get_multi (snd (mat_write_multi_int t cls f name dims data)) name k = Ok (Some (dims, data))) /\
  (h5_has f name = true -> snd (mat_write_multi_int t cls f name dims data) = f).
Proof.
  intros t cls f name dims data T. assert (N : numeric t = true) by (destruct t; [reflexivity..|contradiction|reflexivity]). unfold mat_write_multi_int, h5_write_multi, mat_write_string, h5_has, h5_create.
  destruct (find name f) eqn:E.
  - split; [reflexivity|]. split; [discriminate|reflexivity].
  - rewrite find_app_new by exact E. split; [reflexivity|]. split; [|discriminate].
    intros _ k Hk. cbn [snd]. unfold h5_get_multi. rewrite find_app_new by exact E. cbn [d_dims d_type d_data]. rewrite N.
    replace (Nat.ltb k (length dims)) with false by (symmetry; apply Nat.ltb_ge; exact Hk). reflexivity.
Qed.

Lemma h5_types : forall t f name f',
  (exists l, h5_write_list t f name l = Ok f') \/ (exists nc rows, h5_write_array t f name nc rows = Ok f') \/
  (exists dims data, h5_write_multi t f name dims data = Ok f') ->
  (t = HDouble -> h5_type f' name = Some SDouble) /\ (t = HI32 -> h5_type f' name = Some SInt32) /\ (t = HI64 -> h5_type f' name = Some SInt64) /\
  (t = HU32 -> h5_type f' name = Some SUInt32) /\ (t = HU64 -> h5_type f' name = Some SUInt64) /\
  forall other, other <> name -> h5_type f' other = h5_type f other.
Proof.
  intros t f name f' H.
  assert (X : exists d, d_type d = t /\ h5_create f name d = Ok f').
  { destruct H as [(l & H)|[(nc & rows & H)|(dims & data & H)]].
    - eexists. split; [|exact H]. reflexivity.
    - unfold h5_write_array in H. destruct rows; [discriminate H|]. eexists. split; [|exact H]. reflexivity.
    - eexists. split; [|exact H]. reflexivity. }
  destruct X as (d & Ed & X). apply h5_create_ok in X. destruct X as (_ & X1 & X2).
  unfold h5_type. rewrite X1, Ed.
  repeat (split; [intro E; subst t; rewrite E; reflexivity|]). intros other Ho. rewrite (X2 other Ho). reflexivity.
Qed.

Lemma mat_attributes : forall f f' d n v, mat_write_attr f d n v = Ok f' -> mat_get_attr f' d n = Ok v /\
  forall d' n', attr_name d' n' <> attr_name d n -> mat_get_attr f' d' n' = mat_get_attr f d' n'.
Proof.
  intros f f' d n v H. unfold mat_write_attr, h5_write_list in H. apply h5_create_ok in H. destruct H as (_ & X1 & X2).
  unfold mat_get_attr, h5_get2d. split; [rewrite X1; reflexivity|]. intros d' n' Hn. rewrite (X2 _ Hn). reflexivity.
Qed.
