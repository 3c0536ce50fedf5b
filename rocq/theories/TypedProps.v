(** C93: reading integers from variables of any type.
    Only statements, references to the proofs, assumptions and examples. *)
From Verif Require Import Base SettingsModel SettingsProofs SdtModel SdtSpec SdtProofs SdtReadProofs SdtUseProofs SessionModel SFileModel SFileProofs
  TypedModel TypedSpec TypedProofs.
From Coq Require Import ZArith QArith.
Local Open Scope Z_scope.

(** C93.  HDF5 and MAT files: integers of any type are returned unchanged, floating-point
    numbers rounded toward zero; a matrix without rows is not read safely; a matrix is
    accepted as a list only when it holds integers. *)
Theorem C93_hdf5_reads : forall conv f name d vals r c,
  find name f = Some d -> int_values d vals -> arranged (d_dims d) (length vals) -> shape (d_dims d) r c ->
  (r <> 0 -> exists rows, h5_int_array conv f name = Ok (r, c, rows) /\ rows_of r c vals rows) /\
  (r = 0 -> h5_int_array conv f name = UB) /\
  (r = 1 -> c = 1 -> exists z, vals = [z] /\ h5_int conv f name = Ok z) /\
  (r <> 1 \/ c <> 1 -> h5_int conv f name = Throw) /\
  (r = 1 \/ (c = 1 /\ r <> 0) -> h5_int_list conv f name = Ok vals) /\
  (d_type d <> HDouble -> h5_int_list conv f name = Ok vals) /\
  (d_type d = HDouble -> r <> 1 -> c <> 1 -> h5_int_list conv f name = Throw).
Proof. exact hdf5_reads. Qed.
Print Assumptions C93_hdf5_reads.

(** The readers of one integer type, called directly: elements stored with that type come back as
    they are, in rows and as a list; a missing variable is reported, a text as well. *)
Theorem C93_hdf5_typed : forall conv t f name,
  (find name f = None -> h5_ints2d conv t f name = Throw /\ h5_ints1d conv t f name = Throw) /\
  (forall d, find name f = Some d -> d_type d = HString -> (length (d_dims d) = 1 \/ length (d_dims d) = 2)%nat ->
     h5_ints2d conv t f name = Throw /\ h5_ints1d conv t f name = Throw) /\
  (forall d vals r c, find name f = Some d -> d_type d = stored t -> d_data d = map inject_Z vals ->
     arranged (d_dims d) (length vals) -> shape (d_dims d) r c ->
     (exists rows, h5_ints2d conv t f name = Ok (r, c, rows) /\ rows_of r c vals rows) /\ h5_ints1d conv t f name = Ok vals) /\
  (forall d l, find name f = Some d -> d_type d <> stored t -> h5_get1d f name = Ok l ->
     h5_ints1d conv t f name = Ok (map (conv (d_type d) t) l)).
Proof.
  intros conv t f name. unfold h5_ints2d, h5_ints1d. split; [intros ->; split; reflexivity|]. split.
  { intros d F T L. rewrite F. unfold h5_get2d, h5_get1d. rewrite F, T.
    destruct (d_dims d) as [|a [|b [|c0 ds]]]; cbn [length] in L; try (exfalso; lia); split; reflexivity. }
  split.
  - intros d vals r c F T D A S. rewrite F. unfold h5_get2d, h5_get1d. rewrite F, D, T.
    assert (NU : SFileModel.numeric (stored t) = true) by (destruct t; reflexivity).
    assert (SE : forall z, h5_element conv (stored t) t (inject_Z z) = z).
    { intro z. unfold h5_element. replace (same_type (stored t) t) with true by (destruct t; reflexivity). cbn. apply Z.quot_1_r. }
    assert (SM : forall l, map (h5_element conv (stored t) t) (map inject_Z l) = l).
    { intro l. rewrite map_map. rewrite (map_ext _ (fun z => z)) by (intro z; apply SE). apply map_id. }
    rewrite NU. destruct S as [S|[-> S]]; rewrite S in *.
    + destruct A as [A|[r' [c' [A [A1 [A2 A3]]]]]]; [discriminate A|]. injection A as <- <-. cbn [obind].
      split; [|rewrite SM; reflexivity]. eexists. split; [reflexivity|].
      assert (P : forall n (l : list Z), length l = (n * Z.to_nat c)%nat ->
         let rows := map (map (h5_element conv (stored t) t)) (pieces n (Z.to_nat c) (map inject_Z l)) in
         length rows = n /\ (forall row, In row rows -> length row = Z.to_nat c) /\ concat rows = l).
      { induction n as [|n IH]; intros l L.
        - destruct l; [|discriminate L]. split; [reflexivity|]. split; [intros row []|reflexivity].
        - rewrite Nat.mul_succ_l in L. cbn [pieces map]. rewrite firstn_map, skipn_map, SM.
          destruct (IH (skipn (Z.to_nat c) l)) as [I1 [I2 I3]]; [rewrite skipn_length; lia|]. cbv zeta. split; [cbn [length]; rewrite I1; reflexivity|].
          split.
          + intros row [<-|H]; [rewrite firstn_length; lia|exact (I2 row H)].
          + cbn [concat]. rewrite I3. apply firstn_skipn. }
      destruct (P (Z.to_nat r) vals) as [P1 [P2 P3]]; [apply Nat2Z.inj; rewrite Nat2Z.inj_mul, !Z2Nat.id by lia; lia|].
      split; [rewrite P1; lia|]. split; [|exact P3]. intros row H. rewrite (P2 row H). lia.
    + destruct A as [A|[r' [c' [A _]]]]; [|discriminate A]. injection A as ->. cbn [obind map]. rewrite SM.
      split; [|reflexivity]. eexists. split; [reflexivity|]. split; [reflexivity|]. split; [intros row [<-|[]]; reflexivity|].
      cbn [concat]. apply app_nil_r.
  - intros d l F T G. rewrite F, G. cbn [obind]. f_equal. apply map_ext. intro q. unfold h5_element.
    replace (same_type (d_type d) t) with false; [reflexivity|]. destruct (d_type d), t; try reflexivity; contradiction T; reflexivity.
Qed.
Print Assumptions C93_hdf5_typed.

(** Missing variables and texts throw. *)
Theorem C93_hdf5_rejects : forall conv f name,
  find name f = None \/ (exists d, find name f = Some d /\ (d_type d = HString \/ d_type d = HU16)) ->
  h5_int_array conv f name = Throw /\ h5_int_list conv f name = Throw /\ h5_int conv f name = Throw.
Proof. exact hdf5_rejects. Qed.
Print Assumptions C93_hdf5_rejects.
(** What is written as integers is read back. *)
Theorem C93_hdf5_round_trip : forall conv t f name nc rows f', (forall row, In row rows -> length row = nc) ->
  (forall row z, In row rows -> In z row -> int64 z) ->
  h5_write_array (stored t) f name nc (map (map inject_Z) rows) = Ok f' ->
  h5_int_array conv f' name = Ok (Z.of_nat (length rows), Z.of_nat nc, rows).
Proof. exact hdf5_round_trip. Qed.
Print Assumptions C93_hdf5_round_trip.
(** Not every number can be returned: unsigned ones beyond the range come out negative,
    floating-point ones and data of other ranks are undefined. *)
Theorem C93_hdf5_unsigned_refuted : forall conv f name v, 2 ^ 63 <= v < 2 ^ 64 -> find name f = Some (Dataset HU64 [1] [inject_Z v]) ->
  h5_int conv f name = Ok (v - 2 ^ 64) /\ h5_int_list conv f name = Ok [v - 2 ^ 64] /\ h5_int_array conv f name = Ok (1, 1, [[v - 2 ^ 64]]).
Proof. exact hdf5_wraps. Qed.
Print Assumptions C93_hdf5_unsigned_refuted.
Theorem C93_hdf5_out_of_range : forall conv f name d r c q z,
  find name f = Some d -> d_type d = HDouble -> arranged (d_dims d) (length (d_data d)) ->
  shape (d_dims d) r c -> In q (d_data d) -> toward_zero q z -> ~ int64 z ->
  h5_int_array conv f name = UB /\ (r = 1 \/ c = 1 -> h5_int_list conv f name = UB) /\ (r = 1 -> c = 1 -> h5_int conv f name = UB).
Proof. exact hdf5_out_of_range. Qed.
Print Assumptions C93_hdf5_out_of_range.
Theorem C93_hdf5_rank_refuted : forall conv f name d, find name f = Some d -> (d_type d = HDouble \/ exists t, d_type d = stored t) ->
  (length (d_dims d) <> 1)%nat -> (length (d_dims d) <> 2)%nat ->
  h5_int_array conv f name = UB /\ h5_int_list conv f name = UB /\ h5_int conv f name = UB.
Proof. exact hdf5_high_rank. Qed.
Print Assumptions C93_hdf5_rank_refuted.

(** SDT files: numbers are rounded toward zero; lists follow the rules of C19. *)
Theorem C93_sdt_reads : forall rnd mem text r n nr nc rows zs,
  opens rnd mem text r -> result r (RDoubles n) = Ok (VMat nr nc rows) ->
  Forall2 (Forall2 toward_zero) rows zs -> Forall (Forall int64) zs ->
  fst (sdt_int_array r n) = Ok (nr, nc, zs) /\
  (nr = 1 -> fst (sdt_int_list r n) = Ok (concat zs)) /\
  (nr <> 1 -> nc = 1 -> fst (sdt_int_list r n) = Throw) /\
  (nr <> 1 -> 2 <= nc -> fst (sdt_int_list r n) = Ok (firstn (Z.to_nat nr) (concat zs))) /\
  (nr = 1 -> nc = 1 -> exists z, zs = [[z]] /\ fst (sdt_int r n) = Ok z) /\
  (nr <> 1 \/ nc <> 1 -> fst (sdt_int r n) = Throw).
Proof. exact sdt_reads. Qed.
Print Assumptions C93_sdt_reads.
Theorem C93_sdt_rejects : forall r n, result r (RDoubles n) = Throw ->
  sdt_int_array r n = (Throw, r) /\ sdt_int_list r n = (Throw, r) /\ sdt_int r n = (Throw, r).
Proof. exact sdt_rejects. Qed.
Print Assumptions C93_sdt_rejects.
(** Reading an array or a number once makes the variable unusable; reading a list does not. *)
Theorem C93_sdt_second_read_refuted : forall r n,
  (forall v, fst (sdt_int_array r n) = Ok v ->
     fst (sdt_int_array (snd (sdt_int_array r n)) n) = UB /\ result (snd (sdt_int_array r n)) (RDoubles n) = UB) /\
  (forall v, fst (sdt_int r n) = Ok v -> fst (sdt_int (snd (sdt_int r n)) n) = UB /\ result (snd (sdt_int r n)) (RDoubles n) = UB) /\
  snd (sdt_int_list r n) = r.
Proof. exact sdt_destroys. Qed.
Print Assumptions C93_sdt_second_read_refuted.
(** The type reported for a variable of an SDT file. *)
Theorem C93_sdt_data_type : forall rnd mem text r n, opens rnd mem text r ->
  (forall v, result r (RDoubles n) = Ok v -> (forall t, data_type r n (TInt t) = TInt t) /\
     data_type r n TDouble = TDouble /\ data_type r n TString = TDouble /\ data_type r n TUndefined = TDouble) /\
  (forall s hint, result r (RDoubles n) = Throw -> result r (RString n) = Ok (VStr s) -> data_type r n hint = TString) /\
  (forall hint, result r (RHas n) = Ok (VBool false) <-> data_type r n hint = TUndefined).
Proof. exact sdt_data_type. Qed.
Print Assumptions C93_sdt_data_type.

(** The type reported for a data set of an HDF5 file, whatever the hint. *)
Theorem C93_hdf5_data_type : forall f n hint,
  (h5_data_type f n hint = TUndefined <-> find n f = None) /\
  (forall t, h5_data_type f n hint = TInt t <-> exists d, find n f = Some d /\ d_type d = stored t) /\
  (h5_data_type f n hint = TDouble <-> exists d, find n f = Some d /\ d_type d = HDouble) /\
  (h5_data_type f n hint = TString <-> exists d, find n f = Some d /\ (d_type d = HString \/ d_type d = HU16)).
Proof.
  intros f n hint. unfold h5_data_type, h5_type. destruct (find n f) as [d|].
  - split; [|split; [|split]].
    + split; [destruct (d_type d); discriminate | discriminate].
    + intro t. split.
      * intro H. exists d. split; [reflexivity|]. destruct (d_type d); try discriminate H; injection H as <-; reflexivity.
      * intros (d' & [= <-] & ->). destruct t; reflexivity.
    + split; [intro H; exists d; split; [reflexivity|]; destruct (d_type d); try discriminate H; reflexivity | intros (d' & [= <-] & ->); reflexivity].
    + split; [intro H; exists d; split; [reflexivity|]; destruct (d_type d); try discriminate H; auto | intros (d' & [= <-] & [ -> | -> ]); reflexivity].
  - split; [|split; [|split]]; try (intro t); split; try discriminate; try reflexivity; intros (d & H & _); discriminate H.
Qed.
Print Assumptions C93_hdf5_data_type.

Definition ex_file : h5 :=
  [(str_of "i", Dataset HI32 [2; 2] [1; 2; 3; -4]%Q); (str_of "d", Dataset HDouble [2; 2] [1 # 2; -3 # 2; 5; 7]%Q);
   (str_of "s", Dataset HU32 [1] [9]%Q); (str_of "t", Dataset HString [2] [104; 105]%Q)].
Definition ex_conv : htype -> ityp -> Q -> Z := fun _ _ _ => 0.
Example C93_example_hdf5 :
  int_values (Dataset HI32 [2; 2] [1; 2; 3; -4]%Q) [1; 2; 3; -4] /\ int_values (Dataset HDouble [2; 2] [1 # 2; -3 # 2; 5; 7]%Q) [0; -1; 5; 7] /\
  h5_int_array ex_conv ex_file (str_of "i") = Ok (2, 2, [[1; 2]; [3; -4]]) /\
  h5_int_array ex_conv ex_file (str_of "d") = Ok (2, 2, [[0; -1]; [5; 7]]) /\
  h5_int_list ex_conv ex_file (str_of "i") = Ok [1; 2; 3; -4] /\ h5_int_list ex_conv ex_file (str_of "d") = Throw /\
  h5_int ex_conv ex_file (str_of "s") = Ok 9 /\ h5_int ex_conv ex_file (str_of "t") = Throw.
Proof.
  split; [split; [repeat (constructor; [unfold int64; lia|]); constructor|left; exists I32; split; reflexivity]|].
  split; [split; [repeat (constructor; [unfold int64; lia|]); constructor|right; split; [reflexivity|]]|].
  - cbn [d_data]. repeat (constructor; [apply toward_zero_quot; reflexivity|]). constructor.
  - vm_compute. repeat split; reflexivity.
Qed.
Definition ex_opened (text : str) : reader :=
  match load (fun q => Some q) 1000 text with Some (Ok st) => open_store st | _ => Reader [] [] end.
Example C93_example_sdt :
  let r := ex_opened (write_file [WArray (str_of "m") 2 [[NInt 1; NDbl (5 # 2)]; [NInt (-3); NDbl (-7 # 2)]]; WScalar (str_of "x") (NInt 4);
                                  WString (str_of "t") (str_of "hi")]) in
  fst (sdt_int_array r (str_of "m")) = Ok (2, 2, [[1; 2]; [-3; -3]]) /\ fst (sdt_int_list r (str_of "m")) = Ok [1; 2] /\
  fst (sdt_int r (str_of "x")) = Ok 4 /\ fst (sdt_int r (str_of "t")) = Throw /\ data_type r (str_of "t") TDouble = TString.
Proof. vm_compute. repeat split; reflexivity. Qed.
