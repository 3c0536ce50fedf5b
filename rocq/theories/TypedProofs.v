(** Proofs about integer reads. *)
From Verif Require Import Base SettingsModel SettingsProofs SdtModel SdtSpec SdtProofs SdtReadProofs SdtUseProofs SessionModel SFileModel SFileProofs
  TypedModel TypedSpec.
From Coq Require Import ZArith QArith Qround.
Local Open Scope Z_scope.

Lemma obind_list_F2 : forall (A B : Type) (f : A -> outcome B) l ys, Forall2 (fun x y => f x = Ok y) l ys -> obind_list f l = Ok ys.
Proof.
  intros A B f l ys H. induction H as [|x y l ys E H IH]; [reflexivity|].
  change (obind (f x) (fun y => obind (obind_list f l) (fun ys => Ok (y :: ys))) = Ok (y :: ys)). rewrite E. cbn [obind]. rewrite IH. reflexivity.
Qed.
Lemma F2_firstn : forall (A B : Type) (P : A -> B -> Prop) n l ys, Forall2 P l ys -> Forall2 P (firstn n l) (firstn n ys).
Proof. induction n as [|n IH]; intros l ys H; [constructor|]. destruct H; cbn [firstn]; constructor; auto. Qed.
Lemma F2_skipn : forall (A B : Type) (P : A -> B -> Prop) n l ys, Forall2 P l ys -> Forall2 P (skipn n l) (skipn n ys).
Proof. induction n as [|n IH]; intros l ys H; [exact H|]. destruct H; cbn [skipn]; auto. Qed.
Lemma F2_pieces : forall (A B : Type) (P : A -> B -> Prop) k n l ys, Forall2 P l ys -> Forall2 (Forall2 P) (pieces k n l) (pieces k n ys).
Proof. induction k as [|k IH]; intros n l ys H; [constructor|]. cbn [pieces]. constructor; [apply F2_firstn; exact H|]. apply IH. apply F2_skipn. exact H. Qed.
Lemma F2_impl : forall (A B : Type) (P P' : A -> B -> Prop) l ys, (forall x y, P x y -> P' x y) -> Forall2 P l ys -> Forall2 P' l ys.
Proof. intros A B P P' l ys H X. induction X; constructor; auto. Qed.
Lemma F2_length : forall (A B : Type) (P : A -> B -> Prop) l ys, Forall2 P l ys -> length l = length ys.
Proof. intros A B P l ys X. induction X; [reflexivity|]. cbn [length]. f_equal. exact IHX. Qed.
Lemma F2_concat : forall (A B : Type) (P : A -> B -> Prop) l ys, Forall2 (Forall2 P) l ys -> Forall2 P (concat l) (concat ys).
Proof. intros A B P l ys X. induction X; [constructor|]. cbn [concat]. apply Forall2_app; assumption. Qed.
Lemma F2_map_same : forall (A B : Type) (P : A -> B -> Prop) (g : B -> A) ys, Forall (fun y => P (g y) y) ys -> Forall2 P (map g ys) ys.
Proof. intros A B P g ys X. induction X; constructor; auto. Qed.
Lemma map_pieces : forall (A B : Type) (g : A -> B) k n l, map (map g) (pieces k n l) = pieces k n (map g l).
Proof. induction k as [|k IH]; intros n l; [reflexivity|]. cbn [pieces map]. rewrite IH, firstn_map, skipn_map. reflexivity. Qed.
Lemma pieces_rows : forall (l : list Z) k n, length l = (k * n)%nat ->
  length (pieces k n l) = k /\ (forall row, In row (pieces k n l) -> length row = n) /\ concat (pieces k n l) = l.
Proof.
  intros l k. revert l. induction k as [|k IH]; intros l n L; cbn [pieces].
  - destruct l; [|discriminate L]. split; [reflexivity|]. split; [intros row []|reflexivity].
  - cbn [Nat.mul] in L. assert (L1 : length (firstn n l) = n) by (rewrite firstn_length; lia).
    destruct (IH (skipn n l) n) as (A & B & C); [rewrite skipn_length; lia|].
    cbn [length concat]. split; [rewrite A; reflexivity|]. split.
    + intros row [E|H]; [subst row; exact L1|apply B; exact H].
    + rewrite C. apply firstn_skipn.
Qed.

Lemma to_int64_id : forall z, int64 z -> to_int64 z = z.
Proof. intros z [A B]. unfold to_int64. rewrite Z.mod_small by lia. lia. Qed.
Lemma to_int64_big : forall z, 2 ^ 63 <= z < 2 ^ 64 -> to_int64 z = z - 2 ^ 64.
Proof.
  intros z [A B]. unfold to_int64. replace (z + 2 ^ 63) with ((z - 2 ^ 63) + 1 * 2 ^ 64) by lia.
  rewrite Z.mod_add by lia. rewrite Z.mod_small by lia. lia.
Qed.

(** * Rounding toward zero *)
Lemma quot_floor : forall q, (0 <= q)%Q -> Z.quot (Qnum q) (Zpos (Qden q)) = Qfloor q.
Proof. intros [n d] H. unfold Qle in H. cbn [Qnum Qden] in *. unfold Qfloor. apply Z.quot_div_nonneg; lia. Qed.
Lemma quot_ceiling : forall q, (q <= 0)%Q -> Z.quot (Qnum q) (Zpos (Qden q)) = Qceiling q.
Proof.
  intros [n d] H. unfold Qle in H. cbn [Qnum Qden] in *. unfold Qceiling, Qopp, Qfloor. cbn [Qnum Qden].
  rewrite <- Z.quot_div_nonneg by lia. rewrite Z.quot_opp_l by lia. lia.
Qed.
Lemma toward_zero_quot : forall q z, toward_zero q z <-> z = Z.quot (Qnum q) (Zpos (Qden q)).
Proof.
  intros q z. split.
  - intros [A B]. destruct (Qlt_le_dec q 0) as [H|H].
    + rewrite quot_ceiling by (apply Qlt_le_weak; exact H). apply B. apply Qlt_le_weak. exact H.
    + rewrite quot_floor by exact H. apply A. exact H.
  - intro E. split; intro H; [rewrite E; apply quot_floor|rewrite E; apply quot_ceiling]; exact H.
Qed.
Lemma cast_double_ok : forall q z, toward_zero q z -> int64 z -> cast_double q = Ok z.
Proof.
  intros q z T [A B]. apply toward_zero_quot in T. unfold cast_double, cast_int. rewrite <- T.
  assert (A' : ityp_lo I64 <=? z = true) by (apply Z.leb_le; unfold ityp_lo; lia).
  assert (B' : z <=? ityp_hi I64 = true) by (apply Z.leb_le; unfold ityp_hi; lia). rewrite A', B'. reflexivity.
Qed.
Lemma cast_double_bad : forall q z, toward_zero q z -> ~ int64 z -> cast_double q = UB.
Proof.
  intros q z T N. apply toward_zero_quot in T. unfold cast_double, cast_int. rewrite <- T. unfold int64 in N.
  destruct (ityp_lo I64 <=? z) eqn:A; [|reflexivity]. destruct (z <=? ityp_hi I64) eqn:B; [|reflexivity].
  apply Z.leb_le in A, B. unfold ityp_lo, ityp_hi in *. exfalso. apply N. lia.
Qed.
Lemma cast_double_cases : forall q, (exists z, cast_double q = Ok z) \/ cast_double q = UB.
Proof. intro q. unfold cast_double, cast_int. destruct (_ && _)%bool; [left; eexists; reflexivity|right; reflexivity]. Qed.
Lemma obind_list_bad : forall (A B : Type) (f : A -> outcome B) l x, (forall x, (exists z, f x = Ok z) \/ f x = UB) -> In x l -> f x = UB -> obind_list f l = UB.
Proof.
  intros A B f l x T. induction l as [|y l IH]; intros I E; [destruct I|].
  change (obind (f y) (fun y => obind (obind_list f l) (fun ys => Ok (y :: ys))) = UB).
  destruct (T y) as [(z & Z)|Z]; rewrite Z; [|reflexivity]. cbn [obind]. destruct I as [I|I]; [congruence|]. rewrite IH by assumption. reflexivity.
Qed.
Lemma obind_list_cases : forall (A B : Type) (f : A -> outcome B), (forall x, (exists z, f x = Ok z) \/ f x = UB) ->
  forall l, (exists zs, obind_list f l = Ok zs) \/ obind_list f l = UB.
Proof.
  intros A B f T l. induction l as [|y l IH]; [left; eexists; reflexivity|].
  change (obind_list f (y :: l)) with (obind (f y) (fun y => obind (obind_list f l) (fun ys => Ok (y :: ys)))).
  destruct (T y) as [(z & Z)|Z]; rewrite Z; [|right; reflexivity]. cbn [obind].
  destruct IH as [(zs & ->)| ->]; [left; eexists; reflexivity|right; reflexivity].
Qed.

(** * HDF5 *)
(** The elements of a data set and the casts applied to them. *)
Lemma int_cast : forall conv t z, int64 z -> cast_integer (h5_element conv (stored t) t (inject_Z z)) = Ok z.
Proof.
  intros conv t z H. unfold cast_integer, h5_element. replace (same_type (stored t) t) with true by (destruct t; reflexivity).
  unfold inject_Z. cbn [Qnum Qden]. rewrite Z.quot_1_r, to_int64_id by exact H. reflexivity.
Qed.
Lemma F2_values : forall qs vals, Forall int64 vals -> Forall2 toward_zero qs vals -> Forall2 (fun q z => cast_double q = Ok z) qs vals.
Proof.
  intros qs vals I F. induction F as [|q z qs vals T F IH]; [constructor|]. inversion I as [|? ? I1 I2]; subst.
  constructor; [apply cast_double_ok; assumption|apply IH; exact I2].
Qed.
Lemma F2_ints : forall conv t vals, Forall int64 vals ->
  Forall2 (fun x z => cast_integer x = Ok z) (map (h5_element conv (stored t) t) (map inject_Z vals)) vals.
Proof.
  intros conv t vals I. rewrite map_map. apply F2_map_same. induction I as [|z vals H I IH]; constructor; [apply int_cast; exact H|exact IH].
Qed.
Lemma stored_numeric : forall t, numeric (stored t) = true.
Proof. destruct t; reflexivity. Qed.
Lemma stored_type : forall f name d t, find name f = Some d -> d_type d = stored t -> h5_data_type f name (TInt I64) = TInt t.
Proof. intros f name d t F E. unfold h5_data_type, h5_type. rewrite F, E. destruct t; reflexivity. Qed.
Lemma double_type : forall f name d, find name f = Some d -> d_type d = HDouble -> h5_data_type f name (TInt I64) = TDouble.
Proof. intros f name d F E. unfold h5_data_type, h5_type. rewrite F, E. reflexivity. Qed.

(** Data of any rank up to two as rows. *)
Lemma get2d_pieces : forall f name d r c, find name f = Some d -> numeric (d_type d) = true -> arranged (d_dims d) (length (d_data d)) ->
  shape (d_dims d) r c ->
  h5_get2d f name = Ok (r, c, pieces (Z.to_nat r) (Z.to_nat c) (d_data d)) /\ h5_get1d f name = Ok (d_data d) /\
  0 <= r /\ 0 <= c /\ r * c = Z.of_nat (length (d_data d)).
Proof.
  intros f name d r c F N A S. unfold h5_get2d, h5_get1d. rewrite F, N. destruct S as [S|[E S]].
  - rewrite S in *. destruct A as [A|(r' & c' & A & A1 & A2 & A3)]; [discriminate A|]. injection A as -> ->. auto.
  - subst r. rewrite S in *. destruct A as [A|(r' & c' & A & _)]; [|discriminate A]. injection A as ->.
    split; [|split; [reflexivity|lia]]. change (Z.to_nat 1) with 1%nat. cbn [pieces]. rewrite Nat2Z.id, firstn_all. reflexivity.
Qed.

Lemma as_2d_ok : forall (A : Type) (cast : A -> outcome Z) r c xs vals, Forall2 (fun x z => cast x = Ok z) xs vals ->
  as_2d cast (Ok (r, c, pieces (Z.to_nat r) (Z.to_nat c) xs)) =
    if r =? 0 then UB else Ok (r, c, pieces (Z.to_nat r) (Z.to_nat c) vals).
Proof.
  intros A cast r c xs vals F. unfold as_2d. cbn [obind]. destruct (r =? 0); [reflexivity|].
  rewrite (obind_list_F2 _ _ _ _ (pieces (Z.to_nat r) (Z.to_nat c) vals)); [reflexivity|].
  eapply F2_impl; [|apply F2_pieces; exact F]. intros x y H. apply obind_list_F2. exact H.
Qed.
Lemma pieces_all : forall (A : Type) r c (l : list A), r * c = Z.of_nat (length l) -> 0 <= r -> 0 <= c ->
  concat (pieces (Z.to_nat r) (Z.to_nat c) l) = l.
Proof.
  intros A r c l E Hr Hc. assert (L : length l = (Z.to_nat r * Z.to_nat c)%nat) by (rewrite <- Z2Nat.inj_mul by assumption; lia).
  revert L. generalize (Z.to_nat c) as n. generalize (Z.to_nat r) as k. clear. intros k n. revert l.
  induction k as [|k IH]; intros l L; cbn [pieces concat].
  - destruct l; [reflexivity|discriminate L].
  - cbn [Nat.mul] in L. rewrite IH by (rewrite skipn_length; lia). apply firstn_skipn.
Qed.
Lemma single_ok : forall (A : Type) r c (xs : list A), r * c = Z.of_nat (length xs) -> 0 <= r -> 0 <= c ->
  single (Ok (r, c, pieces (Z.to_nat r) (Z.to_nat c) xs)) =
    if (negb (r =? 1) || negb (c =? 1))%bool then Throw else match xs with x :: _ => Ok x | [] => UB end.
Proof. intros A r c xs E Hr Hc. unfold single. cbn [obind]. rewrite pieces_all by assumption. reflexivity. Qed.

Lemma hdf5_reads : forall conv f name d vals r c, find name f = Some d -> int_values d vals -> arranged (d_dims d) (length vals) ->
  shape (d_dims d) r c ->
  (r <> 0 -> exists rows, h5_int_array conv f name = Ok (r, c, rows) /\ rows_of r c vals rows) /\
  (r = 0 -> h5_int_array conv f name = UB) /\
  (r = 1 -> c = 1 -> exists z, vals = [z] /\ h5_int conv f name = Ok z) /\
  (r <> 1 \/ c <> 1 -> h5_int conv f name = Throw) /\
  (r = 1 \/ (c = 1 /\ r <> 0) -> h5_int_list conv f name = Ok vals) /\
  (d_type d <> HDouble -> h5_int_list conv f name = Ok vals) /\
  (d_type d = HDouble -> r <> 1 -> c <> 1 -> h5_int_list conv f name = Throw).
Proof.
  intros conv f name d vals r c F [I V] A S.
  assert (L : length (d_data d) = length vals).
  { destruct V as [(t & _ & V)|[_ V]]; [rewrite V; apply map_length|exact (F2_length _ _ _ _ _ V)]. }
  assert (N : numeric (d_type d) = true) by (destruct V as [(t & -> & _)|[-> _]]; [apply stored_numeric|reflexivity]).
  rewrite <- L in A. destruct (get2d_pieces f name d r c F N A S) as (G2 & G1 & Hr & Hc & P).
  assert (RO : rows_of r c vals (pieces (Z.to_nat r) (Z.to_nat c) vals)).
  { rewrite L in P. destruct (pieces_rows vals (Z.to_nat r) (Z.to_nat c)) as (B1 & B2 & B3); [rewrite <- Z2Nat.inj_mul by assumption; lia|].
    split; [lia|]. split; [intros row H; rewrite (B2 row H); lia|exact B3]. }
  assert (R : h5_int_array conv f name = (if r =? 0 then UB else Ok (r, c, pieces (Z.to_nat r) (Z.to_nat c) vals)) /\
              h5_int conv f name = (if (negb (r =? 1) || negb (c =? 1))%bool then Throw else match vals with z :: _ => Ok z | [] => UB end) /\
              h5_int_list conv f name = (match d_type d with
                | HDouble => if ((r =? 1) || (c =? 1))%bool then (if r =? 0 then UB else Ok vals) else Throw
                | _ => Ok vals end)).
  { destruct V as [(t & ET & V)|[ET V]].
    - unfold h5_int_array, h5_int, h5_int_list. rewrite (stored_type f name d t F ET). unfold h5_ints2d, h5_ints1d. rewrite F, G2, G1.
      cbn [obind]. rewrite map_pieces, V, ET. assert (F2 := F2_ints conv t vals I). split; [|split].
      + apply as_2d_ok. exact F2.
      + rewrite single_ok by (rewrite ?map_length; rewrite ?L in P; assumption).
        destruct (negb (r =? 1) || negb (c =? 1))%bool; [reflexivity|]. destruct vals as [|z vals]; [reflexivity|].
        cbn [map obind]. apply int_cast. inversion I; assumption.
      + unfold as_1d. cbn [obind]. rewrite (obind_list_F2 _ _ _ _ _ F2). destruct t; reflexivity.
    - unfold h5_int_array, h5_int, h5_int_list. rewrite (double_type f name d F ET), G2, ET.
      assert (F2 := F2_values _ _ I V). split; [|split].
      + apply as_2d_ok. exact F2.
      + change (get_scalar (Ok (r, c, pieces (Z.to_nat r) (Z.to_nat c) (d_data d)))) with (single (Ok (r, c, pieces (Z.to_nat r) (Z.to_nat c) (d_data d)))).
        rewrite single_ok by assumption. destruct (negb (r =? 1) || negb (c =? 1))%bool; [reflexivity|].
        destruct F2 as [|q z qs zs C F2]; [reflexivity|]. cbn [obind]. exact C.
      + unfold get_list. cbn [obind]. destruct ((r =? 1) || (c =? 1))%bool; [|reflexivity].
        rewrite pieces_all by assumption. destruct (r =? 0) eqn:E0.
        * apply Z.eqb_eq in E0. subst r. reflexivity.
        * apply Z.eqb_neq in E0. destruct (Z.to_nat r) eqn:En; [exfalso; lia|]. cbn [pieces as_1d obind].
          rewrite (obind_list_F2 _ _ _ _ _ F2). reflexivity. }
  destruct R as (R1 & R2 & R3). split; [|split; [|split; [|split; [|split; [|split]]]]].
  - intro H. exists (pieces (Z.to_nat r) (Z.to_nat c) vals). split; [|exact RO]. rewrite R1. apply Z.eqb_neq in H. rewrite H. reflexivity.
  - intro H. rewrite R1, H. reflexivity.
  - intros H1 H2. subst r c. rewrite L in P. destruct vals as [|z [|z' vals]]; cbn [length] in P; try (exfalso; lia).
    exists z. split; [reflexivity|]. rewrite R2. reflexivity.
  - intro H. rewrite R2. assert ((negb (r =? 1) || negb (c =? 1))%bool = true) as ->; [|reflexivity].
    apply orb_true_iff. rewrite !negb_true_iff, !Z.eqb_neq. exact H.
  - intro H. rewrite R3. assert (B : ((r =? 1) || (c =? 1))%bool = true) by (apply orb_true_iff; rewrite !Z.eqb_eq; lia).
    assert (Z0 : r =? 0 = false) by (apply Z.eqb_neq; lia). rewrite B, Z0. destruct (d_type d); reflexivity.
  - intro H. rewrite R3. destruct (d_type d); try reflexivity. contradiction.
  - intros E H1 H2. rewrite R3, E. assert (((r =? 1) || (c =? 1))%bool = false) as ->; [|reflexivity].
    apply orb_false_iff. rewrite !Z.eqb_neq. auto.
Qed.

Lemma hdf5_rejects : forall conv f name,
  find name f = None \/ (exists d, find name f = Some d /\ (d_type d = HString \/ d_type d = HU16)) ->
  h5_int_array conv f name = Throw /\ h5_int_list conv f name = Throw /\ h5_int conv f name = Throw.
Proof.
  intros conv f name H. unfold h5_int_array, h5_int_list, h5_int.
  assert (T : h5_data_type f name (TInt I64) = TString \/ h5_data_type f name (TInt I64) = TUndefined).
  { unfold h5_data_type, h5_type. destruct H as [->|(d & -> & [->| ->])]; auto. }
  destruct T as [->| ->]; repeat split; reflexivity.
Qed.
Lemma hdf5_out_of_range : forall conv f name d r c q z, find name f = Some d -> d_type d = HDouble -> arranged (d_dims d) (length (d_data d)) ->
  shape (d_dims d) r c -> In q (d_data d) -> toward_zero q z -> ~ int64 z ->
  h5_int_array conv f name = UB /\ (r = 1 \/ c = 1 -> h5_int_list conv f name = UB) /\ (r = 1 -> c = 1 -> h5_int conv f name = UB).
Proof.
  intros conv f name d r c q z F T A S Iq Tz Nz.
  assert (N : numeric (d_type d) = true) by (rewrite T; reflexivity).
  destruct (get2d_pieces f name d r c F N A S) as (G2 & _ & Hr & Hc & P).
  assert (B := cast_double_bad q z Tz Nz). unfold h5_int_array, h5_int_list, h5_int. rewrite (double_type f name d F T), G2.
  assert (C := pieces_all _ r c (d_data d) P Hr Hc).
  split; [|split].
  - unfold as_2d. cbn [obind]. destruct (r =? 0); [reflexivity|].
    assert (exists row, In row (pieces (Z.to_nat r) (Z.to_nat c) (d_data d)) /\ In q row) as (row & I1 & I2).
    { rewrite <- C in Iq. apply in_concat in Iq. exact Iq. }
    rewrite (obind_list_bad _ _ _ _ row); [reflexivity| |exact I1|].
    + apply obind_list_cases. exact cast_double_cases.
    + apply (obind_list_bad _ _ _ _ q); [exact cast_double_cases|exact I2|exact B].
  - intro H. assert (E : ((r =? 1) || (c =? 1))%bool = true) by (apply orb_true_iff; rewrite !Z.eqb_eq; exact H).
    unfold get_list. cbn [obind]. rewrite E, C. destruct (pieces (Z.to_nat r) (Z.to_nat c) (d_data d)); [reflexivity|].
    unfold as_1d. cbn [obind]. apply (obind_list_bad _ _ _ _ q); [exact cast_double_cases|exact Iq|exact B].
  - intros -> ->. unfold get_scalar. cbn [obind]. change (negb (1 =? 1) || negb (1 =? 1))%bool with false. cbn iota.
    rewrite C. destruct (d_data d) as [|x [|y l]]; cbn [length] in P; try (exfalso; lia).
    destruct Iq as [->|[]]. cbn [obind]. exact B.
Qed.
Lemma hdf5_wraps : forall conv f name v, 2 ^ 63 <= v < 2 ^ 64 -> find name f = Some (Dataset HU64 [1] [inject_Z v]) ->
  h5_int conv f name = Ok (v - 2 ^ 64) /\ h5_int_list conv f name = Ok [v - 2 ^ 64] /\ h5_int_array conv f name = Ok (1, 1, [[v - 2 ^ 64]]).
Proof.
  intros conv f name v V F. unfold h5_int_array, h5_int_list, h5_int, h5_data_type, h5_type, h5_ints2d, h5_ints1d, h5_get2d, h5_get1d. rewrite F.
  cbn [d_type d_dims d_data numeric obind map]. unfold single, as_1d, as_2d. cbn [obind concat app map].
  change (1 =? 0) with false. change (negb (1 =? 1) || negb (1 =? 1))%bool with false. cbn iota.
  unfold h5_element. cbn [same_type]. unfold inject_Z. cbn [Qnum Qden]. rewrite Z.quot_1_r. cbn [obind].
  unfold cast_integer. cbn [obind_list obind]. rewrite (to_int64_big v V). cbn [obind]. repeat split; reflexivity.
Qed.
Lemma hdf5_high_rank : forall conv f name d, find name f = Some d -> (d_type d = HDouble \/ exists t, d_type d = stored t) ->
  (length (d_dims d) <> 1)%nat -> (length (d_dims d) <> 2)%nat ->
  h5_int_array conv f name = UB /\ h5_int_list conv f name = UB /\ h5_int conv f name = UB.
Proof.
  intros conv f name d F T L1 L2.
  assert (G : h5_get2d f name = UB /\ h5_get1d f name = UB).
  { unfold h5_get2d, h5_get1d. rewrite F. destruct (d_dims d) as [|a [|b [|x l]]]; cbn [length] in *; try lia; split; reflexivity. }
  destruct G as [G2 G1]. unfold h5_int_array, h5_int_list, h5_int. destruct T as [T|(t & T)].
  - rewrite (double_type f name d F T), G2. repeat split; reflexivity.
  - rewrite (stored_type f name d t F T). unfold h5_ints2d, h5_ints1d. rewrite F, G2, G1. repeat split; reflexivity.
Qed.
Lemma hdf5_round_trip : forall conv t f name nc rows f', (forall row, In row rows -> length row = nc) ->
  (forall row z, In row rows -> In z row -> int64 z) ->
  h5_write_array (stored t) f name nc (map (map inject_Z) rows) = Ok f' ->
  h5_int_array conv f' name = Ok (Z.of_nat (length rows), Z.of_nat nc, rows).
Proof.
  intros conv t f name nc rows f' L I H. unfold h5_write_array in H. destruct rows as [|r0 rows]; [discriminate H|]. set (rs := r0 :: rows) in *.
  change (map (map inject_Z) rs) with (map inject_Z r0 :: map (map inject_Z) rows) in H. cbn beta iota in H.
  change (map inject_Z r0 :: map (map inject_Z) rows) with (map (map inject_Z) rs) in H.
  apply h5_create_ok in H. destruct H as (_ & F & _). rewrite map_length in F.
  rewrite concat_map in F || rewrite <- concat_map in F.
  assert (LC : length (concat rs) = (length rs * nc)%nat).
  { clear - L. induction rs as [|r rs IH]; [reflexivity|]. cbn [concat length]. rewrite app_length, (L r (or_introl eq_refl)), IH; [lia|].
    intros row Hr. apply L. right. exact Hr. }
  destruct (hdf5_reads conv f' name _ (concat rs) (Z.of_nat (length rs)) (Z.of_nat nc) F) as (R & _).
  - split; [|left; exists t; split; reflexivity]. apply Forall_forall. intros z Hz. apply in_concat in Hz. destruct Hz as (row & H1 & H2). exact (I row z H1 H2).
  - right. exists (Z.of_nat (length rs)), (Z.of_nat nc). cbn [d_dims]. rewrite LC. repeat split; lia.
  - left. reflexivity.
  - destruct R as (rows' & E & B1 & B2 & B3); [unfold rs; cbn [length]; lia|]. rewrite E. f_equal. f_equal.
    apply Nat2Z.inj in B1. revert B1 B2 B3 L. clear. revert rows'.
    assert (X : forall a b : list (list Z), length a = length b -> (forall x, In x a -> length x = nc) -> (forall x, In x b -> length x = nc) -> concat a = concat b -> a = b).
    { induction a as [|x a IH]; intros [|y b] H1 H2 H3 H4; try discriminate H1; [reflexivity|]. cbn [concat] in H4.
      assert (length x = length y) by (rewrite H2, H3 by (left; reflexivity); reflexivity).
      assert (x = y /\ concat a = concat b) as [-> H5].
      { clear - H H4. revert y H H4. induction x as [|u x IH]; intros [|v y] H H4; try discriminate H; [split; [reflexivity|exact H4]|].
        cbn [app] in H4. injection H4 as E4 H4. destruct (IH y) as [E5 E6]; [injection H as H; exact H|exact H4|]. subst. split; [reflexivity|exact E6]. }
      f_equal. apply IH; [injection H1 as H1; exact H1| | |exact H5]; intros z Hz; [apply H2|apply H3]; right; exact Hz. }
    intros rows' B1 B2 B3 L. apply X; [exact B1| |exact L|exact B3]. intros x Hx. apply Nat2Z.inj. apply B2. exact Hx.
Qed.

(** * SDT *)
Lemma matrix_found : forall r n v, result r (RDoubles n) = Ok v -> exists c, find n (r_mats r) = Some c /\ readable c = true /\
  v = VMat (m_nrows (c_mat c)) (m_ncols (c_mat c)) (m_rows (c_mat c)).
Proof.
  intros r n v H. unfold result in H. cbn [do_read] in H. unfold with_matrix in H. destruct (find n (r_mats r)) as [c|]; [|discriminate H].
  destruct (readable c) eqn:E; [|discriminate H]. exists c. injection H as <-. auto.
Qed.
Lemma matrix_type : forall r n c, find n (r_mats r) = Some c -> data_type r n (TInt I64) = TInt I64.
Proof. intros r n c F. unfold data_type. rewrite F. reflexivity. Qed.
Lemma int64_F2 : forall (A : Type) (f : A -> outcome Z) xs zs, Forall2 (fun x z => f x = Ok z) xs zs -> Forall int64 zs ->
  Forall2 (fun x z => cast_integer x = Ok z) zs zs.
Proof. intros A f xs zs _ I. induction I as [|z zs H I IH]; constructor; [unfold cast_integer; rewrite to_int64_id by exact H; reflexivity|exact IH]. Qed.
Lemma self_cast : forall zs, Forall int64 zs -> obind_list cast_integer zs = Ok zs.
Proof. intros zs I. apply obind_list_F2. induction I as [|z zs H I IH]; constructor; [unfold cast_integer; rewrite to_int64_id by exact H; reflexivity|exact IH]. Qed.
Lemma self_cast2 : forall zs, Forall (Forall int64) zs -> obind_list (obind_list cast_integer) zs = Ok zs.
Proof. intros zs I. apply obind_list_F2. induction I as [|z zs H I IH]; constructor; [apply self_cast; exact H|exact IH]. Qed.
Lemma F2_values2 : forall rows zs, Forall (Forall int64) zs -> Forall2 (Forall2 toward_zero) rows zs ->
  obind_list (obind_list (cast_int I64)) rows = Ok zs.
Proof.
  intros rows zs I F. apply obind_list_F2. induction F as [|q z qs vals T F IH]; [constructor|]. inversion I as [|? ? I1 I2]; subst.
  constructor; [|apply IH; exact I2]. apply obind_list_F2. apply F2_values; assumption.
Qed.
Lemma Forall_concat : forall (A : Type) (P : A -> Prop) ls, Forall (Forall P) ls -> Forall P (concat ls).
Proof. intros A P ls H. induction H; [constructor|]. cbn [concat]. apply Forall_app. split; assumption. Qed.

Lemma sdt_reads : forall rnd mem text r n nr nc rows zs, opens rnd mem text r -> result r (RDoubles n) = Ok (VMat nr nc rows) ->
  Forall2 (Forall2 toward_zero) rows zs -> Forall (Forall int64) zs ->
  fst (sdt_int_array r n) = Ok (nr, nc, zs) /\
  (nr = 1 -> fst (sdt_int_list r n) = Ok (concat zs)) /\
  (nr <> 1 -> nc = 1 -> fst (sdt_int_list r n) = Throw) /\
  (nr <> 1 -> 2 <= nc -> fst (sdt_int_list r n) = Ok (firstn (Z.to_nat nr) (concat zs))) /\
  (nr = 1 -> nc = 1 -> exists z, zs = [[z]] /\ fst (sdt_int r n) = Ok z) /\
  (nr <> 1 \/ nc <> 1 -> fst (sdt_int r n) = Throw).
Proof.
  intros rnd mem text r n nr nc rows zs O H F I.
  destruct (matrix_found r n _ H) as (c & C & Rd & E). injection E as E1 E2 E3.
  destruct (read_shape _ _ _ _ _ _ _ _ O H) as (S1 & S2 & S3 & S4).
  assert (T := matrix_type r n c C). unfold sdt_int_array, sdt_int_list, sdt_int. rewrite T. cbn [do_read]. unfold with_matrix. rewrite C, Rd.
  rewrite <- E1, <- E2, <- E3. rewrite (F2_values2 rows zs I F). cbn [obind].
  assert (V := vec_read _ _ _ _ _ _ _ _ O H). destruct V as (V1 & V2 & V3 & V4).
  assert (FC : Forall2 toward_zero (concat rows) (concat zs)) by (apply F2_concat; exact F).
  assert (IC : Forall int64 (concat zs)) by (apply Forall_concat; exact I).
  assert (VL : forall l ls, result r (RVec n) = Ok (VVec l) -> Forall2 toward_zero l ls -> Forall int64 ls ->
    fst (let (v, r') := (obind (doubles_1d c) (fun l => obind (obind_list (cast_int I64) l) (fun zs => Ok (VIVec zs))), r) in
      (as_1d cast_integer (want_vec v), r')) = Ok ls).
  { intros l ls R FL IL. unfold result in R. cbn [do_read] in R. unfold with_matrix in R. rewrite C in R. cbn [fst] in R.
    destruct (doubles_1d c) as [l'| |]; try discriminate R. cbn [obind] in R. injection R as <-. cbn [obind].
    assert (X := obind_list_F2 _ _ _ _ _ (F2_values l' ls IL FL)). change (fun q => cast_double q) with (cast_int I64) in X.
    change (obind_list (cast_int I64) l' = Ok ls) in X. rewrite X. cbn [obind want_vec fst as_1d]. apply self_cast. exact IL. }
  split; [|split; [|split; [|split; [|split]]]].
  - unfold want_mat, as_2d. cbn [obind fst]. replace (nr =? 0) with false by (symmetry; apply Z.eqb_neq; lia).
    rewrite self_cast2 by exact I. reflexivity.
  - intro Hn. apply (VL (concat rows)); [apply V1; exact Hn|exact FC|exact IC].
  - intros Hn Hc. assert (R := V2 Hn Hc). unfold result in R. cbn [do_read] in R. unfold with_matrix in R. rewrite C in R. cbn [fst] in R.
    destruct (doubles_1d c) as [l'| |]; try discriminate R. reflexivity.
  - intros Hn Hc. apply (VL (firstn (Z.to_nat nr) (concat rows))); [apply V3; assumption|apply F2_firstn; exact FC|].
    apply Forall_forall. intros z Hz. rewrite Forall_forall in IC. apply IC. rewrite <- (firstn_skipn (Z.to_nat nr) (concat zs)). apply in_or_app. left. exact Hz.
  - intros -> ->. unfold not_scalar. rewrite <- E1, <- E2. change (negb (1 =? 1) || negb (1 =? 1))%bool with false. cbn iota.
    rewrite (F2_length _ _ _ _ _ F) in S3. destruct zs as [|z1 zs]; [discriminate S3|].
    assert (L : length (z1 :: zs) = 1%nat) by (apply Nat2Z.inj; exact S3). destruct zs; [|discriminate L].
    inversion F as [|row z0 rs zs' F1 F2 EA EB]. assert (L1 : Z.of_nat (length row) = 1) by (apply S4; rewrite <- EA; left; reflexivity).
    rewrite (F2_length _ _ _ _ _ F1) in L1.
    destruct z1 as [|z [|z' z1]]; cbn [length] in L1; try (exfalso; lia). exists z. split; [reflexivity|].
    cbn [concat app obind fst want_int]. unfold cast_integer. rewrite to_int64_id; [reflexivity|].
    inversion I as [|? ? I1 _]; subst. inversion I1; assumption.
  - intro Hn. unfold not_scalar. rewrite <- E1, <- E2.
    assert ((negb (nr =? 1) || negb (nc =? 1))%bool = true) as -> by (apply orb_true_iff; rewrite !negb_true_iff, !Z.eqb_neq; exact Hn).
    reflexivity.
Qed.
Lemma sdt_rejects : forall r n, result r (RDoubles n) = Throw ->
  sdt_int_array r n = (Throw, r) /\ sdt_int_list r n = (Throw, r) /\ sdt_int r n = (Throw, r).
Proof.
  intros r n H. unfold result in H. cbn [do_read] in H. unfold with_matrix in H.
  destruct (find n (r_mats r)) as [c|] eqn:C; [destruct (readable c); discriminate H|].
  unfold sdt_int_array, sdt_int_list, sdt_int, data_type. rewrite C. destruct (find n (r_strs r)); repeat split; reflexivity.
Qed.
Lemma sdt_destroys : forall r n,
  (forall v, fst (sdt_int_array r n) = Ok v -> fst (sdt_int_array (snd (sdt_int_array r n)) n) = UB /\ result (snd (sdt_int_array r n)) (RDoubles n) = UB) /\
  (forall v, fst (sdt_int r n) = Ok v -> fst (sdt_int (snd (sdt_int r n)) n) = UB /\ result (snd (sdt_int r n)) (RDoubles n) = UB) /\
  snd (sdt_int_list r n) = r.
Proof.
  intros r n.
  assert (U : forall c, find n (r_mats r) = Some c -> data_type r n (TInt I64) = TInt I64 /\
    find n (r_mats (freed r n)) = Some (kill_both c)).
  { intros c C. split; [exact (matrix_type r n c C)|]. unfold freed, set_mats. cbn [r_mats]. rewrite find_update_same, C. reflexivity. }
  split; [|split].
  - intros v H. unfold sdt_int_array in H |- *. destruct (find n (r_mats r)) as [c|] eqn:C.
    + destruct (U c eq_refl) as [T X]. rewrite T in *. cbn [do_read] in H |- *. unfold with_matrix in *. rewrite C in *.
      destruct (readable c) eqn:Rd; [|discriminate H]. cbn [fst snd] in *.
      rewrite (matrix_type _ _ _ X). unfold result. cbn [do_read]. unfold with_matrix. rewrite X. cbn [readable kill_both c_table c_block andb fst]. split; reflexivity.
    + unfold data_type in H. rewrite C in H. destruct (find n (r_strs r)); discriminate H.
  - intros v H. unfold sdt_int in H |- *. destruct (find n (r_mats r)) as [c|] eqn:C.
    + destruct (U c eq_refl) as [T X]. rewrite T in *. cbn [do_read] in H |- *. unfold with_matrix in *. rewrite C in *.
      destruct (readable c) eqn:Rd; [|discriminate H]. cbn [fst snd] in *.
      rewrite (matrix_type _ _ _ X). unfold result. cbn [do_read]. unfold with_matrix. rewrite X. cbn [readable kill_both c_table c_block andb fst]. split; reflexivity.
    + unfold data_type in H. rewrite C in H. destruct (find n (r_strs r)); discriminate H.
  - unfold sdt_int_list, data_type. destruct (find n (r_mats r)) as [c|] eqn:C.
    + cbn [do_read]. unfold with_matrix. rewrite C. reflexivity.
    + destruct (find n (r_strs r)); reflexivity.
Qed.
Lemma sdt_data_type : forall rnd mem text r n, opens rnd mem text r ->
  (forall v, result r (RDoubles n) = Ok v -> (forall t, data_type r n (TInt t) = TInt t) /\
     data_type r n TDouble = TDouble /\ data_type r n TString = TDouble /\ data_type r n TUndefined = TDouble) /\
  (forall s hint, result r (RDoubles n) = Throw -> result r (RString n) = Ok (VStr s) -> data_type r n hint = TString) /\
  (forall hint, result r (RHas n) = Ok (VBool false) <-> data_type r n hint = TUndefined).
Proof.
  intros rnd mem text r n O. split; [|split].
  - intros v H. destruct (matrix_found r n v H) as (c & C & _). unfold data_type. rewrite C. repeat split; reflexivity.
  - intros s hint H S. unfold result in *. cbn [do_read] in *. unfold with_matrix in H. unfold data_type.
    destruct (find n (r_mats r)) as [c|]; [destruct (readable c); discriminate H|]. cbn [fst] in S.
    destruct (find n (r_strs r)); [reflexivity|discriminate S].
  - intro hint. unfold result. cbn [do_read fst]. unfold data_type. destruct (find n (r_mats r)), (find n (r_strs r)), hint; split; intro H; try discriminate H; reflexivity.
Qed.
