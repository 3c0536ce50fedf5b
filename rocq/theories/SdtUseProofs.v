(** SDT files as seen through the read calls. *)
From Verif Require Import Base SettingsModel SettingsProofs SdtModel NumText DoubleText SdtSpec SdtProofs SdtReadProofs.
From Coq Require Import ZArith QArith Qabs.
Local Open Scope Z_scope.

(** * Specification vocabulary *)
(** Opening a file with this text for reading succeeds and gives the reader [r]. *)
Definition opens (rnd : Q -> option Q) (mem : Z) (text : str) (r : reader) : Prop :=
  exists st, load rnd mem text = Some (Ok st) /\ r = open_store st.
(** Integers up to 2^53 are represented exactly by doubles. *)
Definition exact_ints (rnd : Q -> option Q) : Prop :=
  forall z, Z.abs z <= 2 ^ 53 -> rnd (inject_Z z) = Some (inject_Z z).
(** Element types and the integers they hold. *)
Definition fits (t : ityp) (z : Z) : Prop :=
  match t with
  | I32 => - 2 ^ 31 <= z < 2 ^ 31
  | I64 => - 2 ^ 63 <= z < 2 ^ 63
  | U32 => 0 <= z < 2 ^ 32
  | U64 => 0 <= z < 2 ^ 64
  end.
(** [q] has at most six significant decimal digits. *)
Definition short_decimal (q : Q) : Prop := exists m e, Z.abs m < 1000000 /\ (q == inject_Z m * (10 # 1) ^ e)%Q.

Section Use.
Variable rnd : Q -> option Q.
Variable mem : Z.

Lemma first_matrix_some : forall n cs p, first_matrix n cs = Some p ->
  exists c nc rows, In c cs /\ defines c = Some (n, DMat nc rows) /\ p = (nc, rows).
Proof.
  induction cs as [|c cs IH]; intros p H; cbn [first_matrix] in H; [discriminate|].
  destruct (defines c) as [[n' [nc rows|s]]|] eqn:D.
  - destruct (str_eqb_spec n n') as [E|E].
    + inversion H; subst. exists c, nc, rows. repeat split; auto. left. reflexivity.
    + destruct (IH _ H) as (c' & a & b & I1 & I2). exists c', a, b. split; [right; exact I1|exact I2].
  - destruct (IH _ H) as (c' & a & b & I1 & I2). exists c', a, b. split; [right; exact I1|exact I2].
  - destruct (IH _ H) as (c' & a & b & I1 & I2). exists c', a, b. split; [right; exact I1|exact I2].
Qed.
Lemma first_string_some : forall n cs s, first_string n cs = Some s -> exists c, In c cs /\ defines c = Some (n, DStr s).
Proof.
  induction cs as [|c cs IH]; intros p H; cbn [first_string] in H; [discriminate|].
  destruct (defines c) as [[n' [nc rows|s]]|] eqn:D.
  - destruct (IH _ H) as (c' & I1 & I2). exists c'. split; [right; exact I1|exact I2].
  - destruct (str_eqb_spec n n') as [E|E].
    + inversion H; subst. exists c. split; [left; reflexivity|exact D].
    + destruct (IH _ H) as (c' & I1 & I2). exists c'. split; [right; exact I1|exact I2].
  - destruct (IH _ H) as (c' & I1 & I2). exists c'. split; [right; exact I1|exact I2].
Qed.
Lemma first_none : forall n cs, first_matrix n cs = None -> first_string n cs = None ->
  forall c d, In c cs -> defines c <> Some (n, d).
Proof.
  induction cs as [|c cs IH]; intros H1 H2 c' d H; [destruct H|].
  cbn [first_matrix first_string] in H1, H2. destruct H as [H|H].
  - subst c'. intro E. rewrite E in H1, H2. destruct d; rewrite str_eqb_refl in *; discriminate.
  - apply IH; [| |exact H]; destruct (defines c) as [[n' [nc rows|s]]|]; try assumption;
      destruct (str_eqb n n'); try discriminate; assumption.
Qed.
Lemma first_matrix_split : forall n pre c post nc rows, (forall c' a b, In c' pre -> defines c' <> Some (n, DMat a b)) ->
  defines c = Some (n, DMat nc rows) -> first_matrix n (pre ++ c :: post) = Some (nc, rows).
Proof.
  induction pre as [|p pre IH]; intros c post nc rows Hp Hd; cbn [app first_matrix].
  - rewrite Hd, str_eqb_refl. reflexivity.
  - assert (Hp' : forall c' a b, In c' pre -> defines c' <> Some (n, DMat a b)) by (intros c' a b Hc; apply Hp; right; exact Hc).
    destruct (defines p) as [[n' [a b|s]]|] eqn:D; try (apply IH; assumption).
    destruct (str_eqb_spec n n') as [E|E]; [|apply IH; assumption].
    subst n'. exfalso. apply (Hp p a b (or_introl eq_refl) D).
Qed.
Lemma first_string_split : forall n pre c post v, (forall c' s, In c' pre -> defines c' <> Some (n, DStr s)) ->
  defines c = Some (n, DStr v) -> first_string n (pre ++ c :: post) = Some v.
Proof.
  induction pre as [|p pre IH]; intros c post v Hp Hd; cbn [app first_string].
  - rewrite Hd, str_eqb_refl. reflexivity.
  - assert (Hp' : forall c' s, In c' pre -> defines c' <> Some (n, DStr s)) by (intros c' s Hc; apply Hp; right; exact Hc).
    destruct (defines p) as [[n' [a b|s]]|] eqn:D; try (apply IH; assumption).
    destruct (str_eqb_spec n n') as [E|E]; [|apply IH; assumption].
    subst n'. exfalso. apply (Hp p s (or_introl eq_refl) D).
Qed.

Lemma written_file : forall cs, mem < 2 ^ 64 -> (forall c, In c cs -> ok_call rnd mem c) ->
  exists r, opens rnd mem (write_file cs) r /\ forall n,
    (exists b, result r (RHas n) = Ok (VBool b) /\ (b = true <-> exists c d, In c cs /\ defines c = Some (n, d))) /\
    (forall s, first_string n cs = Some s -> result r (RString n) = Ok (VStr s)) /\
    (first_string n cs = None -> result r (RString n) = Throw) /\
    (forall nc rows, first_matrix n cs = Some (nc, rows) -> exists vals,
        result r (RDoubles n) = Ok (VMat (Z.of_nat (length rows)) (Z.of_nat nc) vals) /\ read_matrix rnd rows vals) /\
    (first_matrix n cs = None -> result r (RDoubles n) = Throw).
Proof.
  intros cs Hm Hok. destruct (load_write_file rnd mem cs Hm Hok) as (st & L & M & S).
  exists (open_store st). split; [exists st; split; [exact L|reflexivity]|]. intro n. specialize (M n). specialize (S n).
  assert (F := find_open st n). unfold result. cbn [do_read fst]. unfold with_matrix. rewrite F. cbn [open_store r_strs].
  rewrite S. split; [|split; [|split; [|split]]].
  - eexists. split; [reflexivity|].
    destruct (first_matrix n cs) as [[nc rows]|] eqn:FM.
    + destruct (first_matrix_some n cs _ FM) as (c & a & b & I1 & I2 & _).
      destruct (find n (st_mats st)); [|contradiction]. cbn [option_map]. split; [|reflexivity].
      intros _. exists c, (DMat a b). auto.
    + destruct (find n (st_mats st)); [contradiction|]. cbn [option_map].
      destruct (first_string n cs) as [s|] eqn:FS.
      * split; [|reflexivity]. intros _. destruct (first_string_some n cs s FS) as (c & I1 & I2). exists c, (DStr s). auto.
      * split; [discriminate|]. intros (c & d & I1 & I2). exfalso. apply (first_none n cs FM FS c d I1 I2).
  - intros s E. rewrite E. reflexivity.
  - intro E. rewrite E. reflexivity.
  - intros nc rows E. rewrite E in M. destruct (find n (st_mats st)) as [m|]; [|contradiction].
    destruct M as (M1 & M2 & M3). exists (m_rows m). cbn [option_map readable c_table c_block c_mat andb fst].
    rewrite M1, M2. split; [reflexivity|exact M3].
  - intro E. rewrite E in M. destruct (find n (st_mats st)) as [m|]; [contradiction|]. reflexivity.
Qed.

(** The matrix behind a successful RDoubles on an opened file. *)
Lemma opened_matrix : forall text r n nr nc rows, opens rnd mem text r -> result r (RDoubles n) = Ok (VMat nr nc rows) ->
  exists m, find n (r_mats r) = Some (Cell m true true) /\ proper m /\ m_nrows m = nr /\ m_ncols m = nc /\ m_rows m = rows.
Proof.
  intros text r n nr nc rows (st & L & E) H. subst r. unfold result in H. cbn [do_read] in H. unfold with_matrix in H.
  rewrite find_open in *. assert (P := load_proper rnd mem text st L n).
  destruct (find n (st_mats st)) as [m|]; [|discriminate]. cbn [option_map readable c_table c_block c_mat andb fst] in H.
  inversion H. exists m. repeat split; try (apply (P m eq_refl)); reflexivity.
Qed.

Lemma read_shape : forall text r n nr nc rows, opens rnd mem text r -> result r (RDoubles n) = Ok (VMat nr nc rows) ->
  1 <= nr /\ 0 <= nc /\ Z.of_nat (length rows) = nr /\ forall x, In x rows -> Z.of_nat (length x) = nc.
Proof.
  intros text r n nr nc rows Ho H. destruct (opened_matrix _ _ _ _ _ _ Ho H) as (m & F & P & E1 & E2 & E3).
  unfold proper in P. rewrite E1, E2, E3 in P. exact P.
Qed.

Lemma concat_len : forall (rows : list (list Q)) nc, (forall x, In x rows -> Z.of_nat (length x) = nc) ->
  Z.of_nat (length (concat rows)) = Z.of_nat (length rows) * nc.
Proof.
  induction rows as [|x rows IH]; intros nc H; [reflexivity|]. cbn [concat length]. rewrite app_length, Nat2Z.inj_add.
  rewrite (IH nc) by (intros y Hy; apply H; right; exact Hy). rewrite (H x (or_introl eq_refl)). lia.
Qed.

Lemma vec_read : forall text r n nr nc rows, opens rnd mem text r -> result r (RDoubles n) = Ok (VMat nr nc rows) ->
  (nr = 1 -> result r (RVec n) = Ok (VVec (concat rows))) /\
  (nr <> 1 -> nc = 1 -> result r (RVec n) = Throw) /\
  (nr <> 1 -> 2 <= nc -> result r (RVec n) = Ok (VVec (firstn (Z.to_nat nr) (concat rows)))) /\
  (nr <> 1 -> nc = 0 -> result r (RVec n) = UB).
Proof.
  intros text r n nr nc rows Ho H. destruct (opened_matrix _ _ _ _ _ _ Ho H) as (m & F & P & E1 & E2 & E3).
  assert (S := read_shape _ _ _ _ _ _ Ho H). destruct S as (S1 & S2 & S3 & S4).
  assert (CL := concat_len rows nc S4). rewrite S3 in CL.
  unfold result. cbn [do_read]. unfold with_matrix. rewrite F. cbn [fst]. unfold doubles_1d, elements. cbn [c_mat].
  rewrite E1, E2, E3. cbn [readable c_table c_block andb]. split; [|split; [|split]].
  - intro X. rewrite X in *. change (1 =? 1) with true. cbv iota. destruct (nc =? 0) eqn:Z0.
    + apply Z.eqb_eq in Z0. subst nc. destruct (concat rows); [reflexivity|]. cbn [length] in CL. lia.
    + replace (Z.of_nat (length (concat rows)) <? nc) with false by (symmetry; apply Z.ltb_ge; lia).
      cbn [obind]. f_equal. f_equal. replace (Z.to_nat nc) with (length (concat rows)) by lia. apply firstn_all.
  - intros X Y. replace (nr =? 1) with false by (symmetry; apply Z.eqb_neq; exact X). rewrite Y. reflexivity.
  - intros X Y. replace (nr =? 1) with false by (symmetry; apply Z.eqb_neq; exact X).
    replace (nc =? 1) with false by (symmetry; apply Z.eqb_neq; lia). cbn [negb].
    replace (nr =? 0) with false by (symmetry; apply Z.eqb_neq; lia).
    replace (Z.of_nat (length (concat rows)) <? nr) with false by (symmetry; apply Z.ltb_ge; nia). reflexivity.
  - intros X Y. replace (nr =? 1) with false by (symmetry; apply Z.eqb_neq; exact X). rewrite Y in *.
    change (negb (0 =? 1)) with true. cbv iota.
    replace (nr =? 0) with false by (symmetry; apply Z.eqb_neq; lia).
    replace (Z.of_nat (length (concat rows)) <? nr) with true by (symmetry; apply Z.ltb_lt; nia). reflexivity.
Qed.

Lemma list_read : forall text r n nr nc rows, opens rnd mem text r -> result r (RDoubles n) = Ok (VMat nr nc rows) ->
  (nr = 1 \/ nc = 1 -> result r (RList n) = Ok (VVec (concat rows))) /\
  (nr <> 1 -> nc <> 1 -> result r (RList n) = Throw) /\
  (nr = 1 -> nc = 1 -> exists q, rows = [[q]] /\ result r (RScalar n) = Ok (VNum q) /\
     forall t, result r (RInt t n) = obind (cast_int t q) (fun z => Ok (VInt z))) /\
  (nr <> 1 \/ nc <> 1 -> result r (RScalar n) = Throw).
Proof.
  intros text r n nr nc rows Ho H. destruct (opened_matrix _ _ _ _ _ _ Ho H) as (m & F & P & E1 & E2 & E3).
  assert (S := read_shape _ _ _ _ _ _ Ho H). destruct S as (S1 & S2 & S3 & S4).
  unfold result. cbn [do_read]. unfold with_matrix. rewrite F. cbn [fst]. unfold not_scalar, elements. cbn [c_mat readable c_table c_block andb].
  rewrite E1, E2, E3. split; [|split; [|split]].
  - intro X. assert (((nr =? 1) || (nc =? 1))%bool = true) as -> by (apply orb_true_iff; rewrite !Z.eqb_eq; exact X). reflexivity.
  - intros X Y. assert (((nr =? 1) || (nc =? 1))%bool = false) as -> by (apply orb_false_iff; rewrite !Z.eqb_neq; auto). reflexivity.
  - intros X Y. rewrite X, Y in *. cbn [Z.eqb Pos.eqb negb orb].
    destruct rows as [|x [|y rows]]; cbn [length] in S3; try lia.
    specialize (S4 x (or_introl eq_refl)). destruct x as [|q [|q' x]]; cbn [length] in S4; try lia.
    exists q. split; [reflexivity|]. split; [reflexivity|]. intro t. cbn [fst obind_list]. destruct (cast_int t q); reflexivity.
  - intro X. assert ((negb (nr =? 1) || negb (nc =? 1))%bool = true) as -> by
      (apply orb_true_iff; rewrite !negb_true_iff, !Z.eqb_neq; exact X). reflexivity.
Qed.

(** * Integer matrices *)
Definition int_rows (zs : list (list Z)) : list (list snum) := map (map NInt) zs.
Lemma read_ints : forall zs vals, exact_ints rnd -> (forall row z, In row zs -> In z row -> Z.abs z <= 2 ^ 53) ->
  read_matrix rnd (int_rows zs) vals -> vals = map (map inject_Z) zs.
Proof.
  induction zs as [|row zs IH]; intros vals He Hz H; unfold read_matrix, int_rows in *; cbn [map] in H; inversion H as [|x v l vs Hx Hl]; subst; [reflexivity|].
  cbn [map]. f_equal; [|apply IH; [exact He| |exact Hl]; intros r z Hr; apply Hz; right; exact Hr].
  assert (Hr : forall z, In z row -> Z.abs z <= 2 ^ 53) by (intro z; apply Hz; left; reflexivity).
  clear - He Hr Hx. revert v Hx. induction row as [|z row IH]; intros v Hx; cbn [map] in Hx; inversion Hx as [|a b la lb Ha Hlb]; subst; [reflexivity|].
  cbn [map]. f_equal; [|apply IH; [|exact Hlb]; intros z' Hz'; apply Hr; right; exact Hz'].
  cbn [reads_back] in Ha. rewrite (He z (Hr z (or_introl eq_refl))) in Ha. inversion Ha. reflexivity.
Qed.

Lemma cast_int_fits : forall t z, fits t z -> cast_int t (inject_Z z) = Ok z.
Proof.
  intros t z H. unfold cast_int, inject_Z. cbn [Qnum Qden]. rewrite Z.quot_1_r.
  assert (ityp_lo t <= z <= ityp_hi t) as [A B] by (destruct t; unfold fits, ityp_lo, ityp_hi in *; lia).
  apply Z.leb_le in A. apply Z.leb_le in B. rewrite A, B. reflexivity.
Qed.
Lemma obind_list_map : forall (A B C : Type) (f : B -> outcome C) (g : A -> B) (h : A -> C) l,
  (forall x, In x l -> f (g x) = Ok (h x)) -> obind_list f (map g l) = Ok (map h l).
Proof.
  intros A B C f g h l. induction l as [|x l IH]; intro H; [reflexivity|]. cbn [map].
  change (obind (f (g x)) (fun y => obind (obind_list f (map g l)) (fun ys => Ok (y :: ys))) = Ok (h x :: map h l)).
  rewrite (H x (or_introl eq_refl)). cbn [obind]. rewrite IH by (intros y Hy; apply H; right; exact Hy). reflexivity.
Qed.
Lemma ints_read : forall r n nr nc zs t, result r (RDoubles n) = Ok (VMat nr nc (map (map inject_Z) zs)) ->
  (forall row z, In row zs -> In z row -> fits t z) -> result r (RInts t n) = Ok (VIMat nr nc zs).
Proof.
  intros r n nr nc zs t H Hz. unfold result in *. cbn [do_read] in *. unfold with_matrix in *.
  destruct (find n (r_mats r)) as [c|]; [|discriminate]. destruct (readable c); [|discriminate]. cbn [fst] in *.
  injection H as E1 E2 E3. rewrite E1, E2, E3, (obind_list_map _ _ _ _ _ (fun x => x)).
  - cbn [obind]. rewrite map_id. reflexivity.
  - intros row Hr. rewrite (obind_list_map _ _ _ _ _ (fun x => x)); [rewrite map_id; reflexivity|].
    intros z Hzr. apply cast_int_fits. apply (Hz row z Hr Hzr).
Qed.

Lemma int_matrix : forall pre post n nc zs, mem < 2 ^ 64 -> exact_ints rnd ->
  (forall c, In c (pre ++ post) -> ok_call rnd mem c) -> (forall c a b, In c pre -> defines c <> Some (n, DMat a b)) ->
  plain n -> zs <> [] -> (forall row, In row zs -> length row = nc) ->
  (forall row z, In row zs -> In z row -> Z.abs z <= 2 ^ 53) ->
  Z.of_nat (length zs) <= mem -> Z.of_nat nc <= mem -> Z.of_nat (length zs) * Z.of_nat nc <= mem ->
  exists r, opens rnd mem (write_file (pre ++ WArray n nc (int_rows zs) :: post)) r /\
    result r (RDoubles n) = Ok (VMat (Z.of_nat (length zs)) (Z.of_nat nc) (map (map inject_Z) zs)) /\
    forall t, (forall row z, In row zs -> In z row -> fits t z) ->
      result r (RInts t n) = Ok (VIMat (Z.of_nat (length zs)) (Z.of_nat nc) zs).
Proof.
  intros pre post n nc zs Hm He Hok Hpre Hn Hne Hnc Hz H1 H2 H3.
  destruct (written_file (pre ++ WArray n nc (int_rows zs) :: post) Hm) as (r & O & W).
  - intros c Hc. apply in_app_or in Hc. destruct Hc as [Hc|[Hc|Hc]].
    + apply Hok. apply in_or_app. left. exact Hc.
    + subst c. unfold ok_call. cbn [defines]. split; [exact Hn|]. unfold ok_matrix, int_rows. rewrite map_length.
      split; [intro X; apply map_eq_nil in X; contradiction|]. split; [|split; [|split; [|split]]]; try assumption.
      * intros row Hr. apply in_map_iff in Hr. destruct Hr as (zr & Ez & Hzr). subst row. rewrite map_length. apply Hnc. exact Hzr.
      * intros row x Hr Hx. apply in_map_iff in Hr. destruct Hr as (zr & Ez & Hzr). subst row.
        apply in_map_iff in Hx. destruct Hx as (z & E & Hzz). subst x. cbn [in_range].
        rewrite He by (apply (Hz zr z Hzr Hzz)). discriminate.
    + apply Hok. apply in_or_app. right. exact Hc.
  - exists r. split; [exact O|]. destruct (W n) as (_ & _ & _ & W4 & _).
    destruct (W4 nc (int_rows zs) (first_matrix_split n pre (WArray n nc (int_rows zs)) post nc (int_rows zs) Hpre eq_refl)) as (vals & V1 & V2).
    apply read_ints in V2; [|exact He|exact Hz]. subst vals. unfold int_rows in V1. rewrite map_length in V1.
    split; [exact V1|]. intros t Ht. apply ints_read; assumption.
Qed.

(** * Attributes *)
Lemma attr_read : forall pre post d n v, mem < 2 ^ 64 -> 1 <= mem ->
  (forall c, In c (pre ++ post) -> ok_call rnd mem c) ->
  (forall c a b, In c pre -> defines c <> Some (d ++ str_of "_" ++ n, DMat a b)) ->
  plain (d ++ str_of "_" ++ n) -> in_range rnd (NDbl v) ->
  exists r q, opens rnd mem (write_file (pre ++ WAttrScalar d n v :: post)) r /\
    result r (RAttr d n) = Ok (VNum q) /\ reads_back rnd (NDbl v) q.
Proof.
  intros pre post d n v Hm H1 Hok Hpre Hn Hr.
  destruct (load_write_file rnd mem (pre ++ WAttrScalar d n v :: post) Hm) as (st & L & M & S).
  - intros c Hc. apply in_app_or in Hc. destruct Hc as [Hc|[Hc|Hc]].
    + apply Hok. apply in_or_app. left. exact Hc.
    + subst c. unfold ok_call. cbn [defines]. split; [exact Hn|]. unfold ok_matrix. cbn [length].
      split; [discriminate|]. split; [intros x [Hx|[]]; subst x; reflexivity|].
      split; [intros x y [Hx|[]] Hy; subst x; destruct Hy as [Hy|[]]; subst y; exact Hr|lia].
    + apply Hok. apply in_or_app. right. exact Hc.
  - specialize (M (d ++ str_of "_" ++ n)).
    rewrite (first_matrix_split _ pre (WAttrScalar d n v) post 1%nat [[NDbl v]] Hpre eq_refl) in M.
    assert (F := find_open st (d ++ str_of "_" ++ n)).
    destruct (find (d ++ str_of "_" ++ n) (st_mats st)) as [m|] eqn:Fm; [|contradiction].
    destruct M as (M1 & M2 & M3). unfold read_matrix in M3.
    inversion M3 as [|x y l l' Hxy Hl]; subst. inversion Hl; subst. inversion Hxy as [|a q la lq Haq Hlq]; subst. inversion Hlq; subst.
    exists (open_store st), q. split; [exists st; auto|]. split; [|exact Haq].
    unfold result. cbn [do_read]. unfold with_matrix, attr_name. cbn [option_map] in F.
    change (d ++ "_"%char :: n) with (d ++ str_of "_" ++ n). rewrite F. cbn [c_mat fst]. unfold not_scalar, elements.
    match goal with E : _ = m_rows m |- _ => rewrite <- E end. rewrite M1, M2. reflexivity.
Qed.

Lemma attr_string_read : forall pre post d n v, mem < 2 ^ 64 ->
  (forall c, In c (pre ++ post) -> ok_call rnd mem c) ->
  (forall c s, In c pre -> defines c <> Some (d ++ str_of "_" ++ n, DStr s)) ->
  plain (d ++ str_of "_" ++ n) -> Z.of_nat (length v) <= mem ->
  exists r, opens rnd mem (write_file (pre ++ WAttrString d n v :: post)) r /\
    result r (RAttrString d n) = Ok (VStr v).
Proof.
  intros pre post d n v Hm Hok Hpre Hn Hr.
  destruct (load_write_file rnd mem (pre ++ WAttrString d n v :: post) Hm) as (st & L & M & S).
  - intros c Hc. apply in_app_or in Hc. destruct Hc as [Hc|[Hc|Hc]].
    + apply Hok. apply in_or_app. left. exact Hc.
    + subst c. unfold ok_call. cbn [defines]. split; assumption.
    + apply Hok. apply in_or_app. right. exact Hc.
  - specialize (S (d ++ str_of "_" ++ n)).
    rewrite (first_string_split _ pre (WAttrString d n v) post v Hpre eq_refl) in S.
    exists (open_store st). split; [exists st; auto|]. unfold result. cbn [do_read fst open_store r_strs].
    change (attr_name d n) with (d ++ str_of "_" ++ n). rewrite S. reflexivity.
Qed.

Lemma join_inj : forall d1 d2 n1 n2 : str, ~ In "_"%char d1 -> ~ In "_"%char d2 ->
  d1 ++ str_of "_" ++ n1 = d2 ++ str_of "_" ++ n2 -> d1 = d2 /\ n1 = n2.
Proof.
  induction d1 as [|c d1 IH]; intros [|c' d2] n1 n2 H1 H2 E; cbn [app] in E.
  - change (str_of "_" ++ n1) with ("_"%char :: n1) in E. change (str_of "_" ++ n2) with ("_"%char :: n2) in E.
    inversion E. auto.
  - change (str_of "_" ++ n1) with ("_"%char :: n1) in E. inversion E as [[A B]]. exfalso. apply H2. left. congruence.
  - change (str_of "_" ++ n2) with ("_"%char :: n2) in E. inversion E as [[A B]]. exfalso. apply H1. left. congruence.
  - inversion E as [[A B]]. destruct (IH d2 n1 n2) as [X Y].
    + intro X. apply H1. right. exact X.
    + intro X. apply H2. right. exact X.
    + exact B.
    + subst. auto.
Qed.

(** * Doubles *)
Lemma double_scalar : forall pre post n q, mem < 2 ^ 64 -> 1 <= mem ->
  (forall c, In c (pre ++ post) -> ok_call rnd mem c) -> (forall c a b, In c pre -> defines c <> Some (n, DMat a b)) ->
  plain n -> in_range rnd (NDbl q) ->
  exists r q' v, opens rnd mem (write_file (pre ++ WScalar n (NDbl q) :: post)) r /\
    result r (RScalar n) = Ok (VNum v) /\ rnd q' = Some v /\ six_digits q q' /\
    (Qabs (q - q') <= (5 # 1000000) * Qabs q)%Q /\ (short_decimal q -> (q' == q)%Q).
Proof.
  intros pre post n q Hm H1 Hok Hpre Hn Hr.
  destruct (written_file (pre ++ WScalar n (NDbl q) :: post) Hm) as (r & O & W).
  - intros c Hc. apply in_app_or in Hc. destruct Hc as [Hc|[Hc|Hc]].
    + apply Hok. apply in_or_app. left. exact Hc.
    + subst c. unfold ok_call. cbn [defines]. split; [exact Hn|]. unfold ok_matrix. cbn [length].
      split; [discriminate|]. split; [intros x [Hx|[]]; subst x; reflexivity|].
      split; [intros x y [Hx|[]] Hy; subst x; destruct Hy as [Hy|[]]; subst y; exact Hr|lia].
    + apply Hok. apply in_or_app. right. exact Hc.
  - destruct (W n) as (_ & _ & _ & W4 & _).
    destruct (W4 1%nat [[NDbl q]] (first_matrix_split n pre (WScalar n (NDbl q)) post 1%nat [[NDbl q]] Hpre eq_refl)) as (vals & V1 & V2).
    unfold read_matrix in V2.
    inversion V2 as [|x y l l' Hxy Hl]; subst. inversion Hl; subst. inversion Hxy as [|a v la lq Haq Hlq]; subst. inversion Hlq; subst.
    destruct Haq as (q' & D & Eq).
    destruct (list_read _ r n _ _ _ O V1) as (_ & _ & L3 & _). destruct (L3 eq_refl eq_refl) as (q0 & Er & Rs & _).
    inversion Er; subst q0. exists r, q', v. split; [exact O|]. split; [exact Rs|]. split; [exact Eq|]. split; [exact D|].
    split; [apply six_digits_close; exact D|]. intro Sh. apply six_digits_exact; assumption.
Qed.
End Use.

Lemma string_read : forall rnd mem pre post n v, mem < 2 ^ 64 ->
  (forall c, In c (pre ++ post) -> ok_call rnd mem c) ->
  (forall c s, In c pre -> defines c <> Some (n, DStr s)) -> plain n -> Z.of_nat (length v) <= mem ->
  exists r, opens rnd mem (write_file (pre ++ WString n v :: post)) r /\ result r (RString n) = Ok (VStr v).
Proof.
  intros rnd mem pre post n v Hm Hok Hpre Hn Hv.
  destruct (written_file rnd mem (pre ++ WString n v :: post) Hm) as (r & O & W).
  - intros c Hc. apply in_app_or in Hc. destruct Hc as [Hc|[Hc|Hc]].
    + apply Hok. apply in_or_app. left. exact Hc.
    + subst c. split; assumption.
    + apply Hok. apply in_or_app. right. exact Hc.
  - exists r. split; [exact O|]. destruct (W n) as (_ & W2 & _). apply W2.
    apply first_string_split; [exact Hpre|reflexivity].
Qed.

Lemma load_safe : forall rnd mem text,
  load rnd mem text <> None /\
  (load rnd mem text = Some UB -> exists line name a b, In line (lines_of text) /\ declares_by line name a b /\ (a = 0 \/ 2 ^ 64 <= a * b)) /\
  (forall r n nr nc rows, opens rnd mem text r -> result r (RDoubles n) = Ok (VMat nr nc rows) ->
     1 <= nr /\ 0 <= nc /\ Z.of_nat (length rows) = nr /\ forall x, In x rows -> Z.of_nat (length x) = nc).
Proof.
  intros rnd mem text. split; [apply load_fuel_enough|]. split.
  - apply load_ub.
  - intros r n nr nc rows O H. apply (read_shape rnd mem text r n nr nc rows O H).
Qed.
Lemma load_zero_rows_text : forall rnd mem text line ls name b, 0 <= mem ->
  lines_of text = line :: ls -> declares_by line name 0 b -> load rnd mem text = Some UB.
Proof.
  intros rnd mem text line ls name b Hm Hl Hd. assert (L := load_zero_rows rnd mem line ls [] (Store [] []) name b Hm Hd).
  unfold load_from in L. unfold load. rewrite Hl. exact L.
Qed.
Lemma load_overflow_text : forall rnd mem text line ls name a b, 1 <= a <= mem -> 1 <= b ->
  lines_of text = line :: ls -> declares_by line name a b -> (2 ^ 64 | a * b) -> load rnd mem text = Some UB.
Proof.
  intros rnd mem text line ls name a b Ha Hb Hl (s1 & s2 & s3 & s4 & W & W1 & G1 & G2) Hd.
  assert (L : load_from rnd mem [] (line :: ls) (Store [] []) = Some UB).
  { rewrite load_from_step. unfold load_step.
    destruct line as [|c line]; [discriminate|]. rewrite W, str_eqb_refl, W1, G1, G2.
    unfold load_matrix. rewrite (proj2 (Z.mod_divide (a * b) (2 ^ 64) ltac:(lia)) Hd).
    replace (mem <? a) with false by (symmetry; apply Z.ltb_ge; lia).
    replace (mem <? 0) with false by (symmetry; apply Z.ltb_ge; lia).
    replace (a =? 0) with false by (symmetry; apply Z.eqb_neq; lia).
    destruct (Z.to_nat a) as [|ka] eqn:Ea; [lia|]. destruct (Z.to_nat b) as [|kb] eqn:Eb; [lia|].
    rewrite load_rows_S. cbn [load_row]. change (0 <=? 0) with true. destruct ls; reflexivity. }
  unfold load_from in L. unfold load. rewrite Hl. exact L.
Qed.

Lemma int_vec_read : forall r t n,
  (forall zs, result r (RVec n) = Ok (VVec (map inject_Z zs)) -> (forall z, In z zs -> fits t z) -> result r (RIntVec t n) = Ok (VIVec zs)) /\
  (result r (RVec n) = Throw -> result r (RIntVec t n) = Throw) /\ (result r (RVec n) = UB -> result r (RIntVec t n) = UB).
Proof.
  intros r t n. unfold result. cbn [do_read]. unfold with_matrix. destruct (find n (r_mats r)) as [c|]; cbn [fst].
  2: { split; [intros zs H; discriminate H|]. split; intro H; [reflexivity|discriminate H]. }
  destruct (doubles_1d c) as [l| |]; cbn [obind]; (split; [|split; intro H; try discriminate H; reflexivity]); intros zs H Hz; try discriminate H.
  injection H as H. subst l.
  assert (X : obind_list (cast_int t) (map inject_Z zs) = Ok zs).
  { clear -Hz. induction zs as [|z zs IH]; [reflexivity|]. cbn [map obind_list].
    rewrite (cast_int_fits t z (Hz z (or_introl eq_refl))). cbn [obind]. rewrite IH by (intros z' H'; apply Hz; right; exact H'). reflexivity. }
  rewrite X. reflexivity.
Qed.
