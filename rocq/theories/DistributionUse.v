(** Lemmas on momentum space distributions, tables and clones. *)
From Coq Require Import Reals Lra Permutation.
From Verif Require Import Base DomainModel AnalyticalModel NumericModel NumericSpec NumericArrays DistributionModel DistributionSpec DistributionProofs DistributionBuild.
Local Open Scope R_scope.

(** * Momentum space *)
Lemma monotone_spec : forall l, monotone true l = true <-> ascending l.
Proof.
  intro l. rewrite <- increasing_ok. induction l as [|a l IH]; [split; reflexivity|]. destruct l as [|b l]; [split; reflexivity|].
  change (monotone true (a :: b :: l)) with (negb (Rleb b a) && monotone true (b :: l))%bool. change (increasing (a :: b :: l)) with (Rltb a b && increasing (b :: l))%bool.
  rewrite !andb_true_iff, IH. assert (Q : negb (Rleb b a) = Rltb a b) by (unfold Rleb, Rltb; destruct (Rle_dec b a), (Rlt_dec a b); try reflexivity; lra).
  rewrite Q. tauto.
Qed.
Lemma grid_spec : forall it l, grid_usable (negb (it =? 0)%Z) l = true <-> mesh it l.
Proof.
  intros it l. unfold grid_usable, mesh. rewrite andb_true_iff, monotone_spec. destruct (it =? 0)%Z; cbn [negb]; rewrite Nat.leb_le; tauto.
Qed.
Lemma grid_ends : forall it l, mesh it l -> exists a b, nth_error l 0 = Some a /\ nth_error l (length l - 1) = Some b /\ a < b.
Proof.
  intros it l [A L]. assert (L2 : (2 <= length l)%nat) by (destruct (it =? 0)%Z; lia).
  destruct (nth_error l 0) as [a|] eqn:E0; [|apply nth_error_None in E0; lia]. destruct (nth_error l (length l - 1)) as [b|] eqn:E1; [|apply nth_error_None in E1; lia].
  exists a, b. split; [reflexivity|]. split; [reflexivity|]. apply (A 0%nat (length l - 1)%nat a b); [lia|exact E0|exact E1].
Qed.
Lemma ms_initialize_ok : forall lg fl p xi f it m, ms_initialize lg fl p xi f it = Ok m ->
  exists pmin pmax ximin ximax, nth_error p 0 = Some pmin /\ nth_error p (length p - 1) = Some pmax /\
    nth_error xi 0 = Some ximin /\ nth_error xi (length xi - 1) = Some ximax /\ pmin <= pmax /\ ximin <= ximax /\
    (length p * length xi <= length f)%nat /\ (mesh it p /\ mesh it xi) /\
    m = MSDF p xi (firstn (length p * length xi) f) pmin pmax ximin ximax (negb (it =? 0)%Z) lg fl.
Proof.
  intros lg fl p xi f it m H. unfold ms_initialize, dget in H.
  destruct (nth_error p 0) as [a|]; [|discriminate]. destruct (nth_error p (length p - 1)) as [b|]; [|discriminate].
  destruct (nth_error xi 0) as [c|]; [|discriminate]. destruct (nth_error xi (length xi - 1)) as [d|]; [|discriminate]. cbn [obind] in H.
  destruct (Rltb b a) eqn:E1; [discriminate|]. destruct (Rltb d c) eqn:E2; [discriminate|].
  destruct (grid_usable (negb (it =? 0)%Z) p && grid_usable (negb (it =? 0)%Z) xi)%bool eqn:G; [|discriminate]. cbn [negb] in H. apply andb_true_iff in G. rewrite !grid_spec in G.
  destruct (length f <? length p * length xi)%nat eqn:E3; [discriminate|]. injection H as <-.
  apply Rltb_f in E1. apply Rltb_f in E2. apply Nat.ltb_ge in E3. exists a, b, c, d. repeat (split; [assumption || reflexivity || lra|]). reflexivity.
Qed.
Lemma ms_initialize_do : forall lg fl p xi f it pmin pmax ximin ximax,
  nth_error p 0 = Some pmin -> nth_error p (length p - 1) = Some pmax ->
  nth_error xi 0 = Some ximin -> nth_error xi (length xi - 1) = Some ximax -> pmin <= pmax -> ximin <= ximax ->
  (length p * length xi <= length f)%nat -> mesh it p -> mesh it xi ->
  ms_initialize lg fl p xi f it = Ok (MSDF p xi (firstn (length p * length xi) f) pmin pmax ximin ximax (negb (it =? 0)%Z) lg fl).
Proof.
  intros lg fl p xi f it a b c d E1 E2 E3 E4 H1 H2 L GP GX. unfold ms_initialize, dget. rewrite E1, E2, E3, E4. cbn [obind].
  replace (Rltb b a) with false by (symmetry; apply Rltb_f; exact H1). replace (Rltb d c) with false by (symmetry; apply Rltb_f; exact H2).
  apply grid_spec in GP. apply grid_spec in GX. rewrite GP, GX. cbn [andb negb].
  replace (length f <? length p * length xi)%nat with false by (symmetry; apply Nat.ltb_ge; exact L). reflexivity.
Qed.

(** An object that has been initialized, whatever its flags. *)
Definition initialized (m : msdf) : Prop := exists p xi f it m0 lg fl, ms_initialize false false p xi f it = Ok m0 /\ m = ms_set_log lg (ms_set_flip fl m0).

Lemma clone_unset : forall m, initialized m -> ms_clone m = Ok (ms_set_log false m).
Proof.
  intros m (p & xi & f & it & m0 & lg & fl & E & ->). destruct (ms_initialize_ok _ _ _ _ _ _ _ E) as (a & b & c & d & E1 & E2 & E3 & E4 & H1 & H2 & L & (GP & GX) & ->).
  unfold ms_clone. cbn [ms_set_log ms_set_flip ms_flip ms_p ms_xi ms_f ms_cubic].
  assert (IT : forall l, mesh it l -> mesh (if negb (it =? 0)%Z then 1 else 0)%Z l) by (intro l; unfold mesh; destruct (it =? 0)%Z; exact (fun h => h)).
  rewrite (ms_initialize_do _ _ p xi _ _ a b c d E1 E2 E3 E4 H1 H2); [|rewrite firstn_length_le by exact L; lia|exact (IT _ GP)|exact (IT _ GX)].
  rewrite firstn_firstn, Nat.min_id. f_equal. unfold ms_set_log, ms_set_flip. cbn. f_equal. destruct (it =? 0)%Z; reflexivity.
Qed.
Lemma unset_same : forall m, ms_log m = false -> ms_set_log false m = m.
Proof. intros [] H. cbn in H. subst. reflexivity. Qed.

(** * Tables *)
Lemma log_table_throw : forall n f i v, nth_error f i = Some v -> (i < n)%nat -> (n <= length f)%nat -> v < 0 -> log_table n f = Throw.
Proof.
  induction n as [|n IH]; intros f i v E I L H; [lia|]. destruct f as [|w f]; [cbn in L; lia|]. cbn [log_table].
  destruct (Rltb w 0) eqn:Q; [reflexivity|]. apply Rltb_f in Q. destruct i as [|i]; [injection E as ->; lra|].
  cbn in E, L. rewrite (IH f i v E); [reflexivity|lia|lia|exact H].
Qed.
Lemma log_table_ok : forall n f, (n <= length f)%nat -> (forall i v, (i < n)%nat -> nth_error f i = Some v -> 0 <= v) ->
  log_table n f = Ok (map xlog (firstn n f)).
Proof.
  induction n as [|n IH]; intros f L H; [reflexivity|]. destruct f as [|w f]; [cbn in L; lia|]. cbn [log_table firstn map].
  replace (Rltb w 0) with false by (symmetry; apply Rltb_f; apply (H 0%nat); [lia|reflexivity]).
  rewrite IH; [reflexivity|cbn in L; lia|]. intros i v I E. apply (H (S i)); [lia|exact E].
Qed.
Lemma xlog_nonneg : forall x, 0 <= x -> xlog x = safe_log x.
Proof.
  intros x H. unfold xlog, safe_log. destruct (Rlt_dec 0 x), (Rle_dec x 0); try lra; try reflexivity.
  destruct (Req_EM_T x 0); [reflexivity|lra].
Qed.

Section Table.
  Variable D : Type.
  Lemma collect_ok : forall (ds : nat -> D) mk n i, (forall j, (i <= j < i + n)%nat -> mk j = Ok (ds j)) ->
    collect mk n i = Ok (map ds (seq i n)).
  Proof.
    intros ds mk. induction n as [|n IH]; intros i H; [reflexivity|]. cbn [collect seq map].
    rewrite (H i) by lia. cbn [obind]. rewrite IH; [reflexivity|]. intros j J. apply H. lia.
  Qed.
  Lemma monotone_up : forall l, monotone true l = increasing l.
  Proof.
    intro l. induction l as [|a [|b t] IH]; [reflexivity|reflexivity|].
    change (monotone true (a :: b :: t)) with (negb (Rleb b a) && monotone true (b :: t))%bool.
    change (increasing (a :: b :: t)) with (Rltb a b && increasing (b :: t))%bool. rewrite IH. f_equal.
    unfold Rleb, Rltb. destruct (Rle_dec b a), (Rlt_dec a b); try lra; reflexivity.
  Qed.
  Lemma monotone_down : forall l, monotone false l = increasing (map Ropp l).
  Proof.
    intro l. induction l as [|a [|b t] IH]; [reflexivity|reflexivity|].
    change (monotone false (a :: b :: t)) with (negb (Rleb a b) && monotone false (b :: t))%bool.
    change (increasing (map Ropp (a :: b :: t))) with (Rltb (- a) (- b) && increasing (map Ropp (b :: t)))%bool. rewrite IH. f_equal.
    unfold Rleb, Rltb. destruct (Rle_dec a b), (Rlt_dec (- a) (- b)); try lra; reflexivity.
  Qed.
  Lemma descending_opp : forall l, ascending (map Ropp l) <-> descending l.
  Proof.
    intro l. split; intros H i j a b L A B.
    - assert (- a < - b); [|lra]. apply (H i j); [exact L|apply map_nth_error; exact A|apply map_nth_error; exact B].
    - rewrite nth_error_map in A, B. destruct (nth_error l i) as [a'|] eqn:EA; [|discriminate]. destruct (nth_error l j) as [b'|] eqn:EB; [|discriminate].
      cbn in A, B. injection A as <-. injection B as <-. pose proof (H i j a' b' L EA EB). lra.
  Qed.

  Lemma initialize_up : forall rs mk (ds : nat -> D) a b, ascending rs -> nth_error rs 0 = Some a -> nth_error rs (length rs - 1) = Some b ->
    (forall j, (j < length rs)%nat -> mk j = Ok (ds j)) ->
    rd_initialize rs mk = Ok (Radial (tl rs) (map ds (seq 0 (length rs))) (Some (a, b)) true).
  Proof.
    intros rs mk ds a b G A B H. unfold rd_initialize.
    assert (ASC : (match rs with a :: b :: _ :: _ => Rleb a b | _ => true end) = true).
    { destruct rs as [|u [|v [|w t]]]; try reflexivity. apply Rleb_t. left. apply (G 0%nat 1%nat); [lia|reflexivity|reflexivity]. }
    rewrite ASC. rewrite monotone_up. replace (increasing rs) with true by (symmetry; apply increasing_ok; exact G). cbn [negb].
    unfold dget. rewrite A, B. cbn [obind]. rewrite (collect_ok ds) by (intros j J; apply H; lia). cbn [obind].
    replace (Rltb b a) with false; [reflexivity|]. symmetry. apply Rltb_f. apply (ascending_le rs 0 (length rs - 1) a b G); [lia|exact A|exact B].
  Qed.

  Lemma values_map : forall (ev : D -> R -> R -> outcome (option R)) rs (ds : nat -> D) n lim e p xi (vals : nat -> R),
    (forall j, (j < n)%nat -> ev (ds j) p xi = Ok (Some (vals j))) ->
    values ev (Radial rs (map ds (seq 0 n)) lim e) p xi (map vals (seq 0 n)).
  Proof.
    intros ev rs ds n lim e p xi vals H. unfold values. cbn [rd_ms].
    assert (Q : forall k i, (forall j, (i <= j < i + k)%nat -> ev (ds j) p xi = Ok (Some (vals j))) ->
      Forall2 (fun d v => ev d p xi = Ok (Some v)) (map ds (seq i k)) (map vals (seq i k))).
    { induction k as [|k IH]; intros i Hi; [constructor|]. cbn [seq map]. constructor; [apply Hi; lia|]. apply IH. intros j J. apply Hi. lia. }
    apply Q. intros j J. apply H. lia.
  Qed.

  Lemma ascending_tl : forall l, ascending l -> ascending (tl l).
  Proof. intros [|x l] H; [exact H|]. apply (ascending_cons x l H). Qed.
  Lemma nth_tl : forall (A : Type) (l : list A) i, nth_error (tl l) i = nth_error l (S i).
  Proof. intros A [|x l] i; [destruct i; reflexivity|reflexivity]. Qed.
  Lemma length_tl : forall (A : Type) (l : list A), length (tl l) = (length l - 1)%nat.
  Proof. intros A [|x l]; [reflexivity|cbn; lia]. Qed.

  (** Evaluation sees only the distributions that have a radius. *)
  Lemma rd_at_prefix : forall (ev : D -> R -> R -> outcome (option R)) o o' rho p xi, rd_r o' = rd_r o -> (rd_r o <> []) ->
    (forall i, (i < length (rd_r o))%nat -> obind (dget (rd_ms o') i) (fun d => ev d p xi) = obind (dget (rd_ms o) i) (fun d => ev d p xi)) ->
    rd_at ev o' rho p xi = rd_at ev o rho p xi.
  Proof.
    intros ev o o' rho p xi ER NE H. unfold rd_at. rewrite ER.
    assert (L : (1 <= length (rd_r o))%nat) by (destruct (rd_r o); [contradiction|cbn; lia]).
    destruct (find_total (rd_r o) rho) as (ir & E & I). rewrite E. cbn [obind].
    destruct (length (rd_r o) =? 1)%nat eqn:E1; [rewrite (H 0%nat) by lia; reflexivity|]. apply Nat.eqb_neq in E1.
    destruct (ir <=? 0)%Z eqn:E2; [rewrite (H 0%nat), (H 1%nat) by lia; reflexivity|]. apply Z.leb_gt in E2.
    destruct (Z.of_nat (length (rd_r o) - 1) <=? ir)%Z eqn:E3; [rewrite (H (length (rd_r o) - 1)%nat), (H (length (rd_r o) - 2)%nat) by lia; reflexivity|].
    apply Z.leb_gt in E3. rewrite (H (Z.to_nat ir)), (H (Z.to_nat ir + 1)%nat) by lia. reflexivity.
  Qed.
End Table.

Lemma update_same : forall (A : Type) (l : list A) i x y, nth_error l i = Some y -> nth_error (update l i x) i = Some x.
Proof. intros A. induction l as [|h t IH]; intros [|i] x y E; try discriminate; [reflexivity|apply (IH i x y E)]. Qed.
Lemma update_other : forall (A : Type) (l : list A) i j x, i <> j -> nth_error (update l i x) j = nth_error l j.
Proof. intros A. induction l as [|h t IH]; intros [|i] [|j] x N; try reflexivity; try contradiction. cbn. apply IH. lia. Qed.
Lemma update_length : forall (A : Type) (l : list A) i x, length (update l i x) = length l.
Proof. intros A. induction l as [|h t IH]; intros [|i] x; try reflexivity. cbn. rewrite IH. reflexivity. Qed.
Lemma update_insert : forall (A : Type) (l : list A) k x y, (k <= length l)%nat ->
  update (firstn k l ++ x :: skipn k l) k y = firstn k l ++ y :: skipn k l.
Proof.
  intros A l. induction l as [|h t IH]; intros [|k] x y L; try reflexivity; [cbn in L; lia|].
  cbn [firstn skipn app update]. f_equal. apply IH. cbn in L. lia.
Qed.

(** An insertion that does not fail puts the distribution at the index returned. *)
Lemma insert_shape : forall (D : Type) (o : radial D) x d o' i, rd_insert o x d = Ok (o', i) ->
  exists k, i = Z.of_nat k /\ (k <= length (rd_ms o))%nat /\ rd_ms o' = firstn k (rd_ms o) ++ d :: skipn k (rd_ms o) /\
    length (rd_r o') = S (length (rd_r o)) /\ rd_extra o' = rd_extra o.
Proof.
  intros D o x d o' i H. unfold rd_insert in H. destruct (find_total (rd_r o) x) as (ir & E & I). rewrite E in H. cbn [obind] in H.
  assert (LR : forall rs, (if (ir =? -1)%Z then Ok (rd_r o ++ [x]) else insert_at (rd_r o) (Z.to_nat (ir + 1)) x) = Ok rs -> length rs = S (length (rd_r o))).
  { intros rs Q. destruct (ir =? -1)%Z; [injection Q as <-; rewrite app_length; cbn; lia|].
    unfold insert_at in Q. destruct (length (rd_r o) <? Z.to_nat (ir + 1))%nat eqn:W; [discriminate|]. apply Nat.ltb_ge in W.
    injection Q as <-. apply length_insert. exact W. }
  destruct (if (ir =? -1)%Z then Ok (rd_r o ++ [x]) else insert_at (rd_r o) (Z.to_nat (ir + 1)) x) as [rs| |]; try discriminate.
  specialize (LR rs eq_refl). cbn [obind] in H.
  destruct (if (length rs =? 1)%nat then Ok (x, x) else match rd_lim o with
    | None => UB | Some (lo, hi) => Ok (if Rltb hi x then (lo, x) else if Rltb x lo then (x, hi) else (lo, hi)) end) as [lim| |]; try discriminate.
  cbn [obind] in H. unfold insert_at in H. destruct (length (rd_ms o) <? Z.to_nat (ir + 1))%nat eqn:W; [discriminate|].
  apply Nat.ltb_ge in W. cbn [obind] in H. injection H as <- <-. exists (Z.to_nat (ir + 1)). split; [lia|]. split; [exact W|].
  split; [reflexivity|]. split; [exact LR|reflexivity].
Qed.

(** * Rejected tables *)
Lemma rejected_shape : forall lg fl p xi f it, ms_initialize lg fl p xi f it = Throw ->
  exists m, ms_rejected lg fl p xi f = Ok m /\ ms_p m = p /\ ms_xi m = xi /\ ms_f m = f /\ ms_log m = lg /\ ms_flip m = fl /\
    (ms_pmax m < ms_pmin m \/ ms_ximax m < ms_ximin m) /\
    nth_error p 0 = Some (ms_pmin m) /\ nth_error p (length p - 1) = Some (ms_pmax m) /\
    nth_error xi 0 = Some (ms_ximin m) /\ nth_error xi (length xi - 1) = Some (ms_ximax m).
Proof.
  intros lg fl p xi f it H. unfold ms_initialize, ms_rejected, dget in *.
  destruct (nth_error p 0) as [a|]; [|discriminate]. destruct (nth_error p (length p - 1)) as [b|]; [|discriminate].
  destruct (nth_error xi 0) as [c|]; [|discriminate]. destruct (nth_error xi (length xi - 1)) as [d|]; [|discriminate]. cbn [obind] in *.
  eexists. split; [reflexivity|]. cbn [ms_p ms_xi ms_f ms_log ms_flip ms_pmin ms_pmax ms_ximin ms_ximax].
  repeat (split; [reflexivity|]). split; [|repeat (split; [reflexivity|]); reflexivity].
  destruct (Rltb b a) eqn:E1; [left; apply Rltb_t; exact E1|]. destruct (Rltb d c) eqn:E2; [right; apply Rltb_t; exact E2|].
  destruct (negb _); [discriminate|]. destruct (length f <? length p * length xi)%nat; discriminate.
Qed.

Lemma reversed_zero : forall spline m q y, ms_pmax m < ms_pmin m \/ ms_ximax m < ms_ximin m -> ms_eval spline m q y = Some 0.
Proof.
  intros spline m q y H. unfold ms_eval.
  destruct (Rltb q (ms_pmin m) || Rltb (ms_pmax m) q)%bool eqn:W; [reflexivity|]. apply orb_false_iff in W. destruct W as [W1 W2]. apply Rltb_f in W1. apply Rltb_f in W2.
  destruct (ms_flip m).
  - destruct (Rltb y (- ms_ximax m) || Rltb (- ms_ximin m) y)%bool eqn:W; [reflexivity|]. apply orb_false_iff in W. destruct W as [W3 W4]. apply Rltb_f in W3. apply Rltb_f in W4. lra.
  - destruct (Rltb y (ms_ximin m) || Rltb (ms_ximax m) y)%bool eqn:W; [reflexivity|]. apply orb_false_iff in W. destruct W as [W3 W4]. apply Rltb_f in W3. apply Rltb_f in W4. lra.
Qed.

Lemma insert_place : forall (D : Type) (o : radial D) x d o' i, rd_insert o x d = Ok (o', i) -> (0 <= i <= Z.of_nat (length (rd_r o)))%Z.
Proof.
  intros D o x d o' i H. unfold rd_insert in H. destruct (find_total (rd_r o) x) as (ir & E & I). rewrite E in H. cbn [obind] in H.
  destruct (ir =? -1)%Z eqn:M.
  - apply Z.eqb_eq in M. subst ir. cbn [obind] in H.
    destruct (if (length (rd_r o ++ [x]) =? 1)%nat then Ok (x, x) else _) as [lim| |]; try discriminate. cbn [obind] in H.
    destruct (insert_at (rd_ms o) (Z.to_nat (-1 + 1)) d) as [ms| |]; try discriminate. cbn [obind] in H. injection H as _ <-. lia.
  - apply Z.eqb_neq in M. unfold insert_at at 1 in H. destruct (length (rd_r o) <? Z.to_nat (ir + 1))%nat eqn:W; [discriminate|]. apply Nat.ltb_ge in W. cbn [obind] in H.
    destruct (if (length (firstn (Z.to_nat (ir + 1)) (rd_r o) ++ x :: skipn (Z.to_nat (ir + 1)) (rd_r o)) =? 1)%nat then Ok (x, x) else _) as [lim| |]; try discriminate.
    cbn [obind] in H. destruct (insert_at (rd_ms o) (Z.to_nat (ir + 1)) d) as [ms| |]; try discriminate. cbn [obind] in H. injection H as _ <-. lia.
Qed.

Lemma clone_all : forall (D : Type) (cl : D -> outcome D) o rs i df df', rd_clone_from cl o i rs df = Ok df' ->
  forall j, (j < length rs)%nat -> exists d d', nth_error (rd_ms o) (i + j) = Some d /\ cl d = Ok d'.
Proof.
  intros D cl o. induction rs as [|x rs IH]; intros i df df' H j J; [cbn in J; lia|].
  cbn [rd_clone_from] in H. unfold dget in H at 1. destruct (nth_error (rd_ms o) i) as [d|] eqn:E; [|discriminate]. cbn [obind] in H.
  destruct (cl d) as [d'| |] eqn:C; try discriminate. cbn [obind] in H. destruct (rd_insert df x d') as [r| |]; try discriminate. cbn [obind] in H.
  destruct j as [|j]; [exists d, d'; rewrite Nat.add_0_r; split; assumption|].
  replace (i + S j)%nat with (S i + j)%nat by lia. apply (IH (S i) (fst r) df' H). cbn in J. lia.
Qed.
