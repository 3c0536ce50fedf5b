(** Lemmas on building numeric distribution functions. *)
From Coq Require Import Reals Lra Permutation.
From Verif Require Import Base DomainModel AnalyticalModel NumericModel NumericSpec NumericArrays DistributionModel DistributionSpec DistributionProofs.
Local Open Scope R_scope.

(** * Insertion into lists *)
Lemma nth_insert : forall (A : Type) (l : list A) k x i, (k <= length l)%nat ->
  nth_error (firstn k l ++ x :: skipn k l) i = if (i <? k)%nat then nth_error l i else if (i =? k)%nat then Some x else nth_error l (i - 1).
Proof.
  intros A l k x i L. assert (LF : length (firstn k l) = k) by (apply firstn_length_le; exact L).
  destruct (i <? k)%nat eqn:E1.
  - apply Nat.ltb_lt in E1. rewrite nth_error_app1 by lia.
    rewrite <- (firstn_skipn k l) at 2. rewrite nth_error_app1 by lia. reflexivity.
  - apply Nat.ltb_ge in E1. rewrite nth_error_app2 by lia. rewrite LF. destruct (i =? k)%nat eqn:E2.
    + apply Nat.eqb_eq in E2. subst. rewrite Nat.sub_diag. reflexivity.
    + apply Nat.eqb_neq in E2. replace (i - k)%nat with (S (i - 1 - k))%nat by lia. cbn [nth_error].
      rewrite <- (firstn_skipn k l) at 2. rewrite nth_error_app2 by lia. rewrite LF. reflexivity.
Qed.
Lemma length_insert : forall (A : Type) (l : list A) k x, (k <= length l)%nat -> length (firstn k l ++ x :: skipn k l) = S (length l).
Proof. intros A l k x L. rewrite app_length. cbn [length]. rewrite skipn_length, firstn_length_le by exact L. lia. Qed.
Lemma insert_at_ok : forall (A : Type) (l : list A) k x, (k <= length l)%nat -> insert_at l k x = Ok (firstn k l ++ x :: skipn k l).
Proof. intros A l k x L. unfold insert_at. replace (length l <? k)%nat with false by (symmetry; apply Nat.ltb_ge; lia). reflexivity. Qed.
Lemma combine_insert : forall (A B : Type) k (a : list A) (b : list B) x y, length a = length b -> (k <= length a)%nat ->
  combine (firstn k a ++ x :: skipn k a) (firstn k b ++ y :: skipn k b) = firstn k (combine a b) ++ (x, y) :: skipn k (combine a b).
Proof.
  intros A B. induction k as [|k IH]; intros a b x y E L; [reflexivity|].
  destruct a as [|u a]; [cbn in L; lia|]. destruct b as [|w b]; [discriminate|]. cbn in E, L.
  cbn [firstn skipn combine app]. f_equal. apply IH; lia.
Qed.
Lemma ascending_insert : forall l k x, ascending l -> (k <= length l)%nat ->
  (forall i a, (i < k)%nat -> nth_error l i = Some a -> a < x) -> (forall i a, (k <= i)%nat -> nth_error l i = Some a -> x < a) ->
  ascending (firstn k l ++ x :: skipn k l).
Proof.
  intros l k x G L H1 H2 i j a b IJ. rewrite !nth_insert by exact L.
  destruct (i <? k)%nat eqn:E1; [apply Nat.ltb_lt in E1|apply Nat.ltb_ge in E1; destruct (i =? k)%nat eqn:E2; [apply Nat.eqb_eq in E2|apply Nat.eqb_neq in E2]];
  (destruct (j <? k)%nat eqn:F1; [apply Nat.ltb_lt in F1|apply Nat.ltb_ge in F1; destruct (j =? k)%nat eqn:F2; [apply Nat.eqb_eq in F2|apply Nat.eqb_neq in F2]]);
  intros A B; try lia.
  - apply (G i j); assumption.
  - injection B as <-. apply (H1 i); assumption.
  - apply (G i (j - 1)%nat); try assumption; lia.
  - injection A as <-. apply (H2 (j - 1)%nat); try assumption; lia.
  - apply (G (i - 1)%nat (j - 1)%nat); try assumption; lia.
Qed.
Lemma ascending_nil : ascending [].
Proof. intros i j a b _ H. destruct i; discriminate. Qed.
Lemma ascending_one : forall x, ascending [x].
Proof. intros x i j a b L H1 H2. destruct j as [|[|j]]; [lia|discriminate|discriminate]. Qed.
Lemma ascending_cons : forall x l, ascending (x :: l) -> ascending l /\ forall j b, nth_error l j = Some b -> x < b.
Proof.
  intros x l H. split.
  - intros i j a b L A B. apply (H (S i) (S j)); [lia|exact A|exact B].
  - intros j b B. apply (H 0%nat (S j)); [lia|reflexivity|exact B].
Qed.
Lemma ascending_app : forall l x, ascending (l ++ [x]) -> ascending l /\ forall j a, nth_error l j = Some a -> a < x.
Proof.
  intros l x H.
  assert (P : forall i a, nth_error l i = Some a -> (i < length l)%nat /\ nth_error (l ++ [x]) i = Some a).
  { intros i a E. assert (Q : (i < length l)%nat) by (apply nth_error_Some; rewrite E; discriminate). split; [exact Q|]. rewrite nth_error_app1 by exact Q. exact E. }
  split.
  - intros i j a b L A B. apply (H i j); [exact L|apply P; exact A|apply P; exact B].
  - intros j a A. destruct (P j a A) as [P1 P2]. apply (H j (length l)); [exact P1|exact P2|].
    rewrite nth_error_app2 by lia. rewrite Nat.sub_diag. reflexivity.
Qed.

(** * One insertion *)
Section Build.
  Variable D : Type.
  Implicit Types (o : radial D) (d : D).

  (** Where a radius above the first one goes. *)
  Lemma place : forall grid x a, ascending grid -> nth_error grid 0 = Some a -> a < x -> ~ In x grid ->
    exists k, find_nearest grid x = Ok (Z.of_nat k) /\ (k < length grid)%nat /\
      (forall i u, (i < S k)%nat -> nth_error grid i = Some u -> u < x) /\ (forall i u, (S k <= i)%nat -> nth_error grid i = Some u -> x < u).
  Proof.
    intros grid x a G A H NI. destruct (le_lt_dec (length grid) 1) as [L|L].
    - destruct grid as [|a' [|b t]]; [discriminate| |cbn in L; lia]. injection A as ->.
      exists 0%nat. split; [reflexivity|]. split; [cbn; lia|]. split.
      + intros i u I U. destruct i; [|lia]. injection U as <-. exact H.
      + intros i u I U. destruct i as [|[|i]]; [lia|discriminate|discriminate].
    - destruct (ends_of _ grid ltac:(lia)) as (a' & c & A' & C). rewrite A in A'. injection A' as <-.
      destruct (Rlt_le_dec c x) as [Q|Q].
      + exists (length grid - 1)%nat. split; [apply (find_above grid x a c); try assumption; lra|]. split; [lia|]. split.
        * intros i u I U. assert (u <= c) by (apply (ascending_le grid i (length grid - 1) u c G); [lia|exact U|exact C]). lra.
        * intros i u I U. assert ((i < length grid)%nat) by (apply nth_error_Some; rewrite U; discriminate). lia.
      + destruct (find_inside grid x a c G ltac:(lia) A C ltac:(lra)) as (k & u & v & E & U & V & K1 & K2).
        exists k. split; [exact E|].
        assert (KL : (S k < length grid)%nat) by (apply nth_error_Some; rewrite V; discriminate).
        assert (UX : u <> x) by (intros ->; apply NI; apply (nth_error_In _ _ U)).
        assert (VX : v <> x) by (intros ->; apply NI; apply (nth_error_In _ _ V)).
        split; [lia|]. split; intros i w I W.
        * pose proof (ascending_le grid i k w u G ltac:(lia) W U). lra.
        * pose proof (ascending_le grid (S k) i v w G ltac:(lia) V W). destruct K2 as [K2|[K2 _]]; lra.
  Qed.

  Lemma limits_get : forall o a, limits o -> nth_error (rd_r o) 0 = Some a ->
    exists b, nth_error (rd_r o) (length (rd_r o) - 1) = Some b /\ rd_lim o = Some (a, b).
  Proof. intros [r ms lim e] a LI A. cbn [rd_r rd_lim] in *. unfold limits in LI. cbn [rd_r rd_lim] in LI. destruct r as [|a' t]; [discriminate|]. injection A as ->. exact LI. Qed.

  Lemma insert_empty : forall e l x d, rd_insert (Radial [] [] l e) x d = Ok (Radial [x] [d] (Some (x, x)) e, 0%Z).
  Proof. intros. reflexivity. Qed.

  Lemma insert_place : forall o x d a, ascending (rd_r o) -> length (rd_ms o) = length (rd_r o) -> limits o ->
    nth_error (rd_r o) 0 = Some a -> a < x -> ~ In x (rd_r o) ->
    exists k, (k < length (rd_r o))%nat /\ let rs := firstn (S k) (rd_r o) ++ x :: skipn (S k) (rd_r o) in
      exists lim, rd_insert o x d = Ok (Radial rs (firstn (S k) (rd_ms o) ++ d :: skipn (S k) (rd_ms o)) (Some lim) (rd_extra o), Z.of_nat (S k)) /\
      ascending rs /\ nth_error rs 0 = Some a /\ nth_error rs (length rs - 1) = Some (snd lim) /\ fst lim = a.
  Proof.
    intros o x d a G LM LI A H NI. destruct (place (rd_r o) x a G A H NI) as (k & E & K & K1 & K2).
    exists k. split; [exact K|]. intro rs.
    assert (GR : ascending rs) by (apply ascending_insert; [exact G|lia|exact K1|exact K2]).
    assert (LR : length rs = S (length (rd_r o))) by (apply length_insert; lia).
    assert (R0 : nth_error rs 0 = Some a).
    { unfold rs. rewrite nth_insert by lia. exact A. }
    destruct (limits_get o a LI A) as (b & B & LI').
    exists (if Rltb b x then (a, x) else if Rltb x a then (x, b) else (a, b)).
    split; [|split; [exact GR|split; [exact R0|]]].
    - unfold rd_insert. rewrite E. cbn [obind].
      replace (Z.of_nat k =? -1)%Z with false by (symmetry; apply Z.eqb_neq; lia).
      replace (Z.to_nat (Z.of_nat k + 1)) with (S k) by lia. rewrite insert_at_ok by lia. cbn [obind].
      replace (length (firstn (S k) (rd_r o) ++ x :: skipn (S k) (rd_r o)) =? 1)%nat with false
        by (symmetry; apply Nat.eqb_neq; rewrite length_insert by lia; lia).
      rewrite LI'. cbn [obind]. rewrite insert_at_ok by lia. cbn [obind]. fold rs.
      replace (Z.of_nat k + 1)%Z with (Z.of_nat (S k)) by lia. reflexivity.
    - replace (Rltb x a) with false by (symmetry; apply Rltb_f; lra).
      rewrite LR. replace (S (length (rd_r o)) - 1)%nat with (length (rd_r o)) by lia.
      unfold rs. rewrite nth_insert by lia.
      replace (length (rd_r o) <? S k)%nat with false by (symmetry; apply Nat.ltb_ge; lia).
      destruct (Rltb b x) eqn:Q; [apply Rltb_t in Q|apply Rltb_f in Q]; split; try reflexivity.
      + destruct (length (rd_r o) =? S k)%nat eqn:F; [reflexivity|]. apply Nat.eqb_neq in F.
        pose proof (K2 (length (rd_r o) - 1)%nat b ltac:(lia) B). lra.
      + destruct (length (rd_r o) =? S k)%nat eqn:F; [|exact B]. apply Nat.eqb_eq in F.
        assert (b < x) by (apply (K1 (length (rd_r o) - 1)%nat); [lia|exact B]). lra.
  Qed.

  Lemma limits_of : forall rs (ms : list D) lim e a, nth_error rs 0 = Some a -> nth_error rs (length rs - 1) = Some (snd lim) -> fst lim = a ->
    limits (Radial rs ms (Some lim) e).
  Proof.
    intros rs ms lim e a A B F. unfold limits. cbn [rd_r rd_lim]. destruct rs as [|a' t]; [exact I|].
    injection A as ->. exists (snd lim). split; [exact B|]. destruct lim as [u v]. cbn in F |- *. rewrite F. reflexivity.
  Qed.

  Lemma insert_holds : forall o l x d a, holds o l -> limits o -> nth_error (rd_r o) 0 = Some a -> a < x -> ~ In x (rd_r o) ->
    exists o' k, rd_insert o x d = Ok (o', Z.of_nat k) /\ holds o' ((x, d) :: l) /\ limits o' /\
      nth_error (rd_r o') k = Some x /\ nth_error (rd_ms o') k = Some d /\ nth_error (rd_r o') 0 = Some a /\ rd_extra o' = rd_extra o /\
      (forall y, In y (rd_r o') <-> y = x \/ In y (rd_r o)).
  Proof.
    intros o l x d a (G & LM & P) LI A H NI.
    destruct (insert_place o x d a G LM LI A H NI) as (k & K & Q). cbv zeta in Q. destruct Q as (lim & E & GR & R0 & RL & LF).
    eexists _, (S k). split; [exact E|]. cbn [rd_r rd_ms rd_extra]. split; [|split; [|split; [|split; [|split; [exact R0|split; [reflexivity|]]]]]].
    - split; [exact GR|]. cbn [rd_r rd_ms]. split; [rewrite !length_insert by lia; rewrite LM; reflexivity|].
      rewrite combine_insert by lia. apply Permutation_sym. apply Permutation_cons_app. rewrite firstn_skipn. apply Permutation_sym. exact P.
    - apply (limits_of _ _ lim _ a R0 RL LF).
    - rewrite nth_insert by lia. rewrite Nat.ltb_irrefl, Nat.eqb_refl. reflexivity.
    - rewrite nth_insert by lia. rewrite Nat.ltb_irrefl, Nat.eqb_refl. reflexivity.
    - intro y. rewrite in_app_iff. cbn [In]. rewrite <- (firstn_skipn (S k) (rd_r o)) at 3. rewrite in_app_iff. intuition.
  Qed.

  Lemma build_holds : forall l o l0 a, holds o l0 -> limits o -> nth_error (rd_r o) 0 = Some a ->
    (forall x d, In (x, d) l -> a < x /\ ~ In x (rd_r o)) -> NoDup (map fst l) ->
    exists o', rd_build o l = Ok o' /\ holds o' (l ++ l0) /\ limits o' /\ nth_error (rd_r o') 0 = Some a /\ rd_extra o' = rd_extra o.
  Proof.
    induction l as [|[x d] l IH]; intros o l0 a H LI A HI ND.
    - exists o. repeat split; try assumption; try reflexivity; apply H.
    - destruct (HI x d (or_introl eq_refl)) as [H1 H2].
      destruct (insert_holds o l0 x d a H LI A H1 H2) as (o1 & k & E & H' & LI' & _ & _ & A' & X & INV).
      apply NoDup_cons_iff in ND. destruct ND as [N1 N2].
      destruct (IH o1 ((x, d) :: l0) a H' LI' A') as (o2 & E2 & (G2 & L2 & P2) & LI2 & A2 & X2).
      + intros y e I. destruct (HI y e (or_intror I)) as [Q1 Q2]. split; [exact Q1|]. intro Q. apply INV in Q. destruct Q as [->|Q]; [|contradiction].
        apply N1. apply (in_map fst) in I. exact I.
      + exact N2.
      + exists o2. split; [cbn [rd_build]; rewrite E; cbn [obind fst]; exact E2|]. split; [|split; [exact LI2|split; [exact A2|rewrite X2; exact X]]].
        split; [exact G2|]. split; [exact L2|]. apply (Permutation_trans P2). apply Permutation_sym. apply Permutation_middle.
  Qed.

  (** Insertion beyond the last radius. *)
  Lemma insert_last : forall o x d, length (rd_ms o) = length (rd_r o) -> limits o ->
    (forall j a, nth_error (rd_r o) j = Some a -> a < x) ->
    exists lim, rd_insert o x d = Ok (Radial (rd_r o ++ [x]) (rd_ms o ++ [d]) (Some lim) (rd_extra o), Z.of_nat (length (rd_r o))) /\
      limits (Radial (rd_r o ++ [x]) (rd_ms o ++ [d]) (Some lim) (rd_extra o)).
  Proof.
    intros o x d LM LI H. destruct (rd_r o) as [|a t] eqn:ER.
    - destruct o as [r ms lim e]. cbn [rd_r rd_ms rd_extra] in *. subst r. destruct ms; [|discriminate].
      exists (x, x). split; [reflexivity|]. unfold limits. cbn. exists x. split; reflexivity.
    - rewrite <- ER in *. unfold limits in LI. rewrite ER in LI. rewrite <- ER in LI. destruct LI as (b & B & LI).
      assert (A : nth_error (rd_r o) 0 = Some a) by (rewrite ER; reflexivity).
      assert (L0 : (1 <= length (rd_r o))%nat) by (rewrite ER; cbn; lia).
      assert (E : find_nearest (rd_r o) x = Ok (Z.of_nat (length (rd_r o) - 1))).
      { destruct (le_lt_dec 2 (length (rd_r o))) as [L|L].
        - apply (find_above _ x a b L A B); [left; apply (H 0%nat); exact A|apply (H _ _ B)].
        - rewrite ER in *. destruct t; [reflexivity|cbn in L; lia]. }
      exists (a, x). split.
      + unfold rd_insert. rewrite E. cbn [obind].
        replace (Z.of_nat (length (rd_r o) - 1) =? -1)%Z with false by (symmetry; apply Z.eqb_neq; lia).
        replace (Z.to_nat (Z.of_nat (length (rd_r o) - 1) + 1)) with (length (rd_r o)) by lia.
        rewrite !insert_at_ok by lia. cbn [obind]. rewrite length_insert by lia.
        replace (S (length (rd_r o)) =? 1)%nat with false by (symmetry; apply Nat.eqb_neq; lia).
        rewrite LI. cbn [obind]. replace (Rltb b x) with true by (symmetry; apply Rltb_t; apply (H _ _ B)).
        rewrite firstn_all, skipn_all.
        replace (firstn (length (rd_r o)) (rd_ms o)) with (rd_ms o) by (rewrite <- LM; symmetry; apply firstn_all).
        replace (skipn (length (rd_r o)) (rd_ms o)) with (@nil D) by (rewrite <- LM; symmetry; apply skipn_all).
        f_equal. f_equal. lia.
      + apply (limits_of _ _ (a, x) _ a).
        * rewrite nth_error_app1 by lia. exact A.
        * rewrite app_length. cbn [length snd]. rewrite nth_error_app2 by lia. replace (length (rd_r o) + 1 - 1 - length (rd_r o))%nat with 0%nat by lia. reflexivity.
        * reflexivity.
  Qed.

  Lemma build_increasing : forall l o, ascending (rd_r o ++ map fst l) -> length (rd_ms o) = length (rd_r o) -> limits o ->
    exists lim, rd_build o l = Ok (Radial (rd_r o ++ map fst l) (rd_ms o ++ map snd l) lim (rd_extra o)) /\
      limits (Radial (rd_r o ++ map fst l) (rd_ms o ++ map snd l) lim (rd_extra o)).
  Proof.
    induction l as [|[x d] l IH]; intros o G LM LI.
    - exists (rd_lim o). cbn [map]. rewrite !app_nil_r. destruct o as [r ms lim e]. split; [reflexivity|exact LI].
    - cbn [map fst snd] in *.
      assert (H : forall j a, nth_error (rd_r o) j = Some a -> a < x).
      { intros j a J. assert (Q : (j < length (rd_r o))%nat) by (apply nth_error_Some; rewrite J; discriminate).
        apply (G j (length (rd_r o))); [exact Q|rewrite nth_error_app1 by exact Q; exact J|].
        rewrite nth_error_app2 by lia. rewrite Nat.sub_diag. reflexivity. }
      destruct (insert_last o x d LM LI H) as (lim & E & LI').
      destruct (IH (Radial (rd_r o ++ [x]) (rd_ms o ++ [d]) (Some lim) (rd_extra o))) as (lim' & E' & LI2).
      + cbn [rd_r]. rewrite <- app_assoc. exact G.
      + cbn [rd_r rd_ms]. rewrite !app_length, LM. reflexivity.
      + exact LI'.
      + cbn [rd_r rd_ms rd_extra] in E', LI2. rewrite <- !app_assoc in E', LI2. exists lim'. split; [|exact LI2].
        cbn [rd_build]. rewrite E. exact E'.
  Qed.

  (** Insertion below the first radius. *)
  Lemma insert_below : forall o x d a, (2 <= length (rd_r o))%nat -> rd_lim o <> None -> nth_error (rd_r o) 0 = Some a -> x < a ->
    exists lim, rd_insert o x d = Ok (Radial (rd_r o ++ [x]) (d :: rd_ms o) (Some lim) (rd_extra o), 0%Z).
  Proof.
    intros o x d a L NL A H. unfold rd_insert. rewrite (find_below _ x a L A H). cbn [obind].
    change (-1 =? -1)%Z with true. cbv iota. cbn [obind]. rewrite app_length. cbn [length].
    replace (length (rd_r o) + 1 =? 1)%nat with false by (symmetry; apply Nat.eqb_neq; lia).
    destruct (rd_lim o) as [[lo hi]|]; [|contradiction]. cbn [obind].
    change (Z.to_nat (-1 + 1)) with 0%nat. rewrite insert_at_ok by lia. cbn [obind firstn skipn app]. eexists. reflexivity.
  Qed.

  (** * Clones *)
  Lemma clone_from : forall cl o rs i ms df, ascending (rd_r df ++ rs) -> length (rd_ms df) = length (rd_r df) -> limits df ->
    length ms = length rs ->
    (forall j, (j < length rs)%nat -> exists d d', nth_error (rd_ms o) (i + j) = Some d /\ cl d = Ok d' /\ nth_error ms j = Some d') ->
    exists lim, rd_clone_from cl o i rs df = Ok (Radial (rd_r df ++ rs) (rd_ms df ++ ms) lim (rd_extra df)) /\
      limits (Radial (rd_r df ++ rs) (rd_ms df ++ ms) lim (rd_extra df)).
  Proof.
    intros cl o. induction rs as [|x rs IH]; intros i ms df G LM LI LR HM.
    - destruct ms; [|discriminate]. exists (rd_lim df). rewrite !app_nil_r. destruct df. split; [reflexivity|exact LI].
    - destruct ms as [|m ms]; [discriminate|]. destruct (HM 0%nat ltac:(cbn; lia)) as (d & d' & E1 & E2 & E3).
      cbn in E3. injection E3 as ->. rewrite Nat.add_0_r in E1.
      assert (H : forall j a, nth_error (rd_r df) j = Some a -> a < x).
      { intros j a J. assert (Q : (j < length (rd_r df))%nat) by (apply nth_error_Some; rewrite J; discriminate).
        apply (G j (length (rd_r df))); [exact Q|rewrite nth_error_app1 by exact Q; exact J|].
        rewrite nth_error_app2 by lia. rewrite Nat.sub_diag. reflexivity. }
      destruct (insert_last df x d' LM LI H) as (lim & E & LI').
      destruct (IH (S i) ms (Radial (rd_r df ++ [x]) (rd_ms df ++ [d']) (Some lim) (rd_extra df))) as (lim' & E' & LI2).
      + cbn [rd_r]. rewrite <- app_assoc. exact G.
      + cbn [rd_r rd_ms]. rewrite !app_length, LM. reflexivity.
      + exact LI'.
      + cbn in LR. lia.
      + intros j J. destruct (HM (S j) ltac:(cbn; lia)) as (u & u' & U1 & U2 & U3). exists u, u'.
        replace (S i + j)%nat with (i + S j)%nat by lia. split; [exact U1|]. split; [exact U2|exact U3].
      + cbn [rd_r rd_ms rd_extra] in E', LI2. rewrite <- !app_assoc in E', LI2. exists lim'. split; [|exact LI2].
        cbn [rd_clone_from]. unfold dget. rewrite E1. cbn [obind]. rewrite E2. cbn [obind]. rewrite E. exact E'.
  Qed.
End Build.
