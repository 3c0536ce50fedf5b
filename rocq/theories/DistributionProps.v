(** Theorems about numeric distribution functions (C52-C57, C82, C83). *)
From Coq Require Import Reals Lra Permutation.
From Verif Require Import Base DomainModel AnalyticalModel NumericModel NumericSpec NumericArrays DistributionModel DistributionSpec DistributionProofs DistributionBuild DistributionUse.
Local Open Scope R_scope.

Ltac asc := intros i j u v LT U V;
  repeat (destruct i as [|i]; [|]); repeat (destruct j as [|j]; [|]); cbn in U, V; try discriminate; try lia;
  injection U as <-; injection V as <-; lra.
Lemma asc3 : forall a b c, a < b -> b < c -> ascending [a; b; c].
Proof.
  intros a b c H1 H2 i j u v LT U V. destruct i as [|[|[|i]]], j as [|[|[|j]]]; cbn in U, V; try discriminate; try lia;
    try (destruct i; discriminate); try (destruct j; discriminate); injection U as <-; injection V as <-; lra.
Qed.
Lemma asc2 : forall a b, a < b -> ascending [a; b].
Proof.
  intros a b H1 i j u v LT U V. destruct i as [|[|i]], j as [|[|j]]; cbn in U, V; try discriminate; try lia;
    try (destruct i; discriminate); try (destruct j; discriminate); injection U as <-; injection V as <-; lra.
Qed.

(** * C52: the radial grid search *)
(** For a strictly increasing grid: the interval that contains the radius, the last interval
    for the last radius, -1 below the grid and the last index above it. *)
Theorem C52_search : forall grid x, ascending grid -> (2 <= length grid)%nat ->
  (forall a, nth_error grid 0 = Some a -> x < a -> find_nearest grid x = Ok (-1)%Z) /\
  (forall c, nth_error grid (length grid - 1) = Some c -> c < x -> find_nearest grid x = Ok (Z.of_nat (length grid - 1))) /\
  (forall c, nth_error grid (length grid - 1) = Some c -> x = c -> find_nearest grid x = Ok (Z.of_nat (length grid - 2))) /\
  (forall k u v, nth_error grid k = Some u -> nth_error grid (S k) = Some v -> u <= x < v -> find_nearest grid x = Ok (Z.of_nat k)).
Proof.
  intros grid x G L. destruct (ends_of _ grid ltac:(lia)) as (a0 & c0 & A & C). split; [|split; [|split]].
  - intros a A' H. apply (find_below grid x a L A' H).
  - intros c C' H. apply (find_above grid x a0 c L A C'); [|exact H]. pose proof (ascending_le grid 0 (length grid - 1) a0 c G ltac:(lia) A C'). lra.
  - intros c C' H. destruct (nth_error grid (length grid - 2)) as [u|] eqn:U; [|apply nth_error_None in U; lia].
    apply (find_at grid x (length grid - 2) u c G U).
    + replace (S (length grid - 2)) with (length grid - 1)%nat by lia. exact C'.
    + subst x. apply (ascending_le grid (length grid - 2) (length grid - 1) u c G ltac:(lia) U C').
    + right. split; [exact H|lia].
  - intros k u v U V [H1 H2]. apply (find_at grid x k u v G U V H1). left. exact H2.
Qed.
Print Assumptions C52_search.

(** The four cases cover every radius, and no grid makes the search fail or run out of its array. *)
Theorem C52_total : forall grid x,
  (exists i, find_nearest grid x = Ok i /\ (-1 <= i < Z.of_nat (length grid))%Z) /\
  (ascending grid -> (2 <= length grid)%nat ->
    (exists a, nth_error grid 0 = Some a /\ x < a) \/ (exists c, nth_error grid (length grid - 1) = Some c /\ c <= x) \/
    (exists k u v, nth_error grid k = Some u /\ nth_error grid (S k) = Some v /\ u <= x < v)).
Proof.
  intros grid x. split; [apply find_total|]. intros G L. destruct (ends_of _ grid ltac:(lia)) as (a & c & A & C).
  destruct (Rlt_le_dec x a) as [H|H]; [left; exists a; split; assumption|].
  destruct (Rlt_le_dec x c) as [H'|H']; [|right; left; exists c; split; assumption].
  right. right. destruct (find_inside grid x a c G L A C ltac:(lra)) as (k & u & v & _ & U & V & K1 & K2).
  exists k, u, v. split; [exact U|]. split; [exact V|]. destruct K2 as [K2|[K2 K3]]; [split; assumption|].
  replace (S k) with (length grid - 1)%nat in V by lia. rewrite C in V. injection V as <-. lra.
Qed.
Print Assumptions C52_total.

(** A grid of one radius, and one without. *)
Theorem C52_short : forall x a, find_nearest [] x = Ok (-1)%Z /\ find_nearest [a] x = Ok 0%Z.
Proof. intros. split; reflexivity. Qed.
Print Assumptions C52_short.

(** A decreasing grid is never searched: the result is -1 or the last index. *)
Theorem C52_decreasing : forall grid x a, descending grid -> (2 <= length grid)%nat -> nth_error grid 0 = Some a ->
  find_nearest grid x = Ok (if Rlt_dec x a then (-1)%Z else Z.of_nat (length grid - 1)).
Proof. intros grid x a G L A. rewrite (find_descending grid x a G L A). unfold Rltb. destruct (Rlt_dec x a); reflexivity. Qed.
Print Assumptions C52_decreasing.

Lemma desc3 : descending [3; 2; 1].
Proof. apply descending_opp. cbn. apply asc3; lra. Qed.
(** So the interval of a radius inside a decreasing grid is not found. *)
Theorem C52_decreasing_refuted : ~ (forall grid x k u v, descending grid ->
  nth_error grid k = Some u -> nth_error grid (S k) = Some v -> v < x < u -> find_nearest grid x = Ok (Z.of_nat k)).
Proof.
  intro H. specialize (H [3; 2; 1] (3 / 2) 1%nat 2 1 desc3 eq_refl eq_refl ltac:(lra)).
  rewrite (C52_decreasing [3; 2; 1] (3 / 2) 3 desc3 ltac:(cbn; lia) eq_refl) in H.
  destruct (Rlt_dec (3 / 2) 3) as [_|N]; [discriminate|lra].
Qed.
Print Assumptions C52_decreasing_refuted.

Example C52_example : ascending [1; 2; 4] /\ find_nearest [1; 2; 4] 3 = Ok 1%Z /\ find_nearest [1; 2; 4] 4 = Ok 1%Z.
Proof.
  pose proof (asc3 1 2 4 ltac:(lra) ltac:(lra)) as G. split; [exact G|].
  destruct (C52_search [1; 2; 4] 3 G ltac:(cbn; lia)) as (_ & _ & _ & H). destruct (C52_search [1; 2; 4] 4 G ltac:(cbn; lia)) as (_ & _ & H' & _).
  split; [apply (H 1%nat 2 4 eq_refl eq_refl); lra|apply (H' 4 eq_refl eq_refl)].
Qed.

(** * C53: building a radial distribution by insertion *)
(** Inserting above the first radius, at a radius not yet present: the grid stays increasing,
    every distribution keeps its radius, and the new one is where the call says it is. *)
Theorem C53_insert : forall (D : Type) (o : radial D) l x d a, holds o l -> limits o ->
  nth_error (rd_r o) 0 = Some a -> a < x -> ~ In x (rd_r o) ->
  exists o' k, rd_insert o x d = Ok (o', Z.of_nat k) /\ holds o' ((x, d) :: l) /\ limits o' /\
    nth_error (rd_r o') k = Some x /\ nth_error (rd_ms o') k = Some d /\ rd_extra o' = rd_extra o.
Proof.
  intros D o l x d a H LI A HA NI. destruct (insert_holds D o l x d a H LI A HA NI) as (o' & k & E & H1 & H2 & H3 & H4 & _ & H5 & _).
  exists o', k. repeat (split; [assumption|]). exact H5.
Qed.
Print Assumptions C53_insert.

(** Every sequence of insertions into a new object whose first radius is the smallest and
    that repeats no radius, in whatever order the others come. *)
Theorem C53_sequence : forall (D : Type) x0 (d0 : D) l, NoDup (x0 :: map fst l) -> (forall x d, In (x, d) l -> x0 < x) ->
  exists o, rd_build rd_new ((x0, d0) :: l) = Ok o /\ holds o ((x0, d0) :: l) /\ limits o.
Proof.
  intros D x0 d0 l ND H. apply NoDup_cons_iff in ND. destruct ND as [N1 N2].
  destruct (build_holds D l (Radial [x0] [d0] (Some (x0, x0)) true) [(x0, d0)] x0) as (o & E & (G & L & P) & LI & _ & _).
  - split; [apply ascending_one|]. split; [reflexivity|]. cbn. apply Permutation_refl.
  - unfold limits. cbn. exists x0. split; reflexivity.
  - reflexivity.
  - intros x d I. split; [apply (H x d I)|]. cbn. intros [Q|[]]. apply N1. rewrite Q. apply (in_map fst) in I. exact I.
  - exact N2.
  - exists o. split; [exact E|]. split; [|exact LI]. split; [exact G|]. split; [exact L|]. apply (Permutation_trans P).
    apply Permutation_sym. apply Permutation_cons_append.
Qed.
Print Assumptions C53_sequence.

(** Insertions at increasing radii: the grid is the list of the radii, in order. *)
Theorem C53_increasing : forall (D : Type) (l : list (R * D)), ascending (map fst l) ->
  exists o, rd_build rd_new l = Ok o /\ rd_r o = map fst l /\ rd_ms o = map snd l /\ limits o /\ rd_extra o = true.
Proof.
  intros D l G. destruct (build_increasing D l rd_new G eq_refl I) as (lim & E & LI). eexists. split; [exact E|]. cbn.
  split; [reflexivity|]. split; [reflexivity|]. split; [exact LI|reflexivity].
Qed.
Print Assumptions C53_increasing.

(** A radius below a grid of at least two becomes the last radius, but its distribution the
    first one: every distribution of the grid is then at a wrong radius. *)
Theorem C53_below : forall (D : Type) (o : radial D) x d a, (2 <= length (rd_r o))%nat -> limits o ->
  nth_error (rd_r o) 0 = Some a -> x < a ->
  exists o', rd_insert o x d = Ok (o', 0%Z) /\ rd_r o' = rd_r o ++ [x] /\ rd_ms o' = d :: rd_ms o /\ ~ ascending (rd_r o').
Proof.
  intros D o x d a L LI A H. destruct (limits_get D o a LI A) as (b & B & LM).
  destruct (insert_below D o x d a L ltac:(rewrite LM; discriminate) A H) as (lim & E).
  eexists. split; [exact E|]. cbn. split; [reflexivity|]. split; [reflexivity|]. intro G.
  destruct (ascending_app (rd_r o) x G) as [_ Q]. pose proof (Q 0%nat a A). lra.
Qed.
Print Assumptions C53_below.

(** Insertion in every order is therefore not possible. *)
Theorem C53_below_refuted : ~ (forall (l : list (R * nat)), NoDup (map fst l) -> exists o, rd_build rd_new l = Ok o /\ holds o l).
Proof.
  intro H. destruct (H [(2, 0%nat); (3, 1%nat); (1, 2%nat)]) as (o & E & (G & _ & _)).
  - cbn. repeat constructor; cbn; intuition lra.
  - destruct (C53_increasing nat [(2, 0%nat); (3, 1%nat)] (asc2 2 3 ltac:(lra))) as (o1 & E1 & R1 & M1 & LI & _).
    destruct (C53_below nat o1 1 2%nat 2) as (o2 & E2 & R2 & _ & N); [rewrite R1; cbn; lia|exact LI|rewrite R1; reflexivity|lra|].
    cbn [rd_build] in E, E1. destruct (rd_insert rd_new 2 0%nat) as [[oa ia]| |]; try discriminate. cbn [obind fst] in E, E1.
    destruct (rd_insert oa 3 1%nat) as [[ob ib]| |]; try discriminate. cbn [obind fst] in E, E1. injection E1 as ->.
    rewrite E2 in E. cbn [obind fst] in E. injection E as <-. contradiction.
Qed.
Print Assumptions C53_below_refuted.

(** The second insertion never looks at the radii: a smaller one gives a decreasing grid. *)
Theorem C53_second : forall (D : Type) x0 x1 (d0 d1 : D), exists o, rd_build rd_new [(x0, d0); (x1, d1)] = Ok o /\ rd_r o = [x0; x1] /\ rd_ms o = [d0; d1].
Proof. intros. eexists. split; [reflexivity|]. split; reflexivity. Qed.
Print Assumptions C53_second.

Example C53_example : exists o, rd_build rd_new [(1, 0%nat); (4, 1%nat); (2, 2%nat)] = Ok o /\ holds o [(1, 0%nat); (4, 1%nat); (2, 2%nat)].
Proof.
  destruct (C53_sequence nat 1 0%nat [(4, 1%nat); (2, 2%nat)]) as (o & E & H & _).
  - cbn. repeat constructor; cbn; intuition lra.
  - cbn. intros x d [Q|[Q|[]]]; injection Q as <- _; lra.
  - exists o. split; assumption.
Qed.

(** * C55: radial interpolation *)
(** The drift shift only moves the radius. *)
Theorem C55_shift : forall (D : Type) ev (o : radial D) r p xi s, rd_eval ev o r p xi s = rd_eval ev o (r - s) p xi 0.
Proof. intros. unfold rd_eval. replace (r - s - 0) with (r - s) by ring. reflexivity. Qed.
Print Assumptions C55_shift.

(** Between two radii: the straight line between the values there. *)
Theorem C55_between : forall (D : Type) ev (o : radial D) p xi vals i r0 r1 f0 f1 r s, rd_extra o = true ->
  ascending (rd_r o) -> (length (rd_r o) <= length (rd_ms o))%nat -> values ev o p xi vals ->
  nth_error (rd_r o) i = Some r0 -> nth_error (rd_r o) (S i) = Some r1 -> nth_error vals i = Some f0 -> nth_error vals (S i) = Some f1 ->
  r0 <= r - s <= r1 -> (i = 0%nat -> r0 <> 0) ->
  rd_eval ev o r p xi s = Ok (Some (through r0 f0 r1 f1 (r - s))).
Proof.
  intros D ev o p xi vals i r0 r1 f0 f1 r s X G L V R0 R1 F0 F1 H NZ. unfold rd_eval. rewrite X.
  apply (at_between D ev o p xi vals V i r0 r1 f0 f1 (r - s) G L R0 R1 F0 F1 H NZ).
Qed.
Print Assumptions C55_between.

(** At a radius of the grid: the distribution of that radius. *)
Theorem C55_tabulated : forall (D : Type) ev (o : radial D) p xi vals k r f, rd_extra o = true ->
  ascending (rd_r o) -> (2 <= length (rd_r o) <= length (rd_ms o))%nat -> values ev o p xi vals -> nth_error (rd_r o) 0 <> Some 0 ->
  nth_error (rd_r o) k = Some r -> nth_error vals k = Some f ->
  rd_eval ev o r p xi 0 = Ok (Some f).
Proof.
  intros D ev o p xi vals k r f X G [L1 L2] V NZ RK FK.
  assert (LK : (k < length (rd_r o))%nat) by (apply nth_error_Some; rewrite RK; discriminate).
  destruct k as [|k].
  - destruct (nth_error (rd_r o) 1) as [r1|] eqn:R1; [|apply nth_error_None in R1; lia].
    destruct (vals_at D ev o p xi vals V 1 ltac:(lia) L2) as [f1 F1].
    pose proof (G 0%nat 1%nat r r1 ltac:(lia) RK R1).
    rewrite (C55_between D ev o p xi vals 0 r r1 f f1 r 0 X G L2 V RK R1 FK F1); [|lra|intros _ ->; apply NZ; exact RK].
    rewrite Rminus_0_r, through_l. reflexivity.
  - destruct (nth_error (rd_r o) k) as [r0|] eqn:R0; [|apply nth_error_None in R0; lia].
    destruct (vals_at D ev o p xi vals V k ltac:(lia) L2) as [f0 F0].
    pose proof (G k (S k) r0 r ltac:(lia) R0 RK).
    rewrite (C55_between D ev o p xi vals k r0 r f0 f r 0 X G L2 V R0 RK F0 FK); [|lra|intros -> ->; apply NZ; exact R0].
    rewrite Rminus_0_r, through_r by lra. reflexivity.
Qed.
Print Assumptions C55_tabulated.

(** Interpolated values lie between the values at the two radii; in particular a
    non-negative distribution stays non-negative inside the grid. *)
Theorem C55_bounds : forall r0 f0 r1 f1 x, r0 < r1 -> r0 <= x <= r1 -> Rmin f0 f1 <= through r0 f0 r1 f1 x <= Rmax f0 f1.
Proof.
  intros r0 f0 r1 f1 x LT [H1 H2]. set (t := (x - r0) / (r1 - r0)).
  assert (T : 0 <= t <= 1).
  { unfold t. split; [apply Rmult_le_pos; [lra|left; apply Rinv_0_lt_compat; lra]|]. apply Rmult_le_reg_r with (r1 - r0); [lra|].
    unfold Rdiv. rewrite Rmult_assoc, Rinv_l by lra. lra. }
  replace (through r0 f0 r1 f1 x) with (f0 + t * (f1 - f0)) by (unfold through, t; field; lra).
  unfold Rmin, Rmax. destruct (Rle_dec f0 f1) as [Q|Q].
  - assert (0 <= t * (f1 - f0)) by (apply Rmult_le_pos; lra). assert (0 <= (1 - t) * (f1 - f0)) by (apply Rmult_le_pos; lra). lra.
  - assert (0 <= t * (f0 - f1)) by (apply Rmult_le_pos; lra). assert (0 <= (1 - t) * (f0 - f1)) by (apply Rmult_le_pos; lra). lra.
Qed.
Print Assumptions C55_bounds.

(** Below the grid: the line of the first interval. *)
Theorem C55_below : forall (D : Type) ev (o : radial D) p xi vals r0 r1 f0 f1 r s, rd_extra o = true -> ascending (rd_r o) ->
  values ev o p xi vals ->
  nth_error (rd_r o) 0 = Some r0 -> nth_error (rd_r o) 1 = Some r1 -> nth_error vals 0 = Some f0 -> nth_error vals 1 = Some f1 ->
  r0 <> 0 -> r - s < r0 ->
  rd_eval ev o r p xi s = Ok (Some (through r0 f0 r1 f1 (r - s))).
Proof.
  intros D ev o p xi vals r0 r1 f0 f1 r s X G V R0 R1 F0 F1 NZ B. unfold rd_eval. rewrite X.
  assert (L : (2 <= length (rd_r o))%nat) by (assert (1 < length (rd_r o))%nat by (apply nth_error_Some; rewrite R1; discriminate); lia).
  apply (at_below D ev o p xi vals V r0 r1 f0 f1 (r - s) L R0 R1 F0 F1); [|exact NZ|exact B]. apply (G 0%nat 1%nat); [lia|assumption|assumption].
Qed.
Print Assumptions C55_below.

(** Above the grid: a line through the last point, but with the slope of the last interval
    scaled by its length over (twice the last radius minus the one before). *)
Theorem C55_above : forall (D : Type) ev (o : radial D) p xi vals rl rb fl fb r s, rd_extra o = true -> ascending (rd_r o) ->
  values ev o p xi vals -> (2 <= length (rd_r o))%nat ->
  nth_error (rd_r o) (length (rd_r o) - 1) = Some rl -> nth_error (rd_r o) (length (rd_r o) - 2) = Some rb ->
  nth_error vals (length (rd_r o) - 1) = Some fl -> nth_error vals (length (rd_r o) - 2) = Some fb ->
  rl < r - s ->
  rd_eval ev o r p xi s = Ok (if Req_EM_T (2 * rl - rb) 0 then None else Some (fl + (r - s - rl) * ((fl - fb) / (2 * rl - rb)))).
Proof.
  intros D ev o p xi vals rl rb fl fb r s X G V L RL RB FL FB H. unfold rd_eval. rewrite X.
  destruct (ends_of _ (rd_r o) ltac:(lia)) as (a & c & A & _). pose proof (ascending_le (rd_r o) 0 (length (rd_r o) - 1) a rl G ltac:(lia) A RL).
  apply (at_above D ev o p xi vals V rl rb fl fb (r - s) a L A ltac:(lra) RL RB FL FB H).
Qed.
Print Assumptions C55_above.

(** A distribution that has the value [v] everywhere. *)
Definition const_ev (v : R) (p xi : R) : outcome (option R) := Ok (Some v).
(** So the last line is not continued. *)
Theorem C55_above_refuted : ~ (forall (o : radial R) p xi vals rl rb fl fb r, rd_extra o = true -> ascending (rd_r o) ->
  values const_ev o p xi vals -> (2 <= length (rd_r o))%nat ->
  nth_error (rd_r o) (length (rd_r o) - 1) = Some rl -> nth_error (rd_r o) (length (rd_r o) - 2) = Some rb ->
  nth_error vals (length (rd_r o) - 1) = Some fl -> nth_error vals (length (rd_r o) - 2) = Some fb -> rl < r ->
  rd_eval const_ev o r p xi 0 = Ok (Some (through rb fb rl fl r))).
Proof.
  intro H. set (o := Radial [1; 2] [1; 2] (Some (1, 2)) true : radial R).
  assert (V : values const_ev o 0 0 [1; 2]) by (unfold values, o; cbn; repeat constructor).
  specialize (H o 0 0 [1; 2] 2 1 2 1 5 eq_refl (asc2 1 2 ltac:(lra)) V ltac:(cbn; lia) eq_refl eq_refl eq_refl eq_refl ltac:(lra)).
  rewrite (C55_above R const_ev o 0 0 [1; 2] 2 1 2 1 5 0 eq_refl (asc2 1 2 ltac:(lra)) V ltac:(cbn; lia) eq_refl eq_refl eq_refl eq_refl ltac:(lra)) in H.
  destruct (Req_EM_T (2 * 2 - 1) 0) as [Q|_]; [lra|]. injection H as H. unfold through in H. lra.
Qed.
Print Assumptions C55_above_refuted.

(** A grid that starts at radius zero: no value below the second radius. *)
Theorem C55_zero : forall (D : Type) ev (o : radial D) p xi vals r1 f0 f1 r s, rd_extra o = true -> ascending (rd_r o) ->
  values ev o p xi vals ->
  nth_error (rd_r o) 0 = Some 0 -> nth_error (rd_r o) 1 = Some r1 -> nth_error vals 0 = Some f0 -> nth_error vals 1 = Some f1 ->
  r - s < r1 -> rd_eval ev o r p xi s = Ok None.
Proof.
  intros D ev o p xi vals r1 f0 f1 r s X G V R0 R1 F0 F1 H. unfold rd_eval. rewrite X.
  apply (at_zero D ev o p xi vals V r1 f0 f1 (r - s) G R0 R1 F0 F1). left. exact H.
Qed.
Print Assumptions C55_zero.
Theorem C55_zero_refuted : ~ (forall (o : radial R) p xi vals r, rd_extra o = true -> ascending (rd_r o) -> (2 <= length (rd_r o))%nat ->
  values const_ev o p xi vals -> length vals = length (rd_r o) -> exists v, rd_eval const_ev o r p xi 0 = Ok (Some v)).
Proof.
  intro H. set (o := Radial [0; 1] [1; 2] (Some (0, 1)) true : radial R).
  assert (V : values const_ev o 0 0 [1; 2]) by (unfold values, o; cbn; repeat constructor).
  destruct (H o 0 0 [1; 2] (1 / 2) eq_refl (asc2 0 1 ltac:(lra)) ltac:(cbn; lia) V eq_refl) as (v & E).
  rewrite (C55_zero R const_ev o 0 0 [1; 2] 1 1 2 (1 / 2) 0 eq_refl (asc2 0 1 ltac:(lra)) V eq_refl eq_refl eq_refl eq_refl ltac:(lra)) in E. discriminate.
Qed.
Print Assumptions C55_zero_refuted.

(** A single radius: its distribution at every radius except zero. *)
Theorem C55_single : forall (D : Type) ev (o : radial D) p xi d r0 v r s, rd_extra o = true ->
  rd_r o = [r0] -> rd_ms o = [d] -> ev d p xi = Ok (Some v) ->
  rd_eval ev o r p xi s = Ok (if Req_EM_T (r - s) 0 then None else Some v).
Proof.
  intros D ev o p xi d r0 v r s X RR MM E. unfold rd_eval. rewrite X. apply (at_single D ev o p xi [v]) with (rr := r0).
  - unfold values. rewrite MM. constructor; [exact E|constructor].
  - exact RR.
  - reflexivity.
Qed.
Print Assumptions C55_single.

(** Without permission to extrapolate every radius outside the grid is refused, and nothing
    else changes. *)
Theorem C55_refuses : forall (D : Type) ev (o : radial D) a b r p xi s, limits o ->
  nth_error (rd_r o) 0 = Some a -> nth_error (rd_r o) (length (rd_r o) - 1) = Some b ->
  ((r - s < a \/ b < r - s) -> rd_eval ev (rd_permit o false) r p xi s = Throw) /\
  (a <= r - s <= b -> rd_eval ev (rd_permit o false) r p xi s = rd_eval ev (rd_permit o true) r p xi s).
Proof.
  intros D ev o a b r p xi s LI A B. destruct (limits_get D o a LI A) as (b' & B' & LM). rewrite B in B'. injection B' as <-.
  unfold rd_eval, rd_permit. cbn [rd_extra rd_lim]. rewrite LM. split; intro H.
  - destruct H as [H|H]; [replace (Rltb (r - s) a) with true by (symmetry; apply Rltb_t; exact H); reflexivity|].
    replace (Rltb b (r - s)) with true by (symmetry; apply Rltb_t; exact H). destruct (Rltb (r - s) a); reflexivity.
  - replace (Rltb (r - s) a) with false by (symmetry; apply Rltb_f; lra). replace (Rltb b (r - s)) with false by (symmetry; apply Rltb_f; lra). reflexivity.
Qed.
Print Assumptions C55_refuses.

Example C55_example : exists o : radial R, rd_build rd_new [(1, 10); (2, 20); (4, 0)] = Ok o /\ rd_eval const_ev o 3 0 0 0 = Ok (Some 10) /\
  rd_eval const_ev o 4 0 0 1 = Ok (Some 10) /\ rd_eval const_ev (rd_permit o false) 5 0 0 0 = Throw.
Proof.
  pose proof (asc3 1 2 4 ltac:(lra) ltac:(lra)) as G.
  destruct (C53_increasing R [(1, 10); (2, 20); (4, 0)] G) as (o & E & RR & MM & LI & X). cbn [map fst snd] in RR, MM.
  exists o. split; [exact E|].
  assert (V : values const_ev o 0 0 [10; 20; 0]) by (unfold values; rewrite MM; repeat constructor).
  assert (Q : forall r s, r - s = 3 -> rd_eval const_ev o r 0 0 s = Ok (Some 10)).
  { intros r s H. rewrite (C55_between R const_ev o 0 0 [10; 20; 0] 1 2 4 20 0 r s X); try reflexivity; try (rewrite RR; try reflexivity; exact G); try assumption.
    - rewrite H. f_equal. f_equal. unfold through. lra.
    - rewrite RR, MM. cbn. lia.
    - rewrite H. lra.
    - discriminate. }
  split; [apply Q; lra|]. split; [apply Q; lra|].
  destruct (C55_refuses R const_ev o 1 4 5 0 0 0 LI) as [H _]; [rewrite RR; reflexivity|rewrite RR; reflexivity|]. apply H. right. lra.
Qed.

(** * C54: building a radial distribution from a table *)
(** With at least three radii the distribution found at radius number [k] (counting from
    zero) is number [k - 1]. *)
Theorem C54_table : forall (D : Type) ev rs mk (ds : nat -> D), ascending rs -> (3 <= length rs)%nat -> nth_error rs 1 <> Some 0 ->
  (forall j, (j < length rs)%nat -> mk j = Ok (ds j)) ->
  exists o, rd_initialize rs mk = Ok o /\ forall p xi (vals : nat -> R),
    (forall j, (j < length rs)%nat -> ev (ds j) p xi = Ok (Some (vals j))) ->
    forall k r, nth_error rs (S k) = Some r -> rd_eval ev o r p xi 0 = Ok (Some (vals k)).
Proof.
  intros D ev rs mk ds G L NZ H. destruct (ends_of _ rs ltac:(lia)) as (a & b & A & B).
  eexists. split; [apply (initialize_up D rs mk ds a b G A B H)|]. intros p xi vals HV k r K.
  assert (KL : (S k < length rs)%nat) by (apply nth_error_Some; rewrite K; discriminate).
  apply (C55_tabulated D ev _ p xi (map vals (seq 0 (length rs))) k r (vals k)); cbn [rd_extra rd_r rd_ms].
  - reflexivity.
  - apply ascending_tl. exact G.
  - rewrite length_tl, map_length, seq_length. lia.
  - apply values_map. exact HV.
  - rewrite nth_tl. exact NZ.
  - rewrite nth_tl. exact K.
  - apply nth_map_seq. lia.
Qed.
Print Assumptions C54_table.

(** So it is not number [k]. *)
Theorem C54_table_refuted : ~ (forall rs (vals : nat -> R), ascending rs -> nth_error rs 0 <> Some 0 ->
  exists o, rd_initialize rs (fun j => Ok (vals j)) = Ok o /\ forall k r, nth_error rs k = Some r -> rd_eval const_ev o r 0 0 0 = Ok (Some (vals k))).
Proof.
  intro H. pose proof (asc3 1 2 3 ltac:(lra) ltac:(lra)) as G.
  destruct (H [1; 2; 3] INR G ltac:(cbn; intro Q; injection Q; lra)) as (o & E & Q).
  destruct (C54_table R const_ev [1; 2; 3] (fun j => Ok (INR j)) INR G ltac:(cbn; lia) ltac:(cbn; intro W; injection W; lra) ltac:(reflexivity)) as (o' & E' & Q').
  rewrite E in E'. injection E' as <-. specialize (Q 1%nat 2 eq_refl). rewrite (Q' 0 0 INR ltac:(reflexivity) 0%nat 2 eq_refl) in Q. injection Q as Q. cbn in Q. lra.
Qed.
Print Assumptions C54_table_refuted.

(** With two radii the first distribution is used everywhere. *)
Theorem C54_two : forall (D : Type) ev r0 r1 mk d0 d1, r0 < r1 -> mk 0%nat = Ok d0 -> mk 1%nat = Ok d1 ->
  exists o : radial D, rd_initialize [r0; r1] mk = Ok o /\ forall r p xi s v, ev d0 p xi = Ok (Some v) ->
    rd_eval ev o r p xi s = Ok (if Req_EM_T (r - s) 0 then None else Some v).
Proof.
  intros D ev r0 r1 mk d0 d1 LT H0 H1. eexists. split.
  - apply (initialize_up D [r0; r1] mk (fun j => match j with O => d0 | _ => d1 end) r0 r1 (asc2 r0 r1 LT) eq_refl eq_refl).
    intros j J. destruct j as [|[|j]]; [exact H0|exact H1|cbn in J; lia].
  - intros r p xi s v E. unfold rd_eval. cbn [rd_extra tl rd_r].
    assert (Q : forall a, line a 0 a (Some v) (Some 0) = if Req_EM_T a 0 then None else Some v).
    { intro a. unfold line, olift, ediv. destruct (Req_EM_T (0 - a) 0), (Req_EM_T a 0); try lra; try reflexivity. f_equal. field. lra. }
    unfold rd_at. cbn [rd_r tl find_nearest obind length Nat.eqb rd_ms seq map dget nth_error]. rewrite E. cbn [obind]. rewrite Q. reflexivity.
Qed.
Print Assumptions C54_two.

(** With one radius every evaluation reads outside the (empty) radial grid, and without any
    radius the initialization itself does. *)
Theorem C54_short : forall (D : Type) ev r0 mk d0, mk 0%nat = Ok d0 ->
  rd_initialize (@nil R) mk = UB /\
  exists o : radial D, rd_initialize [r0] mk = Ok o /\ forall r p xi s, rd_eval ev o r p xi s = UB.
Proof.
  intros D ev r0 mk d0 H. split; [reflexivity|]. eexists. split.
  - apply (initialize_up D [r0] mk (fun _ => d0) r0 r0 (ascending_one r0) eq_refl eq_refl). intros j J. destruct j as [|j]; [exact H|cbn in J; lia].
  - intros. reflexivity.
Qed.
Print Assumptions C54_short.

(** Radii that are neither strictly increasing nor strictly decreasing are refused; two radii
    must be increasing. *)
Theorem C54_rejects : forall (D : Type) rs (mk : nat -> outcome D), ~ ascending rs -> (~ descending rs \/ length rs = 2%nat) -> rd_initialize rs mk = Throw.
Proof.
  intros D rs mk NA ND. unfold rd_initialize. set (asc := match rs with a :: b :: _ :: _ => Rleb a b | _ => true end).
  assert (M : monotone asc rs = false).
  { destruct (monotone asc rs) eqn:E; [|reflexivity]. exfalso. destruct asc eqn:A.
    - rewrite monotone_up in E. apply increasing_ok in E. contradiction.
    - rewrite monotone_down in E. apply increasing_ok in E. apply descending_opp in E. destruct ND as [ND|ND]; [contradiction|].
      destruct rs as [|u [|w [|z t]]]; try discriminate. }
  rewrite M. reflexivity.
Qed.
Print Assumptions C54_rejects.

(** Whatever the order of the radii, evaluation without extrapolation throws exactly outside the
    range of the radii given. *)
Theorem C54_limits : forall (D : Type) ev rs mk (o : radial D) a b r p xi s, rd_initialize rs mk = Ok o ->
  nth_error rs 0 = Some a -> nth_error rs (length rs - 1) = Some b ->
  ((r - s < Rmin a b \/ Rmax a b < r - s) -> rd_eval ev (rd_permit o false) r p xi s = Throw) /\
  (Rmin a b <= r - s <= Rmax a b -> rd_eval ev (rd_permit o false) r p xi s = rd_eval ev (rd_permit o true) r p xi s).
Proof.
  intros D ev rs mk o a b r p xi s H A B. unfold rd_initialize in H.
  destruct (negb (monotone _ rs)); [discriminate|]. unfold dget in H. rewrite A, B in H. cbn [obind] in H.
  destruct (collect mk (length rs) 0) as [ms| |]; cbn [obind] in H; try discriminate. injection H as H. subst o.
  assert (L : (if Rltb b a then (b, a) else (a, b)) = (Rmin a b, Rmax a b)).
  { unfold Rltb. destruct (Rlt_dec b a); [rewrite Rmin_right, Rmax_left by lra|rewrite Rmin_left, Rmax_right by lra]; reflexivity. }
  rewrite L. unfold rd_eval, rd_permit. cbn [rd_extra rd_lim]. split; intro H.
  - destruct H as [H|H]; [replace (Rltb (r - s) (Rmin a b)) with true by (symmetry; apply Rltb_t; exact H); reflexivity|].
    replace (Rltb (Rmax a b) (r - s)) with true by (symmetry; apply Rltb_t; exact H). destruct (Rltb (r - s) (Rmin a b)); reflexivity.
  - replace (Rltb (r - s) (Rmin a b)) with false by (symmetry; apply Rltb_f; lra).
    replace (Rltb (Rmax a b) (r - s)) with false by (symmetry; apply Rltb_f; lra). reflexivity.
Qed.
Print Assumptions C54_limits.
Example C54_limits_example : exists o : radial R, rd_initialize [3; 2; 1] (fun j => Ok (INR j)) = Ok o.
Proof.
  eexists. unfold rd_initialize. replace (Rleb 3 2) with false by (unfold Rleb; destruct (Rle_dec 3 2); [lra|reflexivity]).
  rewrite monotone_down. replace (increasing (map Ropp [3; 2; 1])) with true; [reflexivity|].
  symmetry. apply increasing_ok. apply descending_opp. exact desc3.
Qed.

Example C54_example : exists o, rd_initialize [1; 2; 3] (fun j => Ok (INR j)) = Ok o /\ rd_eval const_ev o 3 0 0 0 = Ok (Some 1).
Proof.
  destruct (C54_table R const_ev [1; 2; 3] (fun j => Ok (INR j)) INR (asc3 1 2 3 ltac:(lra) ltac:(lra)) ltac:(cbn; lia) ltac:(cbn; intro W; injection W; lra) ltac:(reflexivity)) as (o & E & Q).
  exists o. split; [exact E|]. exact (Q 0 0 INR ltac:(reflexivity) 1%nat 3 eq_refl).
Qed.

(** * C57: evaluation of a momentum distribution *)
Section Momentum.
  Variable spline : bool -> list R -> list R -> list xreal -> R -> R -> xreal.

  (** Zero outside the rectangle of the grid. *)
  Theorem C57_outside : forall p xi f it lg m p0 p1 x0 x1 q x, ms_initialize lg false p xi f it = Ok m ->
    nth_error p 0 = Some p0 -> nth_error p (length p - 1) = Some p1 -> nth_error xi 0 = Some x0 -> nth_error xi (length xi - 1) = Some x1 ->
    (q < p0 \/ p1 < q \/ x < x0 \/ x1 < x) -> ms_eval spline m q x = Some 0.
  Proof.
    intros p xi f it lg m p0 p1 x0 x1 q x E P0 P1 X0 X1 H.
    destruct (ms_initialize_ok _ _ _ _ _ _ _ E) as (a & b & c & d & E1 & E2 & E3 & E4 & _ & _ & _ & _ & ->).
    rewrite P0 in E1. rewrite P1 in E2. rewrite X0 in E3. rewrite X1 in E4. injection E1 as <-. injection E2 as <-. injection E3 as <-. injection E4 as <-.
    unfold ms_eval. cbn [ms_pmin ms_pmax ms_ximin ms_ximax ms_flip].
    destruct (Rltb q p0 || Rltb p1 q)%bool eqn:W; [reflexivity|]. apply orb_false_iff in W. destruct W as [W1 W2]. apply Rltb_f in W1. apply Rltb_f in W2.
    destruct (Rltb x x0 || Rltb x1 x)%bool eqn:W; [reflexivity|]. apply orb_false_iff in W. destruct W as [W3 W4]. apply Rltb_f in W3. apply Rltb_f in W4. lra.
  Qed.

  (** Inside: the interpolated table, or its exponential for a logarithmic one. *)
  Theorem C57_inside : forall p xi f it lg m p0 p1 x0 x1 q x, ms_initialize lg false p xi f it = Ok m ->
    nth_error p 0 = Some p0 -> nth_error p (length p - 1) = Some p1 -> nth_error xi 0 = Some x0 -> nth_error xi (length xi - 1) = Some x1 ->
    p0 <= q <= p1 -> x0 <= x <= x1 ->
    ms_eval spline m q x =
      let v := spline (negb (it =? 0)%Z) p xi (firstn (length p * length xi) f) q x in
      match lg, v with
      | false, Fin r => Some r
      | false, _ => None
      | true, Fin r => Some (exp r)
      | true, PInf => None
      | true, _ => Some 0
      end.
  Proof.
    intros p xi f it lg m p0 p1 x0 x1 q x E P0 P1 X0 X1 HP HX.
    destruct (ms_initialize_ok _ _ _ _ _ _ _ E) as (a & b & c & d & E1 & E2 & E3 & E4 & _ & _ & _ & _ & ->).
    rewrite P0 in E1. rewrite P1 in E2. rewrite X0 in E3. rewrite X1 in E4. injection E1 as <-. injection E2 as <-. injection E3 as <-. injection E4 as <-.
    unfold ms_eval. cbn [ms_pmin ms_pmax ms_ximin ms_ximax ms_flip ms_cubic ms_p ms_xi ms_f ms_log].
    replace (Rltb q p0) with false by (symmetry; apply Rltb_f; lra). replace (Rltb p1 q) with false by (symmetry; apply Rltb_f; lra).
    replace (Rltb x x0) with false by (symmetry; apply Rltb_f; lra). replace (Rltb x1 x) with false by (symmetry; apply Rltb_f; lra).
    cbn [orb]. destruct lg; destruct (spline (negb (it =? 0)%Z) p xi (firstn (length p * length xi) f) q x); reflexivity.
  Qed.

  (** Flipping the pitch sign mirrors the distribution. *)
  Theorem C57_flip : forall m p xi, ms_eval spline (ms_set_flip true m) p xi = ms_eval spline (ms_set_flip false m) p (- xi).
  Proof.
    intros m p xi. unfold ms_eval, ms_set_flip. cbn [ms_pmin ms_pmax ms_ximin ms_ximax ms_flip ms_cubic ms_p ms_xi ms_f ms_log].
    destruct (Rltb p (ms_pmin m) || Rltb (ms_pmax m) p)%bool; [reflexivity|].
    replace (Rltb xi (- ms_ximax m) || Rltb (- ms_ximin m) xi)%bool with (Rltb (- xi) (ms_ximin m) || Rltb (ms_ximax m) (- xi))%bool; [reflexivity|].
    unfold Rltb. destruct (Rlt_dec (- xi) (ms_ximin m)), (Rlt_dec (ms_ximax m) (- xi)), (Rlt_dec xi (- ms_ximax m)), (Rlt_dec (- ms_ximin m) xi); try reflexivity; lra.
  Qed.

  (** The same for a whole radial grid. *)
  Theorem C57_flip_radial : forall (o : ndf) r p xi s, nd_eval spline (nd_flip true o) r p xi s = nd_eval spline (nd_flip false o) r p (- xi) s.
  Proof.
    intros o r p xi s. unfold nd_eval, rd_eval, nd_flip. cbn [rd_extra rd_lim].
    assert (Q : forall rho, rd_at (ms_value spline) (Radial (rd_r o) (map (option_map (ms_set_flip true)) (rd_ms o)) (rd_lim o) (rd_extra o)) rho p xi =
      rd_at (ms_value spline) (Radial (rd_r o) (map (option_map (ms_set_flip false)) (rd_ms o)) (rd_lim o) (rd_extra o)) rho p (- xi)).
    { intro rho. unfold rd_at. cbn [rd_r rd_ms].
      assert (W : forall i, obind (dget (map (option_map (ms_set_flip true)) (rd_ms o)) i) (fun d => ms_value spline d p xi) =
        obind (dget (map (option_map (ms_set_flip false)) (rd_ms o)) i) (fun d => ms_value spline d p (- xi))).
      { intro i. unfold dget. rewrite !nth_error_map. destruct (nth_error (rd_ms o) i) as [[m|]|]; cbn; try reflexivity. rewrite C57_flip. reflexivity. }
      destruct (find_nearest (rd_r o) rho); [|reflexivity|reflexivity]. cbn [obind]. rewrite !W. reflexivity. }
    rewrite Q. reflexivity.
  Qed.

  (** A logarithmic distribution is never negative. *)
  Theorem C57_log_nonneg : forall m p xi v, ms_log m = true -> ms_eval spline m p xi = Some v -> 0 <= v.
  Proof.
    intros m p xi v L H. unfold ms_eval in H. rewrite L in H.
    destruct (Rltb p (ms_pmin m) || Rltb (ms_pmax m) p)%bool; [injection H as <-; lra|].
    destruct (if ms_flip m then (Rltb xi (- ms_ximax m) || Rltb (- ms_ximin m) xi)%bool else (Rltb xi (ms_ximin m) || Rltb (ms_ximax m) xi)%bool);
      [injection H as <-; lra|].
    destruct (spline (ms_cubic m) (ms_p m) (ms_xi m) (ms_f m) p (if ms_flip m then - xi else xi)); try discriminate H; injection H as <-; try lra.
    left. apply exp_pos.
  Qed.
End Momentum.
Print Assumptions C57_outside.
Print Assumptions C57_inside.
Print Assumptions C57_flip.
Print Assumptions C57_flip_radial.
Print Assumptions C57_log_nonneg.

(** Logarithmic construction rejects negative data, and takes the logarithm of all other. *)
Theorem C57_log_rejects : forall p xi f it i v, nth_error f i = Some v -> (i < length p * length xi)%nat -> (length p * length xi <= length f)%nat ->
  v < 0 -> ms_initialize_log p xi f it = Throw.
Proof. intros p xi f it i v E I L H. unfold ms_initialize_log. rewrite (log_table_throw _ f i v E I L H). reflexivity. Qed.
Print Assumptions C57_log_rejects.
Theorem C57_log_table : forall p xi f it m, (length p * length xi <= length f)%nat -> (forall i v, (i < length p * length xi)%nat -> nth_error f i = Some v -> 0 <= v) ->
  ms_initialize_log p xi f it = Ok m ->
  ms_log m = true /\ ms_flip m = false /\ ms_f m = map safe_log (firstn (length p * length xi) f) /\ ms_p m = p /\ ms_xi m = xi.
Proof.
  intros p xi f it m L H E. unfold ms_initialize_log in E. rewrite (log_table_ok _ f L H) in E. cbn [obind] in E.
  destruct (ms_initialize_ok _ _ _ _ _ _ _ E) as (a & b & c & d & _ & _ & _ & _ & _ & _ & _ & _ & ->). cbn.
  split; [reflexivity|]. split; [reflexivity|]. split; [|split; reflexivity].
  rewrite firstn_all2 by (rewrite map_length, firstn_length; lia). apply map_ext_in. intros u U. apply xlog_nonneg.
  destruct (In_nth_error _ _ U) as (i & J). assert (IL : (i < length (firstn (length p * length xi) f))%nat) by (apply nth_error_Some; rewrite J; discriminate).
  rewrite firstn_length in IL. apply (H i); [lia|]. rewrite <- (firstn_skipn (length p * length xi) f). rewrite nth_error_app1 by (rewrite firstn_length; lia). exact J.
Qed.
Print Assumptions C57_log_table.

(** Grids whose first entry exceeds their last are rejected. *)
Theorem C57_reversed : forall lg fl p xi f it p0 p1 x0 x1,
  nth_error p 0 = Some p0 -> nth_error p (length p - 1) = Some p1 -> nth_error xi 0 = Some x0 -> nth_error xi (length xi - 1) = Some x1 ->
  (p1 < p0 \/ x1 < x0) -> ms_initialize lg fl p xi f it = Throw.
Proof.
  intros lg fl p xi f it p0 p1 x0 x1 P0 P1 X0 X1 H. unfold ms_initialize, dget. rewrite P0, P1, X0, X1. cbn [obind].
  destruct (Rltb p1 p0) eqn:E; [reflexivity|]. apply Rltb_f in E. replace (Rltb x1 x0) with true; [reflexivity|]. symmetry. apply Rltb_t. lra.
Qed.
Print Assumptions C57_reversed.

(** A distribution comes about exactly for grids that the interpolation takes and a table that
    is long enough. *)
Theorem C57_grids : forall lg fl p xi f it, (exists m, ms_initialize lg fl p xi f it = Ok m) <-> mesh it p /\ mesh it xi /\ (length p * length xi <= length f)%nat.
Proof.
  intros lg fl p xi f it. split.
  - intros (m & E). destruct (ms_initialize_ok _ _ _ _ _ _ _ E) as (a & b & c & d & _ & _ & _ & _ & _ & _ & L & (GP & GX) & _). split; [exact GP|]. split; [exact GX|exact L].
  - intros (GP & GX & L). destruct (grid_ends _ _ GP) as (a & b & A & B & AB). destruct (grid_ends _ _ GX) as (c & d & C & D & CD).
    eexists. apply (ms_initialize_do lg fl p xi f it a b c d A B C D); try lra; assumption.
Qed.
Print Assumptions C57_grids.

(** Other grids are reported by an exception only if they end below their start.  Any other one
    ends the program: points that repeat or go back and forth, or too few of them. *)
Theorem C57_grids_refuted : ~ (forall lg fl p xi f it, p <> [] -> xi <> [] -> ~ (mesh it p /\ mesh it xi) -> ms_initialize lg fl p xi f it = Throw).
Proof.
  intro H. specialize (H false false [1; 3; 2; 4] [-1; 1] [] 0%Z ltac:(discriminate) ltac:(discriminate)).
  assert (N : ~ (mesh 0 [1; 3; 2; 4] /\ mesh 0 [-1; 1])) by (intros ((A & _) & _); pose proof (A 1%nat 2%nat 3 2 ltac:(lia) eq_refl eq_refl); lra).
  specialize (H N). unfold ms_initialize, dget in H. cbn [nth_error length Nat.sub obind] in H.
  replace (Rltb 4 1) with false in H by (symmetry; apply Rltb_f; lra). replace (Rltb 1 (-1)) with false in H by (symmetry; apply Rltb_f; lra).
  destruct (negb _) in H; [discriminate|]. destruct (_ <? _)%nat in H; discriminate.
Qed.
Print Assumptions C57_grids_refuted.
Theorem C57_exception : forall lg fl p xi f it, ms_initialize lg fl p xi f it = Throw <->
  exists p0 p1 x0 x1, nth_error p 0 = Some p0 /\ nth_error p (length p - 1) = Some p1 /\ nth_error xi 0 = Some x0 /\ nth_error xi (length xi - 1) = Some x1 /\
    (p1 < p0 \/ x1 < x0).
Proof.
  intros lg fl p xi f it. split.
  - intro H. destruct (rejected_shape _ _ _ _ _ _ H) as (m & _ & _ & _ & _ & _ & _ & RV & P0 & P1 & X0 & X1).
    exists (ms_pmin m), (ms_pmax m), (ms_ximin m), (ms_ximax m). repeat (split; [assumption|]). exact RV.
  - intros (p0 & p1 & x0 & x1 & P0 & P1 & X0 & X1 & H). exact (C57_reversed lg fl p xi f it p0 p1 x0 x1 P0 P1 X0 X1 H).
Qed.
Print Assumptions C57_exception.

(** A stand-in for the interpolation: the first value of the table. *)
Definition first_value (c : bool) (p xi : list R) (f : list xreal) (q x : R) : xreal := hd NaN f.
Lemma grid_two : forall a b, a < b -> mesh 0 [a; b].
Proof. intros a b H. split; [apply asc2; exact H|cbn; lia]. Qed.
Lemma unit_init : forall lg fl v, ms_initialize lg fl [1; 2] [-1; 1] [v; v; v; v] 0 = Ok (MSDF [1; 2] [-1; 1] [v; v; v; v] 1 2 (-1) 1 false lg fl).
Proof.
  intros lg fl v. rewrite (ms_initialize_do lg fl [1; 2] [-1; 1] [v; v; v; v] 0 1 2 (-1) 1); try reflexivity; try lra; try (cbn; lia); apply grid_two; lra.
Qed.
Example C57_example : exists m, ms_initialize false false [1; 2] [-1; 1] [Fin 5; Fin 5; Fin 5; Fin 5] 0 = Ok m /\
  ms_eval first_value m (3 / 2) 0 = Some 5 /\ ms_eval first_value m 3 0 = Some 0.
Proof.
  eexists. split; [apply unit_init|]. split.
  - rewrite (C57_inside first_value _ _ _ _ _ _ 1 2 (-1) 1 (3 / 2) 0 (unit_init false false (Fin 5))); try reflexivity; lra.
  - apply (C57_outside first_value _ _ _ _ _ _ 1 2 (-1) 1 3 0 (unit_init false false (Fin 5))); try reflexivity; lra.
Qed.

(** * C56: clones *)
(** The clone of a momentum distribution that is not logarithmic is the same function. *)
Theorem C56_momentum : forall spline p xi f it fl m, ms_initialize false false p xi f it = Ok m ->
  exists m', ms_clone (ms_set_flip fl m) = Ok m' /\ forall q x, ms_eval spline m' q x = ms_eval spline (ms_set_flip fl m) q x.
Proof.
  intros spline p xi f it fl m E. destruct (ms_initialize_ok _ _ _ _ _ _ _ E) as (a & b & c & d & _ & _ & _ & _ & _ & _ & _ & _ & M).
  assert (LF : ms_log (ms_set_flip fl m) = false) by (rewrite M; reflexivity).
  exists (ms_set_flip fl m). split; [|reflexivity]. rewrite <- (unset_same _ LF) at 2. apply clone_unset.
  exists p, xi, f, it, m, false, fl. split; [exact E|]. symmetry. apply unset_same. exact LF.
Qed.
Print Assumptions C56_momentum.

(** A logarithmic one loses its logarithm: the clone returns the logarithm of the values. *)
Theorem C56_log : forall p xi f it m, ms_initialize_log p xi f it = Ok m -> ms_clone m = Ok (ms_set_log false m).
Proof.
  intros p xi f it m E. unfold ms_initialize_log in E. destruct (log_table (length p * length xi) f) as [l| |]; try discriminate. cbn [obind] in E.
  apply clone_unset. destruct (ms_initialize_ok _ _ _ _ _ _ _ E) as (a & b & c & d & E1 & E2 & E3 & E4 & H1 & H2 & L & (GP & GX) & ->).
  eexists p, xi, l, it, _, true, false. split; [apply (ms_initialize_do _ _ p xi l it a b c d E1 E2 E3 E4 H1 H2 L GP GX)|reflexivity].
Qed.
Print Assumptions C56_log.

Lemma log_init : exists m, ms_initialize_log [1; 2] [-1; 1] [1; 1; 1; 1] 0 = Ok m /\ ms_f m = [Fin 0; Fin 0; Fin 0; Fin 0] /\
  ms_pmin m = 1 /\ ms_pmax m = 2 /\ ms_ximin m = -1 /\ ms_ximax m = 1 /\ ms_flip m = false /\ ms_log m = true.
Proof.
  assert (Q : xlog 1 = Fin 0) by (unfold xlog; destruct (Rlt_dec 0 1); [rewrite ln_1; reflexivity|lra]).
  unfold ms_initialize_log. rewrite log_table_ok.
  - cbn [length Nat.mul Nat.add firstn map obind]. rewrite Q. eexists. split; [apply unit_init|]. cbn. repeat split.
  - cbn. lia.
  - intros i v I E. destruct i as [|[|[|[|i]]]]; cbn in E; try (injection E as <-; lra). destruct i; discriminate.
Qed.
Theorem C56_log_refuted : ~ (forall spline p xi f it m, ms_initialize_log p xi f it = Ok m ->
  exists m', ms_clone m = Ok m' /\ forall q x, ms_eval spline m' q x = ms_eval spline m q x).
Proof.
  intro H. destruct log_init as (m & E & F & P0 & P1 & X0 & X1 & FL & LG). destruct (H first_value _ _ _ _ m E) as (m' & C & Q).
  rewrite (C56_log _ _ _ _ m E) in C. injection C as <-. specialize (Q 1 0). unfold ms_eval, ms_set_log in Q.
  cbn [ms_pmin ms_pmax ms_ximin ms_ximax ms_flip ms_cubic ms_p ms_xi ms_f ms_log] in Q. rewrite P0, P1, X0, X1, FL, LG in Q.
  replace (Rltb 1 1) with false in Q by (symmetry; apply Rltb_f; lra). replace (Rltb 2 1) with false in Q by (symmetry; apply Rltb_f; lra).
  replace (Rltb 0 (-1)) with false in Q by (symmetry; apply Rltb_f; lra). replace (Rltb 1 0) with false in Q by (symmetry; apply Rltb_f; lra).
  cbn [orb] in Q. unfold first_value in Q. rewrite F in Q. cbn in Q. injection Q as Q. rewrite exp_0 in Q. lra.
Qed.
Print Assumptions C56_log_refuted.

(** Every distribution of the grid is initialized and not logarithmic. *)
Definition plain (o : ndf) : Prop := forall i, (i < length (rd_r o))%nat -> exists m, nth_error (rd_ms o) i = Some (Some m) /\ initialized m /\ ms_log m = false.
(** The clone of a radial grid is the same function, as long as extrapolation is permitted. *)
Theorem C56_radial : forall spline (o : ndf), ascending (rd_r o) -> rd_r o <> [] -> plain o -> rd_extra o = true ->
  exists o', nd_clone o = Ok o' /\ same_values (ms_value spline) o' o /\ rd_r o' = rd_r o /\ limits o'.
Proof.
  intros spline o G NE PL X. unfold nd_clone, rd_clone.
  set (cl := fun m : option msdf => match m with Some m0 => obind (ms_clone m0) (fun m' => Ok (Some m')) | None => UB end).
  assert (LM : (length (rd_r o) <= length (rd_ms o))%nat).
  { destruct (rd_r o) as [|a t] eqn:ER; [contradiction|]. rewrite <- ER in *. assert (L1 : (1 <= length (rd_r o))%nat) by (rewrite ER; cbn; lia).
    destruct (PL (length (rd_r o) - 1)%nat ltac:(lia)) as (m & N & _).
    assert ((length (rd_r o) - 1 < length (rd_ms o))%nat) by (apply nth_error_Some; rewrite N; discriminate). lia. }
  destruct (clone_from (option msdf) cl o (rd_r o) 0 (firstn (length (rd_r o)) (rd_ms o)) rd_new) as (lim & E & LI).
  - exact G.
  - reflexivity.
  - exact I.
  - apply firstn_length_le. exact LM.
  - intros j J. destruct (PL j J) as (m & N & IM & LG). exists (Some m), (Some m). cbn [Nat.add]. split; [exact N|]. split.
    + unfold cl. rewrite (clone_unset m IM), (unset_same m LG). reflexivity.
    + rewrite <- (firstn_skipn (length (rd_r o)) (rd_ms o)) in N. rewrite nth_error_app1 in N by (rewrite firstn_length_le by exact LM; exact J). exact N.
  - eexists. split; [exact E|]. cbn [rd_r rd_ms rd_extra rd_new app] in *. split; [|split; [reflexivity|exact LI]].
    intros r p xi s. unfold rd_eval. cbn [rd_extra]. rewrite X. apply rd_at_prefix; [reflexivity|exact NE|].
    intros i L. cbn [rd_ms]. unfold dget. rewrite <- (firstn_skipn (length (rd_r o)) (rd_ms o)) at 2.
    rewrite nth_error_app1 by (rewrite firstn_length_le by exact LM; exact L). reflexivity.
Qed.
Print Assumptions C56_radial.

Definition unit_ms : msdf := MSDF [1; 2] [-1; 1] [Fin 5; Fin 5; Fin 5; Fin 5] 1 2 (-1) 1 false false false.
Definition unit_grid : ndf := Radial [1; 2] [Some unit_ms; Some unit_ms] (Some (1, 2)) true.
Lemma unit_plain : plain unit_grid.
Proof.
  intros i I. exists unit_ms. split; [|split; [|reflexivity]].
  - cbn in I. destruct i as [|[|i]]; [reflexivity|reflexivity|lia].
  - exists [1; 2], [-1; 1], [Fin 5; Fin 5; Fin 5; Fin 5], 0%Z, unit_ms, false, false. split; [apply unit_init|reflexivity].
Qed.
(** The clone forgets that extrapolation was forbidden. *)
Theorem C56_permission_refuted : ~ (forall spline (o o' : ndf), ascending (rd_r o) -> rd_r o <> [] -> plain o -> limits o ->
  nd_clone o = Ok o' -> same_values (ms_value spline) o' o).
Proof.
  intro H. pose proof (asc2 1 2 ltac:(lra)) as G.
  destruct (C56_radial first_value unit_grid G ltac:(discriminate) unit_plain eq_refl) as (o' & E & SV & RR & LI).
  assert (LM : limits unit_grid) by (unfold limits; cbn; exists 2; split; reflexivity).
  assert (E' : nd_clone (rd_permit unit_grid false) = Ok o') by exact E.
  specialize (H first_value (rd_permit unit_grid false) o' G ltac:(discriminate) unit_plain LM E' 3 1 0 0).
  rewrite SV in H. destruct (C55_refuses (option msdf) (ms_value first_value) unit_grid 1 2 3 1 0 0 LM eq_refl eq_refl) as [Q _].
  rewrite Q in H by (right; lra).
  assert (V : values (ms_value first_value) unit_grid 1 0 [5; 5]).
  { unfold values. cbn. assert (Q1 : ms_eval first_value unit_ms 1 0 = Some 5).
    { apply (C57_inside first_value _ _ _ _ _ _ 1 2 (-1) 1 1 0 (unit_init false false (Fin 5))); try reflexivity; lra. }
    repeat constructor; unfold ms_value; rewrite Q1; reflexivity. }
  rewrite (C55_above (option msdf) (ms_value first_value) unit_grid 1 0 [5; 5] 2 1 5 5 3 0 eq_refl G V ltac:(cbn; lia) eq_refl eq_refl eq_refl eq_refl ltac:(lra)) in H.
  destruct (Req_EM_T (2 * 2 - 1) 0); discriminate.
Qed.
Print Assumptions C56_permission_refuted.

Example C56_example : exists o', nd_clone unit_grid = Ok o' /\ same_values (ms_value first_value) o' unit_grid.
Proof.
  destruct (C56_radial first_value unit_grid (asc2 1 2 ltac:(lra)) ltac:(discriminate) unit_plain eq_refl) as (o' & E & SV & _).
  exists o'. split; assumption.
Qed.

(** * C82: logarithmic tables *)
(** Inserting a table logarithmically, the caller's table being overwritten: the entry holds
    the logarithms, minus infinity where the data is not positive, and is marked logarithmic. *)
Theorem C82_insert : forall o x p xi f it o' i, nd_insert_log o x p xi f it false = (o', Ok i) ->
  exists m k, i = Z.of_nat k /\ nth_error (rd_ms o') k = Some (Some m) /\ ms_log m = true /\ ms_flip m = false /\
    ms_p m = p /\ ms_xi m = xi /\ ms_f m = map safe_log (firstn (length p * length xi) f).
Proof.
  intros o x p xi f it o' i H. unfold nd_insert_log, logs in H. destruct (length f <? length p * length xi)%nat eqn:L; [discriminate|]. apply Nat.ltb_ge in L.
  unfold nd_insert in H. destruct (rd_insert o x None) as [[o1 idx]| |] eqn:EI; try discriminate.
  destruct (insert_shape _ o x None o1 idx EI) as (k & -> & KL & M1 & _ & _).
  destruct (ms_initialize false false p xi (map safe_log (firstn (length p * length xi) f)) it) as [m| |] eqn:EM; [|destruct (ms_rejected false false p xi (map safe_log (firstn (length p * length xi) f))); discriminate|discriminate].
  assert (P1 : nth_error (rd_ms o1) k = Some None) by (rewrite M1, nth_insert by exact KL; rewrite Nat.ltb_irrefl, Nat.eqb_refl; reflexivity).
  rewrite Nat2Z.id in H. cbn [put rd_ms] in H. rewrite (update_same _ _ _ (Some m) _ P1) in H. injection H as <- <-.
  exists (ms_set_log true m), k. split; [reflexivity|]. cbn [put rd_ms]. split; [apply (update_same _ _ _ _ (Some m)); apply (update_same _ _ _ _ _ P1)|].
  destruct (ms_initialize_ok _ _ _ _ _ _ _ EM) as (a & b & c & d & _ & _ & _ & _ & _ & _ & _ & _ & ->). cbn. repeat (split; [reflexivity|]).
  rewrite firstn_all2 by (rewrite map_length, firstn_length; lia). reflexivity.
Qed.
Print Assumptions C82_insert.

(** Asked to leave the caller's table alone, the code inserts that table instead of its
    logarithm, and still marks it logarithmic. *)
Theorem C82_insert_alloc : forall o x p xi f it o' i, nd_insert_log o x p xi f it true = (o', Ok i) ->
  exists m k, i = Z.of_nat k /\ nth_error (rd_ms o') k = Some (Some m) /\ ms_log m = true /\ ms_f m = map Fin (firstn (length p * length xi) f).
Proof.
  intros o x p xi f it o' i H. unfold nd_insert_log, logs in H. destruct (length f <? length p * length xi)%nat eqn:L; [discriminate|]. apply Nat.ltb_ge in L.
  unfold nd_insert in H. destruct (rd_insert o x None) as [[o1 idx]| |] eqn:EI; try discriminate.
  destruct (insert_shape _ o x None o1 idx EI) as (k & -> & KL & M1 & _ & _).
  destruct (ms_initialize false false p xi (map Fin f) it) as [m| |] eqn:EM; [|destruct (ms_rejected false false p xi (map Fin f)); discriminate|discriminate].
  assert (P1 : nth_error (rd_ms o1) k = Some None) by (rewrite M1, nth_insert by exact KL; rewrite Nat.ltb_irrefl, Nat.eqb_refl; reflexivity).
  rewrite Nat2Z.id in H. cbn [put rd_ms] in H. rewrite (update_same _ _ _ (Some m) _ P1) in H. injection H as <- <-.
  exists (ms_set_log true m), k. split; [reflexivity|]. cbn [put rd_ms]. split; [apply (update_same _ _ _ _ (Some m)); apply (update_same _ _ _ _ _ P1)|].
  destruct (ms_initialize_ok _ _ _ _ _ _ _ EM) as (a & b & c & d & _ & _ & _ & _ & _ & _ & _ & _ & ->). cbn. split; [reflexivity|]. rewrite firstn_map. reflexivity.
Qed.
Print Assumptions C82_insert_alloc.

(** So a distribution of ones is inserted as one with the value e. *)
Theorem C82_alloc_refuted : ~ (forall spline o x p xi f it o1 o2 i r q y s, nd_insert_log o x p xi f it false = (o1, Ok i) ->
  nd_insert_log o x p xi f it true = (o2, Ok i) -> nd_eval spline o1 r q y s = nd_eval spline o2 r q y s).
Proof.
  intro H.
  assert (SL : safe_log 1 = Fin 0) by (unfold safe_log; destruct (Rle_dec 1 0); [lra|rewrite ln_1; reflexivity]).
  assert (Q : forall alloc, exists o', nd_insert_log rd_new 1 [1; 2] [-1; 1] [1; 1; 1; 1] 0 alloc = (o', Ok 0%Z) /\
    nd_eval first_value o' 1 1 0 0 = Ok (Some (if alloc then exp 1 else 1))).
  { intro alloc. unfold nd_insert_log. change (logs (length [1; 2] * length [-1; 1]) [1; 1; 1; 1]) with (Ok (map safe_log [1; 1; 1; 1])). cbv iota.
    cbn [map]. rewrite SL. unfold nd_insert. change (rd_insert rd_new 1 None) with (Ok (Radial [1] [@None msdf] (Some (1, 1)) true, 0%Z)). cbv iota.
    set (v := if alloc then Fin 1 else Fin 0).
    replace (if alloc then [Fin 1; Fin 1; Fin 1; Fin 1] else [Fin 0; Fin 0; Fin 0; Fin 0]) with [v; v; v; v] by (unfold v; destruct alloc; reflexivity).
    rewrite unit_init. cbn [put update rd_ms Z.to_nat nth_error rd_r rd_lim rd_extra]. eexists. split; [reflexivity|].
    set (mm := MSDF [1; 2] [-1; 1] [v; v; v; v] 1 2 (-1) 1 false true false).
    transitivity (Ok (if Req_EM_T (1 - 0) 0 then None else Some (if alloc then exp 1 else 1))).
    - apply (C55_single (option msdf) (ms_value first_value) (Radial [1] [Some mm] (Some (1, 1)) true) 1 0 (Some mm) 1 (if alloc then exp 1 else 1) 1 0 eq_refl eq_refl eq_refl).
      unfold ms_value. f_equal. unfold mm.
      rewrite (C57_inside first_value _ _ _ _ _ _ 1 2 (-1) 1 1 0 (unit_init true false v)); try reflexivity; try lra.
      cbn. unfold v. destruct alloc; [reflexivity|]. rewrite exp_0. reflexivity.
    - destruct (Req_EM_T (1 - 0) 0); [lra|reflexivity]. }
  destruct (Q false) as (o1 & E1 & V1). destruct (Q true) as (o2 & E2 & V2).
  specialize (H first_value rd_new 1 [1; 2] [-1; 1] [1; 1; 1; 1] 0%Z o1 o2 0%Z 1 1 0 0 E1 E2). rewrite V1, V2 in H. injection H as H.
  pose proof (exp_ineq1 1 ltac:(lra)). lra.
Qed.
Print Assumptions C82_alloc_refuted.

(** Initializing a whole grid logarithmically gives the same object either way; without
    [alloc] the caller's table holds the logarithms afterwards, with it nothing changes. *)
Theorem C82_initialize : forall rs p xi f it o t, nd_initialize_log rs p xi f it false = Ok (o, t) ->
  nd_initialize_log rs p xi f it true = Ok (o, map Fin f) /\
  t = map safe_log (firstn (length rs * length p * length xi) f) ++ map Fin (skipn (length rs * length p * length xi) f).
Proof.
  intros rs p xi f it o t H. unfold nd_initialize_log, logs in *.
  destruct (length f <? length rs * length p * length xi)%nat; [discriminate|]. cbn [obind] in *.
  destruct (nd_initialize rs p xi (map safe_log (firstn (length rs * length p * length xi) f)) it) as [o1| |]; try discriminate. cbn [obind] in *.
  injection H as <- <-. split; reflexivity.
Qed.
Print Assumptions C82_initialize.

(** Unlike a single momentum distribution, a grid accepts negative data: it counts as zero. *)
Theorem C82_negative : forall p xi f it x, mesh it p -> mesh it xi -> (length p * length xi <= length f)%nat ->
  exists o m, nd_insert_log rd_new x p xi f it false = (o, Ok 0%Z) /\ rd_r o = [x] /\ rd_ms o = [Some m] /\
    ms_f m = map safe_log (firstn (length p * length xi) f) /\ forall i v, (i < length p * length xi)%nat -> nth_error f i = Some v -> v <= 0 -> nth_error (ms_f m) i = Some NInf.
Proof.
  intros p xi f it x GP GX L. destruct (grid_ends _ _ GP) as (p0 & p1 & P0 & P1 & HP). destruct (grid_ends _ _ GX) as (x0 & x1 & X0 & X1 & HX).
  unfold nd_insert_log, logs. replace (length f <? length p * length xi)%nat with false by (symmetry; apply Nat.ltb_ge; exact L).
  unfold nd_insert. change (rd_insert rd_new x None) with (Ok (Radial [x] [@None msdf] (Some (x, x)) true, 0%Z)). cbv iota.
  rewrite (ms_initialize_do false false p xi _ it p0 p1 x0 x1 P0 P1 X0 X1 ltac:(lra) ltac:(lra)) by (try assumption; rewrite map_length, firstn_length; lia).
  cbn [put update rd_ms Z.to_nat nth_error rd_r rd_lim rd_extra].
  eexists _, _. split; [reflexivity|]. split; [reflexivity|]. split; [reflexivity|]. cbn [ms_set_log ms_f].
  rewrite (firstn_all2 (map safe_log _)) by (rewrite map_length, firstn_length; lia). split; [reflexivity|].
  intros i v I E N. rewrite nth_error_map. rewrite <- (firstn_skipn (length p * length xi) f) in E. rewrite nth_error_app1 in E by (rewrite firstn_length; lia).
  rewrite E. cbn. unfold safe_log. destruct (Rle_dec v 0); [reflexivity|contradiction].
Qed.
Print Assumptions C82_negative.

Example C82_example : exists o t, nd_initialize_log [1; 2; 3] [1; 2] [-1; 1] [1; 1; 1; 1; 2; 2; 2; 2; 0; -1; 3; 3] 0 false = Ok (o, t) /\ length t = 12%nat.
Proof.
  assert (W : forall f, (4 <= length f)%nat -> ms_initialize false false [1; 2] [-1; 1] f 0 = Ok (MSDF [1; 2] [-1; 1] (firstn 4 f) 1 2 (-1) 1 false false false)).
  { intros f L. apply (ms_initialize_do false false [1; 2] [-1; 1] f 0 1 2 (-1) 1); try reflexivity; try lra; [exact L|apply grid_two; lra..]. }
  unfold nd_initialize_log, logs. change (Nat.ltb (length [1; 1; 1; 1; 2; 2; 2; 2; 0; -1; 3; 3]) (length [1; 2; 3] * length [1; 2] * length [-1; 1])) with false. cbv iota. cbn [obind].
  unfold nd_initialize. set (l := map safe_log (firstn (length [1; 2; 3] * length [1; 2] * length [-1; 1]) [1; 1; 1; 1; 2; 2; 2; 2; 0; -1; 3; 3])).
  rewrite (initialize_up (option msdf) [1; 2; 3] _ (fun j => Some (MSDF [1; 2] [-1; 1] (firstn 4 (skipn (j * 4) l)) 1 2 (-1) 1 false false false)) 1 3 (asc3 1 2 3 ltac:(lra) ltac:(lra)) eq_refl eq_refl).
  - cbn [obind]. eexists _, _. split; [reflexivity|]. rewrite app_length. unfold l. rewrite !map_length. reflexivity.
  - intros j J. rewrite W; [reflexivity|]. unfold l. rewrite skipn_length, map_length. cbn in J. destruct j as [|[|[|j]]]; cbn; lia.
Qed.

(** * C83: a rejected insertion *)
(** When the table is rejected, the radius has been added all the same, with a momentum
    distribution that is zero everywhere, also after flipping the pitch, and that cannot be
    cloned. *)
Theorem C83_rejected : forall o x p xi f it o1 i, rd_insert o x None = Ok (o1, i) -> ms_initialize false false p xi f it = Throw ->
  exists k m o', i = Z.of_nat k /\ nd_insert o x p xi f it = (o', Throw) /\ rd_r o' = rd_r o1 /\ rd_lim o' = rd_lim o1 /\
    length (rd_r o') = S (length (rd_r o)) /\ rd_extra o' = rd_extra o /\
    rd_ms o' = firstn k (rd_ms o) ++ Some m :: skipn k (rd_ms o) /\
    (forall spline v q y, ms_value spline (Some (ms_set_flip v m)) q y = Ok (Some 0) /\ ms_value spline (Some m) q y = Ok (Some 0)) /\
    ms_clone m = Throw.
Proof.
  intros o x p xi f it o1 i E M. unfold nd_insert. rewrite E, M.
  destruct (insert_shape _ o x None o1 i E) as (k & -> & KL & M1 & L & EX).
  destruct (rejected_shape _ _ _ _ _ _ M) as (m & RJ & P & X & _ & _ & _ & RV & P0 & P1 & X0 & X1).
  rewrite RJ. exists k, m, (put o1 k (Some m)). rewrite Nat2Z.id. split; [reflexivity|]. split; [reflexivity|].
  cbn [put rd_r rd_lim rd_extra rd_ms]. split; [reflexivity|]. split; [reflexivity|]. split; [exact L|]. split; [exact EX|].
  split; [rewrite M1; apply update_insert; exact KL|]. split.
  - intros spline v q y. cbn [ms_value]. split; f_equal; apply reversed_zero; exact RV.
  - unfold ms_clone. rewrite P, X. apply (C57_reversed _ _ p xi _ _ _ _ _ _ P0 P1 X0 X1 RV).
Qed.
Print Assumptions C83_rejected.

(** The whole object cannot be cloned any more. *)
Theorem C83_no_clone : forall o x p xi f it o' o'', nd_insert o x p xi f it = (o', Throw) -> nd_clone o' <> Ok o''.
Proof.
  intros o x p xi f it o' o'' H CL. destruct (rd_insert o x (@None msdf)) as [[o1 i]| |] eqn:E; [|unfold nd_insert in H; rewrite E in H..].
  - destruct (ms_initialize false false p xi f it) as [m| |] eqn:M; [unfold nd_insert in H; rewrite E, M in H; discriminate| |unfold nd_insert in H; rewrite E, M in H; discriminate].
    destruct (C83_rejected o x p xi f it o1 i E M) as (k & m & o2 & -> & H2 & _ & _ & L & _ & MS & _ & CM).
    rewrite H2 in H. apply (f_equal fst) in H. cbn [fst] in H. subst o2.
    destruct (insert_shape _ o x None o1 _ E) as (k' & KK & KL & _). apply Nat2Z.inj in KK. subst k'.
    pose proof (insert_place _ _ _ _ _ _ E) as PL.
    unfold nd_clone, rd_clone in CL. destruct (clone_all _ _ _ _ _ _ _ CL k ltac:(lia)) as (d & d' & N & C).
    cbn [Nat.add] in N. rewrite MS, nth_insert in N by exact KL. rewrite Nat.ltb_irrefl, Nat.eqb_refl in N. injection N as <-.
    cbv beta iota in C. rewrite CM in C. discriminate.
  - unfold rd_insert in E. destruct (find_nearest (rd_r o) x) as [ir| |] eqn:F; try discriminate.
    + cbn [obind] in E. destruct (if (ir =? -1)%Z then Ok (rd_r o ++ [x]) else insert_at (rd_r o) (Z.to_nat (ir + 1)) x) as [rs| |] eqn:G.
      * cbn [obind] in E. destruct (length rs =? 1)%nat; [|destruct (rd_lim o) as [[lo hi]|]; [|discriminate]];
          cbn [obind] in E; unfold insert_at in E; destruct (length (rd_ms o) <? Z.to_nat (ir + 1))%nat; discriminate.
      * destruct (ir =? -1)%Z; [discriminate|]. unfold insert_at in G. destruct (length (rd_r o) <? Z.to_nat (ir + 1))%nat; discriminate.
      * discriminate.
    + destruct (find_total (rd_r o) x) as (ir & E' & _). congruence.
  - discriminate.
Qed.
Print Assumptions C83_no_clone.

(** Values between the radii have changed. *)
Theorem C83_rejected_refuted : ~ (forall spline o x p xi f it o', nd_insert o x p xi f it = (o', Throw) -> same_values (ms_value spline) o' o).
Proof.
  intro H. set (o := Radial [1] [Some unit_ms] (Some (1, 1)) true : ndf).
  assert (T : ms_initialize false false [2; 1] [-1; 1] [Fin 0; Fin 0; Fin 0; Fin 0] 0 = Throw)
    by (apply (C57_reversed false false [2; 1] [-1; 1] _ 0 2 1 (-1) 1); try reflexivity; lra).
  assert (E : rd_insert o 2 None = Ok (Radial [1; 2] [Some unit_ms; None] (Some (1, 2)) true, 1%Z)).
  { unfold rd_insert, o. cbn. replace (Rltb 1 2) with true by (symmetry; apply Rltb_t; lra). reflexivity. }
  destruct (C83_rejected o 2 _ _ _ _ _ _ E T) as (k & m & o' & K & I & RR & RL & _ & RX & MS & Z0 & _).
  assert (k = 1%nat) by lia. subst k. clear K. specialize (H first_value _ _ _ _ _ _ _ I (3 / 2) 1 0 0).
  assert (V1 : ms_eval first_value unit_ms 1 0 = Some 5).
  { apply (C57_inside first_value _ _ _ _ _ _ 1 2 (-1) 1 1 0 (unit_init false false (Fin 5))); try reflexivity; lra. }
  rewrite (C55_single _ (ms_value first_value) o 1 0 (Some unit_ms) 1 5 (3 / 2) 0 eq_refl eq_refl eq_refl) in H by (cbn; rewrite V1; reflexivity).
  destruct o' as [rs ms lim ex]. cbn [rd_r rd_ms rd_lim rd_extra] in *. subst rs lim ex. cbn [firstn skipn app rd_ms o] in MS. subst ms.
  change (rd_extra o) with true in H.
  rewrite (C55_between _ (ms_value first_value) (Radial [1; 2] [Some unit_ms; Some m] (Some (1, 2)) true) 1 0 [5; 0] 0 1 2 5 0 (3 / 2) 0 eq_refl (asc2 1 2 ltac:(lra))) in H.
  - destruct (Req_EM_T (3 / 2 - 0) 0); [discriminate|]. injection H as H. unfold through in H. lra.
  - cbn. lia.
  - unfold values. cbn [rd_ms]. constructor; [cbn; rewrite V1; reflexivity|]. constructor; [apply Z0; exact true|constructor].
  - reflexivity.
  - reflexivity.
  - reflexivity.
  - reflexivity.
  - lra.
  - lra.
Qed.
Print Assumptions C83_rejected_refuted.
Example C83_example : ms_initialize false false [2; 1] [-1; 1] [Fin 0; Fin 0; Fin 0; Fin 0] 0 = Throw.
Proof. apply (C57_reversed false false [2; 1] [-1; 1] _ 0 2 1 (-1) 1); try reflexivity; lra. Qed.
