(** C120: tables approximate the functions they hold. *)
From Coq Require Import Reals Lra Lia.
From Coquelicot Require Rcomplements.
From Verif Require Import Base DomainModel NumericSpec NumericProofs DistributionModel DistributionSpec DistributionProofs DistributionUse DistributionProps.
From Verif Require CodeUse.
From Verif Require Import CodeModel CodeSpec CodeProofs CodeProps ApproxModel ApproxSpec ApproxProofs.
Local Open Scope R_scope.

Lemma interval_choice : forall xs i a b x, (2 <= length xs)%nat -> ascending xs -> nth_error xs i = Some a -> nth_error xs (S i) = Some b ->
  a <= x <= b -> interval xs x = i \/ interval xs x = S i /\ x = b.
Proof.
  intros xs i a b x L G A B H. assert (W : within xs x).
  { destruct (within_ends xs ltac:(lia)) as (u & v & U & V). exists u, v. split; [exact U|]. split; [exact V|].
    pose proof (end_first _ _ _ _ G U A). pose proof (end_last _ _ _ _ G V B). lra. }
  destruct (interval_finds xs x L W) as (c & d & C & D & K & E). set (k := interval xs x) in *.
  assert (LB : (S k < length xs)%nat) by (apply nth_error_Some; rewrite D; discriminate).
  assert (Li : (S i < length xs)%nat) by (apply nth_error_Some; rewrite B; discriminate).
  destruct (Nat.lt_trichotomy k i) as [Q|[Q|Q]].
  - exfalso. destruct (Nat.eq_dec (S k) i) as [P|P].
    + subst i. rewrite D in A. injection A as ->. destruct E as [E|E]; [lra|lia].
    + pose proof (G (S k) i d a ltac:(lia) D A). lra.
  - left. exact Q.
  - right. destruct (Nat.eq_dec k (S i)) as [P|P].
    + split; [exact P|]. rewrite P, B in C. injection C as ->. lra.
    + exfalso. pose proof (G (S i) k b c ltac:(lia) B C). lra.
Qed.
Lemma within_step : forall xs i a b x, ascending xs -> nth_error xs i = Some a -> nth_error xs (S i) = Some b -> a <= x <= b -> within xs x.
Proof.
  intros xs i a b x G A B H. assert (Li : (S i < length xs)%nat) by (apply nth_error_Some; rewrite B; discriminate).
  destruct (within_ends xs ltac:(lia)) as (u & v & U & V). exists u, v. split; [exact U|]. split; [exact V|].
  pose proof (end_first _ _ _ _ G U A). pose proof (end_last _ _ _ _ G V B). lra.
Qed.
Lemma initialized : forall lg fl ps xs f m, ms_initialize lg fl ps xs f 0 = Ok m ->
  ascending ps /\ (2 <= length ps)%nat /\ ascending xs /\ (2 <= length xs)%nat.
Proof.
  intros lg fl ps xs f m E. destruct (proj1 (C57_grids lg fl ps xs f 0) (ex_intro _ m E)) as ((A & B) & (C & D) & _).
  change (0 =? 0)%Z with true in B, D. cbn iota in B, D. repeat split; assumption.
Qed.
Lemma evaluated : forall spline lg ps xs f m p x, bilinear spline -> ms_initialize lg false ps xs f 0 = Ok m -> within ps p -> within xs x ->
  ms_eval spline m p x =
    match lg, gsl_bilinear ps xs (firstn (length ps * length xs) f) p x with
    | false, Fin r => Some r | false, _ => None | true, Fin r => Some (exp r) | true, PInf => None | true, _ => Some 0
    end.
Proof.
  intros spline lg ps xs f m p x B E (p0 & p1 & P0 & P1 & HP) (x0 & x1 & X0 & X1 & HX).
  rewrite (C57_inside spline ps xs f 0 lg m p0 p1 x0 x1 p x E P0 P1 X0 X1 HP HX). change (0 =? 0)%Z with true. cbn [negb]. rewrite B. reflexivity.
Qed.
(** The cell that the search finds may be replaced by the one given. *)
Lemma cell_value : forall ps xs f (F : R -> R -> R) p x i j a b c d, (2 <= length ps)%nat -> (2 <= length xs)%nat -> ascending ps -> ascending xs ->
  samples ps xs f (fun p x => Fin (F p x)) ->
  nth_error ps i = Some a -> nth_error ps (S i) = Some b -> nth_error xs j = Some c -> nth_error xs (S j) = Some d ->
  a <= p <= b -> c <= x <= d ->
  gsl_bilinear ps xs f p x = Fin (patch a b c d (F a c) (F b c) (F a d) (F b d) p x).
Proof.
  intros ps xs f F p x i j a b c d L1 L2 G1 G2 SA A B C D HP HX.
  pose proof (ascending_step _ _ _ _ G1 A B) as Q1. pose proof (ascending_step _ _ _ _ G2 C D) as Q2.
  destruct (bilinear_finite ps xs f F p x L1 L2 G1 G2 SA (within_step _ _ _ _ _ G1 A B HP) (within_step _ _ _ _ _ G2 C D HX))
    as (a' & b' & c' & d' & A' & B' & C' & D' & Q1' & Q2' & _ & _ & E). rewrite E. f_equal. clear E.
  assert (T1 : forall g : R -> R, through a' (g a') b' (g b') p = through a (g a) b (g b) p).
  { intro g. destruct (interval_choice ps i a b p L1 G1 A B HP) as [K|(K & ->)]; rewrite K in A', B'.
    - rewrite A in A'. rewrite B in B'. injection A' as <-. injection B' as <-. reflexivity.
    - rewrite B in A'. injection A' as <-. rewrite through_left, through_right by assumption. reflexivity. }
  assert (T2 : forall g : R -> R, through c' (g c') d' (g d') x = through c (g c) d (g d) x).
  { intro g. destruct (interval_choice xs j c d x L2 G2 C D HX) as [K|(K & ->)]; rewrite K in C', D'.
    - rewrite C in C'. rewrite D in D'. injection C' as <-. injection D' as <-. reflexivity.
    - rewrite D in C'. injection C' as <-. rewrite through_left, through_right by assumption. reflexivity. }
  unfold patch. rewrite (T2 (fun y => through a' (F a' y) b' (F b' y) p)). cbn beta. rewrite (T1 (fun q => F q c)), (T1 (fun q => F q d)). reflexivity.
Qed.

(** * Tables of values *)
(** In a cell of the grid, its boundary included, the value is the bilinear one: straight
    lines in the momentum and in the pitch between the four values at the corners. *)
Theorem C120_cell : forall spline ps xs f F m i j a b c d p x, bilinear spline -> ms_initialize false false ps xs f 0 = Ok m ->
  samples ps xs f (fun p x => Fin (F p x)) ->
  nth_error ps i = Some a -> nth_error ps (S i) = Some b -> nth_error xs j = Some c -> nth_error xs (S j) = Some d ->
  a <= p <= b -> c <= x <= d ->
  ms_eval spline m p x = Some (through c (through a (F a c) b (F b c) p) d (through a (F a d) b (F b d) p) x).
Proof.
  intros spline ps xs f F m i j a b c d p x BI E SA A B C D HP HX. destruct (initialized _ _ _ _ _ _ E) as (G1 & L1 & G2 & L2).
  rewrite (evaluated spline false ps xs f m p x BI E (within_step _ _ _ _ _ G1 A B HP) (within_step _ _ _ _ _ G2 C D HX)).
  rewrite (cell_value ps xs _ F p x i j a b c d L1 L2 G1 G2 (samples_first _ _ _ _ _ SA) A B C D HP HX). reflexivity.
Qed.
Print Assumptions C120_cell.

(** Every point of the rectangle lies in a cell. *)
Theorem C120_cells : forall l x, ascending l -> (2 <= length l)%nat -> within l x ->
  exists i a b, nth_error l i = Some a /\ nth_error l (S i) = Some b /\ a <= x <= b.
Proof.
  intros l x G L W. destruct (interval_finds l x L W) as (a & b & A & B & H & _). exists (interval l x), a, b. split; [exact A|]. split; [exact B|exact H].
Qed.
Print Assumptions C120_cells.

(** At the points of the grid it is the value in the table. *)
Theorem C120_nodes : forall spline ps xs f F m i j p x, bilinear spline -> ms_initialize false false ps xs f 0 = Ok m ->
  samples ps xs f (fun p x => Fin (F p x)) -> nth_error ps i = Some p -> nth_error xs j = Some x -> ms_eval spline m p x = Some (F p x).
Proof.
  intros spline ps xs f F m i j p x BI E SA P X. destruct (initialized _ _ _ _ _ _ E) as (G1 & L1 & G2 & L2).
  assert (N : forall l k v, ascending l -> (2 <= length l)%nat -> nth_error l k = Some v -> exists i a b,
    nth_error l i = Some a /\ nth_error l (S i) = Some b /\ (v = a \/ v = b) /\ a < b).
  { intros l k v G L V. assert (K : (k < length l)%nat) by (apply nth_error_Some; rewrite V; discriminate).
    destruct (Nat.eq_dec (S k) (length l)) as [Q|Q].
    - destruct (nth_error l (k - 1)) as [a|] eqn:A; [|apply nth_error_None in A; lia]. replace k with (S (k - 1)) in V by lia.
      exists (k - 1)%nat, a, v. split; [exact A|]. split; [exact V|]. split; [right; reflexivity|apply (ascending_step _ _ _ _ G A V)].
    - destruct (nth_error l (S k)) as [b|] eqn:B; [|apply nth_error_None in B; lia].
      exists k, v, b. split; [exact V|]. split; [exact B|]. split; [left; reflexivity|apply (ascending_step _ _ _ _ G V B)]. }
  destruct (N ps i p G1 L1 P) as (i' & a & b & A & B & HP & Q1). destruct (N xs j x G2 L2 X) as (j' & c & d & C & D & HX & Q2).
  rewrite (C120_cell spline ps xs f F m i' j' a b c d p x BI E SA A B C D ltac:(destruct HP; subst; lra) ltac:(destruct HX; subst; lra)). f_equal.
  destruct HP as [ -> | -> ], HX as [ -> | -> ]; rewrite ?through_left, ?through_right by assumption; reflexivity.
Qed.
Print Assumptions C120_nodes.

(** The value never leaves the range of the table: a table without negative values gives a
    distribution without negative values. *)
Theorem C120_range : forall spline ps xs f F m p x lo hi, bilinear spline -> ms_initialize false false ps xs f 0 = Ok m ->
  samples ps xs f (fun p x => Fin (F p x)) -> (forall q y, In q ps -> In y xs -> lo <= F q y <= hi) -> within ps p -> within xs x ->
  exists v, ms_eval spline m p x = Some v /\ lo <= v <= hi.
Proof.
  intros spline ps xs f F m p x lo hi BI E SA BO W1 W2. destruct (initialized _ _ _ _ _ _ E) as (G1 & L1 & G2 & L2).
  destruct (C120_cells ps p G1 L1 W1) as (i & a & b & A & B & HP). destruct (C120_cells xs x G2 L2 W2) as (j & c & d & C & D & HX).
  rewrite (C120_cell spline ps xs f F m i j a b c d p x BI E SA A B C D HP HX). eexists. split; [reflexivity|].
  pose proof (nth_error_In _ _ A). pose proof (nth_error_In _ _ B). pose proof (nth_error_In _ _ C). pose proof (nth_error_In _ _ D).
  apply (patch_range a b c d); auto; [apply (ascending_step _ _ _ _ G1 A B)|apply (ascending_step _ _ _ _ G2 C D)].
Qed.
Print Assumptions C120_range.

(** A table of a function that is twice differentiable: the error is at most one eighth of the
    second derivatives times the squares of the distances of neighbouring grid points. *)
Theorem C120_error : forall spline ps xs f F m p x Mp Mx hp hx, bilinear spline -> ms_initialize false false ps xs f 0 = Ok m ->
  samples ps xs f (fun p x => Fin (F p x)) -> spacing hp ps -> spacing hx xs -> smooth Mp Mx ps xs F -> within ps p -> within xs x ->
  exists v, ms_eval spline m p x = Some v /\ Rabs (v - F p x) <= Mp * hp ^ 2 / 8 + Mx * hx ^ 2 / 8.
Proof.
  intros spline ps xs f F m p x Mp Mx hp hx BI E SA S1 S2 SM W1 W2. destruct (initialized _ _ _ _ _ _ E) as (G1 & L1 & G2 & L2).
  rewrite (evaluated spline false ps xs f m p x BI E W1 W2).
  destruct (table_error Mp Mx hp hx ps xs _ F p x L1 L2 G1 G2 S1 S2 (samples_first _ _ _ _ _ SA) SM W1 W2) as (v & EV & BO). rewrite EV.
  exists v. split; [reflexivity|exact BO].
Qed.
Print Assumptions C120_error.

(** * Logarithmic tables *)
Lemma log_samples : forall ps xs f F m, samples ps xs f F -> (length ps * length xs <= length f)%nat ->
  (forall q y, In q ps -> In y xs -> 0 <= F q y) -> ms_initialize_log ps xs f 0 = Ok m ->
  exists l, ms_initialize true false ps xs l 0 = Ok m /\ samples ps xs l (fun q y => if Rlt_dec 0 (F q y) then Fin (ln (F q y)) else NInf).
Proof.
  intros ps xs f F m SA L NN E. unfold ms_initialize_log in E.
  destruct (log_table (length ps * length xs) f) as [l| |] eqn:T; try discriminate E. cbn [obind] in E. exists l. split; [exact E|].
  assert (K : forall n f l, log_table n f = Ok l -> forall k v, (k < n)%nat -> nth_error f k = Some v -> nth_error l k = Some (xlog v)).
  { clear. induction n as [|n IH]; intros f l H k v K V; [lia|]. destruct f as [|w f]; [destruct k; discriminate V|]. cbn [log_table] in H.
    destruct (Rltb w 0); [discriminate H|]. destruct (log_table n f) as [l'| |] eqn:T; try discriminate H. cbn [obind] in H. injection H as <-.
    destruct k as [|k]; [cbn in V; injection V as ->; reflexivity|]. cbn [nth_error] in V |- *. apply (IH f l' T k v); [lia|exact V]. }
  intros i j p x P X. rewrite (K _ _ _ T (j * length ps + i)%nat (F p x)).
  - f_equal. unfold xlog. destruct (Rlt_dec 0 (F p x)); [reflexivity|]. destruct (Req_EM_T (F p x) 0); [reflexivity|].
    exfalso. pose proof (NN p x (nth_error_In _ _ P) (nth_error_In _ _ X)). lra.
  - apply index_inside; apply nth_error_Some; rewrite ?P, ?X; discriminate.
  - apply SA; assumption.
Qed.
Lemma log_length : forall ps xs f m, ms_initialize_log ps xs f 0 = Ok m -> (length ps * length xs <= length f)%nat.
Proof.
  intros ps xs f m E. unfold ms_initialize_log in E. destruct (log_table (length ps * length xs) f) as [l| |] eqn:T; try discriminate E. clear E.
  revert f l T. induction (length ps * length xs)%nat as [|n IH]; intros f l T; [lia|]. destruct f as [|w f]; [discriminate T|]. cbn [log_table] in T.
  destruct (Rltb w 0); [discriminate T|]. destruct (log_table n f) as [l'| |] eqn:T'; try discriminate T. cbn [length]. pose proof (IH f l' T'). lia.
Qed.
Lemma samples_ext : forall (A : Type) ps xs (f : list A) F G, samples ps xs f F -> (forall q y, In q ps -> In y xs -> F q y = G q y) -> samples ps xs f G.
Proof. intros A ps xs f F G SA H i j p x P X. rewrite <- (H p x (nth_error_In _ _ P) (nth_error_In _ _ X)). apply SA; assumption. Qed.
Lemma log_positive : forall ps xs f F m, samples ps xs f F -> (forall q y, In q ps -> In y xs -> 0 < F q y) -> ms_initialize_log ps xs f 0 = Ok m ->
  exists l, ms_initialize true false ps xs l 0 = Ok m /\ samples ps xs l (fun q y => Fin (ln (F q y))).
Proof.
  intros ps xs f F m SA PO E. destruct (log_samples ps xs f F m SA (log_length _ _ _ _ E)) as (l & EI & SL); [|exact E|].
  - intros q y Q Y. left. apply PO; assumption.
  - exists l. split; [exact EI|]. apply (samples_ext _ _ _ _ _ _ SL). intros q y Q Y. pose proof (PO q y Q Y). destruct (Rlt_dec 0 (F q y)); [reflexivity|contradiction].
Qed.

(** A logarithmic table of positive values: at the points of the grid it is exact, and
    elsewhere the relative error is small if the logarithm of the function bends little. *)
Theorem C120_log_nodes : forall spline ps xs f F m i j p x, bilinear spline -> ms_initialize_log ps xs f 0 = Ok m ->
  samples ps xs f F -> (forall q y, In q ps -> In y xs -> 0 < F q y) -> nth_error ps i = Some p -> nth_error xs j = Some x ->
  ms_eval spline m p x = Some (F p x).
Proof.
  intros spline ps xs f F m i j p x BI E SA PO P X. destruct (log_positive ps xs f F m SA PO E) as (l & EI & SL).
  destruct (initialized _ _ _ _ _ _ EI) as (G1 & L1 & G2 & L2).
  rewrite (evaluated spline true ps xs l m p x BI EI (within_node _ _ _ G1 P) (within_node _ _ _ G2 X)).
  assert (EI' : exists m', ms_initialize false false ps xs l 0 = Ok m').
  { apply C57_grids. apply (C57_grids true false). exists m. exact EI. }
  destruct EI' as (m' & EI'). pose proof (C120_nodes spline ps xs l (fun q y => ln (F q y)) m' i j p x BI EI' SL P X) as N.
  rewrite (evaluated spline false ps xs l m' p x BI EI' (within_node _ _ _ G1 P) (within_node _ _ _ G2 X)) in N.
  destruct (gsl_bilinear ps xs (firstn (length ps * length xs) l) p x); try discriminate N. injection N as ->. rewrite exp_ln; [reflexivity|].
  apply PO; [apply (nth_error_In _ _ P)|apply (nth_error_In _ _ X)].
Qed.
Print Assumptions C120_log_nodes.

Theorem C120_log_error : forall spline ps xs f F m p x Mp Mx hp hx, bilinear spline -> ms_initialize_log ps xs f 0 = Ok m ->
  samples ps xs f F -> (forall q y, within ps q -> within xs y -> 0 < F q y) -> spacing hp ps -> spacing hx xs ->
  smooth Mp Mx ps xs (fun q y => ln (F q y)) -> within ps p -> within xs x ->
  exists v, ms_eval spline m p x = Some v /\ Rabs (v - F p x) <= (exp (Mp * hp ^ 2 / 8 + Mx * hx ^ 2 / 8) - 1) * F p x.
Proof.
  intros spline ps xs f F m p x Mp Mx hp hx BI E SA PO S1 S2 SM W1 W2.
  assert (GR : ascending ps /\ ascending xs).
  { unfold ms_initialize_log in E. destruct (log_table (length ps * length xs) f) as [l| |]; try discriminate E. cbn [obind] in E.
    destruct (initialized _ _ _ _ _ _ E) as (A & _ & B & _). split; assumption. }
  destruct GR as (GA & GB).
  destruct (log_positive ps xs f F m SA) as (l & EI & SL).
  - intros q y Q Y. apply In_nth_error in Q. apply In_nth_error in Y. destruct Q as (i & Q). destruct Y as (j & Y).
    apply PO; [apply (within_node _ _ _ GA Q)|apply (within_node _ _ _ GB Y)].
  - exact E.
  - destruct (initialized _ _ _ _ _ _ EI) as (G1 & L1 & G2 & L2).
    rewrite (evaluated spline true ps xs l m p x BI EI W1 W2).
    destruct (table_error Mp Mx hp hx ps xs _ (fun q y => ln (F q y)) p x L1 L2 G1 G2 S1 S2 (samples_first _ _ _ _ _ SL) SM W1 W2) as (v & EV & BO). rewrite EV.
    exists (exp v). split; [reflexivity|]. pose proof (PO p x W1 W2) as P. set (e := Mp * hp ^ 2 / 8 + Mx * hx ^ 2 / 8) in *.
    assert (EE : exp v = F p x * exp (v - ln (F p x))).
    { rewrite <- (exp_ln (F p x) P) at 1. rewrite <- exp_plus. f_equal. ring. }
    rewrite EE. set (w := v - ln (F p x)) in *. replace (F p x * exp w - F p x) with (F p x * (exp w - 1)) by ring.
    rewrite Rabs_mult, (Rabs_right (F p x)) by lra. rewrite Rmult_comm. apply Rmult_le_compat_r; [lra|].
    apply Rcomplements.Rabs_le_between in BO. destruct BO as (B1 & B2).
    assert (M1 : exp w <= exp e). { destruct (Req_dec w e) as [->|N]; [lra|]. left. apply exp_increasing. lra. }
    assert (M2 : exp (- e) <= exp w). { destruct (Req_dec w (- e)) as [->|N]; [lra|]. left. apply exp_increasing. lra. }
    pose proof (exp_pos e) as P1. pose proof (exp_pos (- e)) as P2.
    assert (M3 : exp (- e) * exp e = 1). { rewrite <- exp_plus. replace (- e + e) with 0 by ring. apply exp_0. }
    apply Rabs_le. split; [|lra].
    assert (Q : 0 <= (exp e - 1) ^ 2) by apply pow2_ge_0. assert (2 <= exp e + exp (- e)); [|lra].
    apply Rmult_le_reg_r with (exp e); [exact P1|]. rewrite Rmult_plus_distr_r, M3. nra.
Qed.
Print Assumptions C120_log_error.

(** A zero in the table: the distribution vanishes in all of the cells around it, so that at
    the neighbours of a zero with a smaller momentum or pitch the positive value of the table
    is lost. *)
Theorem C120_log_zero : forall spline ps xs f F m i j a b c d p x, bilinear spline -> ms_initialize_log ps xs f 0 = Ok m ->
  samples ps xs f F -> (forall q y, In q ps -> In y xs -> 0 <= F q y) ->
  nth_error ps i = Some a -> nth_error ps (S i) = Some b -> nth_error xs j = Some c -> nth_error xs (S j) = Some d ->
  a <= p < b -> c <= x < d -> (F a c = 0 \/ F b c = 0 \/ F a d = 0 \/ F b d = 0) ->
  ms_eval spline m p x = Some 0.
Proof.
  intros spline ps xs f F m i j a b c d p x BI E SA NN A B C D HP HX Z.
  destruct (log_samples ps xs f F m SA (log_length _ _ _ _ E) NN E) as (l & EI & SL).
  destruct (initialized _ _ _ _ _ _ EI) as (G1 & L1 & G2 & L2).
  assert (W1 : within ps p) by (apply (within_step _ _ _ _ _ G1 A B); lra). assert (W2 : within xs x) by (apply (within_step _ _ _ _ _ G2 C D); lra).
  rewrite (evaluated spline true ps xs l m p x BI EI W1 W2).
  destruct (bilinear_cell ps xs _ _ p x L1 L2 G1 G2 (samples_first _ _ _ _ _ SL) W1 W2) as (a' & b' & c' & d' & A' & B' & C' & D' & Q1 & Q2 & H1 & H2 & EV).
  destruct (interval_choice ps i a b p L1 G1 A B ltac:(lra)) as [K1|(_ & K1)]; [|lra]. destruct (interval_choice xs j c d x L2 G2 C D ltac:(lra)) as [K2|(_ & K2)]; [|lra].
  rewrite K1 in A', B'. rewrite K2 in C', D'. rewrite A in A'. rewrite B in B'. rewrite C in C'. rewrite D in D'.
  injection A' as <-. injection B' as <-. injection C' as <-. injection D' as <-.
  set (LN := fun q y => if Rlt_dec 0 (F q y) then Fin (ln (F q y)) else NInf) in *.
  assert (V : gsl_bilinear ps xs (firstn (length ps * length xs) l) p x = NInf \/ gsl_bilinear ps xs (firstn (length ps * length xs) l) p x = NaN).
  { rewrite EV. apply infinite_corner; [apply ratio_range; [exact Q1|exact H1]|apply ratio_range; [exact Q2|exact H2]| |].
    - intros z IN. assert (exists q y, z = LN q y) as (q & y & ->) by (cbn [In] in IN; destruct IN as [<-|[<-|[<-|[<-|[]]]]]; eexists; eexists; reflexivity).
      unfold LN. destruct (Rlt_dec 0 (F q y)); split; discriminate.
    - assert (ZZ : forall q y, F q y = 0 -> LN q y = NInf) by (intros q y H; unfold LN; destruct (Rlt_dec 0 (F q y)); [lra|reflexivity]).
      cbn [In]. destruct Z as [Z|[Z|[Z|Z]]]; [left|right; left|right; right; left|right; right; right; left]; apply (ZZ _ _ Z). }
  destruct V as [ -> | -> ]; reflexivity.
Qed.
Print Assumptions C120_log_zero.

Definition two_values (p x : R) : R := if Req_EM_T p 0 then 1 else 0.
Lemma two_samples : samples [0; 1] [0; 1] [1; 0; 1; 0] two_values.
Proof.
  intros i j p x P X. destruct i as [|[|[|i]]]; try discriminate P; (destruct j as [|[|[|j]]]; try discriminate X); cbn in P, X |- *; injection P as <-; injection X as <-;
    unfold two_values; destruct (Req_EM_T _ _); try reflexivity; lra.
Qed.
Lemma two_points : ascending [0; 1].
Proof. intros i j a b L A B. destruct i as [|[|i]], j as [|[|j]]; try lia; cbn in A, B; try discriminate; try (destruct j; discriminate); try (destruct i; discriminate). injection A as <-. injection B as <-. lra. Qed.
Theorem C120_log_nodes_refuted : ~ (forall spline ps xs f F m i j p x, bilinear spline -> ms_initialize_log ps xs f 0 = Ok m ->
  samples ps xs f F -> (forall q y, In q ps -> In y xs -> 0 <= F q y) -> nth_error ps i = Some p -> nth_error xs j = Some x ->
  ms_eval spline m p x = Some (F p x)).
Proof.
  intro H. set (spline := fun (_ : bool) => gsl_bilinear).
  assert (BI : bilinear spline) by (intros xs ys z x y; reflexivity).
  assert (M : exists m, ms_initialize_log [0; 1] [0; 1] [1; 0; 1; 0] 0 = Ok m).
  { unfold ms_initialize_log. cbn [length Nat.mul Nat.add log_table]. unfold Rltb. destruct (Rlt_dec 1 0); [lra|]. destruct (Rlt_dec 0 0); [lra|]. cbn [obind].
    apply C57_grids. split; [split; [exact two_points|cbn; lia]|]. split; [split; [exact two_points|cbn; lia]|cbn; lia]. }
  destruct M as (m & E).
  assert (NN : forall q y, In q [0; 1] -> In y [0; 1] -> 0 <= two_values q y) by (intros q y _ _; unfold two_values; destruct (Req_EM_T q 0); lra).
  pose proof (H spline [0; 1] [0; 1] [1; 0; 1; 0] two_values m 0%nat 0%nat 0 0 BI E two_samples NN eq_refl eq_refl) as P.
  rewrite (C120_log_zero spline [0; 1] [0; 1] [1; 0; 1; 0] two_values m 0%nat 0%nat 0 1 0 1 0 0 BI E two_samples NN eq_refl eq_refl eq_refl eq_refl ltac:(lra) ltac:(lra)) in P.
  - unfold two_values in P. destruct (Req_EM_T 0 0); [injection P; lra|lra].
  - right. left. unfold two_values. destruct (Req_EM_T 1 0); [lra|reflexivity].
Qed.
Print Assumptions C120_log_nodes_refuted.

(** * Radial grids *)
Lemma same_length : forall (A B : Type) (P : A -> B -> Prop) l l', Forall2 P l l' -> length l = length l'.
Proof. intros A B P l l' H. induction H; cbn; congruence. Qed.
Lemma nth_skip : forall (A : Type) n (l : list A) i, nth_error (skipn n l) i = nth_error l (n + i).
Proof. intros A n. induction n as [|n IH]; intros l i; [reflexivity|]. destruct l as [|x l]; [rewrite skipn_nil; destruct i; reflexivity|]. cbn. apply IH. Qed.
(** Tables at increasing radii, the first one not zero: the three errors add up. *)
Theorem C120_radial : forall spline (o : ndf) ps xs F r p x s Mr Mp Mx hr hp hx, bilinear spline -> rd_extra o = true -> ascending (rd_r o) ->
  (2 <= length (rd_r o))%nat -> nth_error (rd_r o) 0 <> Some 0 -> length (rd_ms o) = length (rd_r o) ->
  (forall i a, nth_error (rd_r o) i = Some a -> exists m f, nth_error (rd_ms o) i = Some (Some m) /\
     ms_initialize false false ps xs f 0 = Ok m /\ samples ps xs f (fun p x => Fin (F a p x)) /\ smooth Mp Mx ps xs (F a)) ->
  spacing hr (rd_r o) -> spacing hp ps -> spacing hx xs ->
  (forall a b q y, nth_error (rd_r o) 0 = Some a -> nth_error (rd_r o) (length (rd_r o) - 1) = Some b -> within ps q -> within xs y -> bends Mr a b (fun r => F r q y)) ->
  within (rd_r o) (r - s) -> within ps p -> within xs x ->
  exists v, nd_eval spline o r p x s = Ok (Some v) /\
    Rabs (v - F (r - s) p x) <= Mr * hr ^ 2 / 8 + Mp * hp ^ 2 / 8 + Mx * hx ^ 2 / 8.
Proof.
  intros spline o ps xs F r p x s Mr Mp Mx hr hp hx BI EX G L NZ LM TA SR SP SX BR WR W1 W2.
  assert (VS : forall k, (k <= length (rd_ms o))%nat -> exists vals, Forall2 (fun d v => ms_value spline d p x = Ok (Some v)) (firstn k (rd_ms o)) vals /\
    forall i a v, nth_error (rd_r o) i = Some a -> nth_error vals i = Some v -> Rabs (v - F a p x) <= Mp * hp ^ 2 / 8 + Mx * hx ^ 2 / 8).
  { induction k as [|k IH]; intros K.
    - exists []. split; [constructor|]. intros i a v _ V. destruct i; discriminate V.
    - destruct (IH ltac:(lia)) as (vals & F2 & B). destruct (nth_error (rd_r o) k) as [a|] eqn:A; [|apply nth_error_None in A; lia].
      destruct (TA k a A) as (m & f & M & E & SA & SM). destruct (C120_error spline ps xs f (F a) m p x Mp Mx hp hx BI E SA SP SX SM W1 W2) as (v & EV & BV).
      assert (LK : length vals = k) by (rewrite <- (same_length _ _ _ _ _ F2), firstn_length; lia).
      exists (vals ++ [v]). split.
      + replace (firstn (S k) (rd_ms o)) with (firstn k (rd_ms o) ++ [Some m]).
        * apply Forall2_app; [exact F2|]. constructor; [|constructor]. cbn. rewrite EV. reflexivity.
        * clear - M. revert k M. induction (rd_ms o) as [|d l IH]; intros k M; [destruct k; discriminate M|]. destruct k as [|k]; cbn in M |- *; [injection M as ->; reflexivity|].
          f_equal. apply IH. exact M.
      + intros i a' v' A' V'. destruct (Nat.lt_ge_cases i (length vals)) as [Q|Q].
        * rewrite nth_error_app1 in V' by exact Q. apply (B i a' v' A' V').
        * rewrite nth_error_app2 in V' by exact Q. destruct (i - length vals)%nat as [|n] eqn:N; [|destruct n; discriminate V']. cbn in V'. injection V' as <-.
          replace i with k in A' by lia. rewrite A in A'. injection A' as <-. exact BV. }
  destruct (VS _ (Nat.le_refl _)) as (vals & F2 & B). rewrite firstn_all in F2. clear VS.
  destruct (C120_cells (rd_r o) (r - s) G L WR) as (i & r0 & r1 & R0 & R1 & HR).
  assert (LV : length vals = length (rd_r o)) by (rewrite <- (same_length _ _ _ _ _ F2); exact LM).
  assert (LI : (S i < length (rd_r o))%nat) by (apply nth_error_Some; rewrite R1; discriminate).
  destruct (nth_error vals i) as [f0|] eqn:V0; [|apply nth_error_None in V0; lia]. destruct (nth_error vals (S i)) as [f1|] eqn:V1; [|apply nth_error_None in V1; lia].
  exists (through r0 f0 r1 f1 (r - s)). split.
  - apply (C55_between _ (ms_value spline) o p x vals i r0 r1 f0 f1 r s EX G ltac:(lia) F2 R0 R1 V0 V1 HR). intros -> Z. subst r0. contradiction.
  - pose proof (ascending_step _ _ _ _ G R0 R1) as Q. pose proof (B _ _ _ R0 V0) as B0. pose proof (B _ _ _ R1 V1) as B1.
    destruct (within_ends (rd_r o) ltac:(lia)) as (u & w & U & W).
    assert (CH : Rabs (through r0 (F r0 p x) r1 (F r1 p x) (r - s) - F (r - s) p x) <= Mr * hr ^ 2 / 8).
    { apply (chord_bound Mr r0 r1 hr (fun r => F r p x) (r - s)); [|exact Q|apply (SR _ _ _ R0 R1)|exact HR].
      apply (bends_part Mr u w); [apply BR; assumption|apply (end_first _ _ _ _ G U R0)|apply (end_last _ _ _ _ G W R1)]. }
    replace (through r0 f0 r1 f1 (r - s) - F (r - s) p x) with
      ((through r0 (F r0 p x) r1 (F r1 p x) (r - s) - F (r - s) p x) + (through r0 f0 r1 f1 (r - s) - through r0 (F r0 p x) r1 (F r1 p x) (r - s))) by ring.
    eapply Rle_trans; [apply Rabs_triang|]. rewrite Rplus_assoc. apply Rplus_le_compat; [exact CH|].
    rewrite !through_mix by exact Q. apply mix_close; [apply ratio_range; assumption|exact B0|exact B1].
Qed.
Print Assumptions C120_radial.

(** * CODE distributions *)
Lemma sum_close : forall n g h M c, (forall i, (i < n)%nat -> Rabs (g i - h i) <= M i * c) -> Rabs (sum n g - sum n h) <= sum n M * c.
Proof.
  induction n as [|n IH]; intros g h M c H; cbn [sum].
  - rewrite Rminus_0_r, Rabs_R0. lra.
  - replace (sum n g + g n - (sum n h + h n)) with ((sum n g - sum n h) + (g n - h n)) by ring. eapply Rle_trans; [apply Rabs_triang|].
    rewrite Rmult_plus_distr_r. apply Rplus_le_compat; [apply IH; intros i I; apply H; lia|apply H; lia].
Qed.
Lemma positive_part : forall a b e, Rabs (a - b) <= e -> Rabs (Rmax 0 a - Rmax 0 b) <= e.
Proof.
  intros a b e H. apply Rcomplements.Rabs_le_between in H. apply Rabs_le. unfold Rmax. destruct (Rle_dec 0 a), (Rle_dec 0 b); lra.
Qed.
(** A distribution with [nleg] modes g(0), g(1), ... tabulated at momenta that are at most [h]
    apart: the distance to the positive part of the series of the modes themselves. *)
Theorem C120_code : forall itp np nleg ps f o (g : nat -> R -> R) M h p xi, linear itp -> code_initialize np nleg ps f 0 = Ok o -> (2 <= nleg)%nat ->
  (forall i j q, (i < nleg)%nat -> (j < np)%nat -> nth_error ps j = Some q -> nth_error f (i * np + j) = Some (g i q)) ->
  (forall i a b, (i < nleg)%nat -> nth_error ps 0 = Some a -> nth_error ps (np - 1) = Some b -> bends (M i) a b (g i)) ->
  spacing h (firstn np ps) -> within (firstn np ps) p -> -1 <= xi <= 1 ->
  exists o' v, code_eval itp o p xi = Ok (o', v) /\
    Rabs (v - Rmax 0 (sum nleg (fun i => g i p * legendre i (- xi)))) <= sum nleg M * (h ^ 2 / 8).
Proof.
  intros itp np nleg ps f o g M h p xi LI E N SA BE SP W XI.
  destruct (C58_eval itp np nleg ps f 0 o p xi E N) as (o' & EV). exists o'. eexists. split; [exact EV|].
  destruct (proj1 (C58_grids np nleg ps f 0 ltac:(lia)) (ex_intro _ o E)) as (_ & (N1 & N2) & N3 & (G & TK)).
  assert (LF : length (firstn np ps) = np) by (rewrite firstn_length; lia).
  destruct W as (a & b & A & B & H). pose proof A as A0. pose proof B as B0. rewrite LF in B.
  rewrite nth_error_firstn_lt in A by lia. rewrite nth_error_firstn_lt in B by lia.
  unfold code_value. rewrite (nth_some _ _ _ 0 _ A), (nth_some _ _ _ 0 _ B).
  rewrite Rmin_left by lra. rewrite Rmax_right by lra. destruct (Rlt_dec p a); [lra|]. destruct (Rlt_dec b p); [lra|].
  apply positive_part. apply sum_close. intros i I.
  replace (mode itp 0 np ps f i p * legendre i (- xi) - g i p * legendre i (- xi)) with ((mode itp 0 np ps f i p - g i p) * legendre i (- xi)) by ring.
  rewrite Rabs_mult. replace (M i * (h ^ 2 / 8)) with (M i * h ^ 2 / 8 * 1) by field.
  apply Rmult_le_compat; [apply Rabs_pos|apply Rabs_pos| |apply C58_bounded; lra].
  unfold mode. rewrite LI. apply linear_error; [lia|exact G|exact SP| | | |].
  - exists a, b. split; [exact A0|]. split; [exact B0|exact H].
  - rewrite !firstn_length, skipn_length. assert (i * np + np <= nleg * np)%nat by (replace (i * np + np)%nat with (S i * np)%nat by lia; apply Nat.mul_le_mono_r; lia). lia.
  - intros j v V. assert (J : (j < np)%nat) by (rewrite <- LF; apply nth_error_Some; rewrite V; discriminate).
    rewrite nth_error_firstn_lt in V by lia. rewrite nth_error_firstn_lt by lia. rewrite nth_skip. apply SA; assumption.
  - intros a' b' A' B'. rewrite LF in B'. rewrite nth_error_firstn_lt in A' by lia. rewrite nth_error_firstn_lt in B' by lia. apply BE; assumption.
Qed.
Print Assumptions C120_code.
(** GO+CODE: a distribution of [F] at every radius, whose modes are tabulated as above at momenta
    at most [hp] apart and bend at most [Mp] together; the radii at most [hr] apart, the first one
    not zero.  The errors in the momentum and in the radius add up, whatever was evaluated before. *)
Theorem C120_gocode : forall itp rho cs h go (F : R -> R -> R -> R) Mr Mp hr hp r p xi s, linear itp -> ascending rho -> (2 <= length rho)%nat ->
  nth_error rho 0 <> Some 0 -> length cs = length rho ->
  (forall k a c, nth_error rho k = Some a -> nth_error cs k = Some c -> exists np nleg ps f (g : nat -> R -> R) M,
     code_initialize np nleg ps f 0 = Ok c /\ (2 <= nleg)%nat /\
     (forall i j q, (i < nleg)%nat -> (j < np)%nat -> nth_error ps j = Some q -> nth_error f (i * np + j) = Some (g i q)) /\
     (forall i u w, (i < nleg)%nat -> nth_error ps 0 = Some u -> nth_error ps (np - 1) = Some w -> bends (M i) u w (g i)) /\
     sum nleg M <= Mp /\ spacing hp (firstn np ps) /\ within (firstn np ps) p /\
     F a p xi = Rmax 0 (sum nleg (fun i => g i p * legendre i (- xi)))) ->
  spacing hr rho -> (forall a b, nth_error rho 0 = Some a -> nth_error rho (length rho - 1) = Some b -> bends Mr a b (fun r => F r p xi)) ->
  within rho (r - s) -> -1 <= xi <= 1 -> gocode_evals itp (Gocode rho cs) h = Ok go ->
  exists go' v, gocode_eval itp go r p xi s = Ok (go', Some v) /\ Rabs (v - F (r - s) p xi) <= Mr * hr ^ 2 / 8 + Mp * hp ^ 2 / 8.
Proof.
  intros itp rho cs h go F Mr Mp hr hp r p xi s LI G L NZ LC TA SR BR WR XI EV.
  assert (FR : Forall fresh cs).
  { apply Forall_forall. intros c C. apply In_nth_error in C. destruct C as (k & C). assert (K : (k < length cs)%nat) by (apply nth_error_Some; rewrite C; discriminate).
    destruct (nth_error rho k) as [a|] eqn:A; [|apply nth_error_None in A; lia].
    destruct (TA k a c A C) as (np & nleg & ps & f & g & M & E & N & _). exists np, nleg, ps, f, 0%Z. split; assumption. }
  assert (CB : forall k a c, nth_error rho k = Some a -> nth_error cs k = Some c -> Rabs (code_at itp c p xi - F a p xi) <= Mp * hp ^ 2 / 8).
  { intros k a c A C. destruct (TA k a c A C) as (np & nleg & ps & f & g & M & E & N & SA & BE & SU & SP & W & EF).
    destruct (C120_code itp np nleg ps f c g M hp p xi LI E N SA BE SP W XI) as (o' & v & E1 & B).
    destruct (C58_eval itp np nleg ps f 0%Z c p xi E N) as (o2 & E2). rewrite E1 in E2. injection E2 as _ EV2.
    destruct (CodeUse.initialize_sound _ _ _ _ _ _ E N) as (_ & _ & Q1 & Q2 & Q3 & Q4 & Q5). unfold code_at. rewrite Q1, Q2, Q3, Q4, Q5, <- EV2, EF.
    eapply Rle_trans; [exact B|]. replace (Mp * hp ^ 2 / 8) with (Mp * (hp ^ 2 / 8)) by field. apply Rmult_le_compat_r; [|exact SU].
    pose proof (pow2_ge_0 hp). lra. }
  destruct (C120_cells rho (r - s) G L WR) as (i & r0 & r1 & R0 & R1 & HR).
  assert (I : (S i < length rho)%nat) by (apply nth_error_Some; rewrite R1; discriminate).
  destruct (nth_error cs i) as [c0|] eqn:C0; [|apply nth_error_None in C0; lia]. destruct (nth_error cs (S i)) as [c1|] eqn:C1; [|apply nth_error_None in C1; lia].
  destruct (C63_between itp rho cs h go i r0 r1 c0 c1 r p xi s FR LC G EV R0 R1 C0 C1 HR) as (go' & E').
  { intros -> Z. subst r0. contradiction. }
  exists go'. eexists. split; [exact E'|].
  pose proof (ascending_step _ _ _ _ G R0 R1) as Q. pose proof (CB _ _ _ R0 C0) as B0. pose proof (CB _ _ _ R1 C1) as B1.
  set (f0 := code_at itp c0 p xi) in *. set (f1 := code_at itp c1 p xi) in *.
  destruct (within_ends rho ltac:(lia)) as (u & w & U & W).
  assert (CH : Rabs (through r0 (F r0 p xi) r1 (F r1 p xi) (r - s) - F (r - s) p xi) <= Mr * hr ^ 2 / 8).
  { apply (chord_bound Mr r0 r1 hr (fun r => F r p xi) (r - s)); [|exact Q|apply (SR _ _ _ R0 R1)|exact HR].
    apply (bends_part Mr u w); [apply BR; assumption|apply (end_first _ _ _ _ G U R0)|apply (end_last _ _ _ _ G W R1)]. }
  replace (through r0 f0 r1 f1 (r - s) - F (r - s) p xi) with
    ((through r0 (F r0 p xi) r1 (F r1 p xi) (r - s) - F (r - s) p xi) + (through r0 f0 r1 f1 (r - s) - through r0 (F r0 p xi) r1 (F r1 p xi) (r - s))) by ring.
  eapply Rle_trans; [apply Rabs_triang|]. apply Rplus_le_compat; [exact CH|].
  rewrite !through_mix by exact Q. apply mix_close; [apply ratio_range; assumption|exact B0|exact B1].
Qed.
Print Assumptions C120_gocode.

(** * Converting a CODE distribution into a table *)
Lemma linear_cell : forall xs ys x i a b u v, (2 <= length xs)%nat -> ascending xs -> (length xs <= length ys)%nat ->
  nth_error xs i = Some a -> nth_error xs (S i) = Some b -> nth_error ys i = Some u -> nth_error ys (S i) = Some v -> a <= x <= b ->
  gsl_linear xs ys x = through a u b v x.
Proof.
  intros xs ys x i a b u v L G N A B U V H. pose proof (ascending_step _ _ _ _ G A B) as Q.
  destruct (linear_finds xs ys x L G (within_step _ _ _ _ _ G A B H) N) as (a' & b' & u' & v' & A' & B' & U' & V' & Q' & H' & E). rewrite E.
  destruct (interval_choice xs i a b x L G A B H) as [K|(K & ->)]; rewrite K in A', B', U', V'.
  - rewrite A in A'. rewrite B in B'. rewrite U in U'. rewrite V in V'. injection A' as <-. injection B' as <-. injection U' as <-. injection V' as <-. reflexivity.
  - rewrite B in A'. rewrite V in U'. injection A' as <-. injection U' as <-. rewrite through_left, through_right by assumption. reflexivity.
Qed.
Lemma sum_through : forall n a b p (g h c : nat -> R), a < b ->
  through a (sum n (fun i => g i * c i)) b (sum n (fun i => h i * c i)) p = sum n (fun i => through a (g i) b (h i) p * c i).
Proof.
  intros n a b p g h c H. induction n as [|n IH]; cbn [sum]; [unfold through; field; lra|]. rewrite <- IH. unfold through. field. lra.
Qed.
Lemma sum_same : forall n g h, (forall i, (i < n)%nat -> g i = h i) -> sum n g = sum n h.
Proof. induction n as [|n IH]; intros g h H; cbn [sum]; [reflexivity|]. rewrite (IH g h), (H n) by (try intros; try apply H; lia). reflexivity. Qed.

(** The pitches of the table are at most 2/(n-1) apart, or pi/(n-1) if they are equidistant in
    the angle. *)
Theorem C120_pitches : forall n, (2 <= n)%nat ->
  spacing (2 / (INR n - 1)) (map (pitch false n) (seq 0 n)) /\ spacing (PI / (INR n - 1)) (map (pitch true n) (seq 0 n)).
Proof.
  intros n N. assert (P : 0 < INR n - 1). { apply le_INR in N. cbn [INR] in N. lra. }
  assert (K : forall u i a b, nth_error (map (pitch u n) (seq 0 n)) i = Some a -> nth_error (map (pitch u n) (seq 0 n)) (S i) = Some b ->
    (S i < n)%nat /\ a = pitch u n i /\ b = pitch u n (S i)).
  { intros u i a b A B. assert (L : (S i < n)%nat).
    { assert (S i < length (map (pitch u n) (seq 0 n)))%nat as L by (apply nth_error_Some; rewrite B; discriminate). rewrite map_length, seq_length in L. exact L. }
    split; [exact L|]. rewrite nth_error_map in A, B.
    assert (SE : forall k, (k < n)%nat -> nth_error (seq 0 n) k = Some k).
    { intros k H. rewrite (nth_error_nth' (seq 0 n) 0%nat) by (rewrite seq_length; exact H). rewrite seq_nth by exact H. reflexivity. }
    rewrite SE in A, B by lia. cbn in A, B. injection A as <-. injection B as <-. split; reflexivity. }
  split; intros i a b A B; destruct (K _ _ _ _ A B) as (L & -> & ->).
  - unfold pitch. rewrite S_INR. right. field. lra.
  - unfold pitch. set (x := PI * INR (n - i - 1) / (INR n - 1)). set (y := PI * INR (n - S i - 1) / (INR n - 1)).
    assert (D : x - y = PI / (INR n - 1)).
    { unfold x, y. replace (n - i - 1)%nat with (S (n - S i - 1)) by lia. rewrite S_INR. field. lra. }
    assert (D0 : 0 < PI / (INR n - 1)) by (apply Rmult_lt_0_compat; [apply PI_RGT_0|apply Rinv_0_lt_compat; exact P]).
    destruct (MVT_cor2 cos (fun x => - sin x) y x ltac:(lra)) as (c & E & _); [intros; apply derivable_pt_lim_cos|].
    pose proof (SIN_bound c) as SB. rewrite D in E. assert (- sin c * (PI / (INR n - 1)) >= - (PI / (INR n - 1))) by nra. lra.
Qed.
Print Assumptions C120_pitches.

(** ToMomentumSpace with linear interpolation: the positive part of the table is close to the
    distribution it was made from, at every momentum; the error is that of the pitch alone. *)
Theorem C120_converted : forall itp spline np nleg ps f o u n o2 t Mx hx p xi, linear itp -> bilinear spline ->
  code_initialize np nleg ps f 0 = Ok o -> (2 <= nleg)%nat -> (2 <= n)%nat -> to_momentum o false u n 0 = Ok (o2, Ok t) ->
  spacing hx (map (pitch u n) (seq 0 n)) ->
  bends Mx (-1) 1 (fun y => sum nleg (fun i => mode itp 0 np ps f i p * legendre i (- y))) -> within (firstn np ps) p -> -1 <= xi <= 1 ->
  exists o' v w, code_eval itp o p xi = Ok (o', v) /\ ms_eval spline t p xi = Some w /\ Rabs (Rmax 0 w - v) <= Mx * hx ^ 2 / 8.
Proof.
  intros itp spline np nleg ps f o u n o2 t Mx hx p xi LI BI E NL N TM SP BE W XI.
  destruct (C58_eval itp np nleg ps f 0 o p xi E NL) as (o' & EV). exists o'. eexists.
  destruct (proj1 (C58_grids np nleg ps f 0 ltac:(lia)) (ex_intro _ o E)) as (_ & (N1 & N2) & N3 & (G & TK)).
  assert (LF : length (firstn np ps) = np) by (rewrite firstn_length; lia).
  destruct (C84_table itp np nleg ps f 0 o [] o false u n 0 E NL ltac:(intros ? ? ? ? []) eq_refl N (or_introl eq_refl)) as (o3 & t' & TM' & TP & TX & TL & TF & TC & TB).
  rewrite TM in TM'. injection TM' as <- <-.
  assert (EI : exists l, ms_initialize false false (firstn np ps) (map (pitch u n) (seq 0 n)) l 0 = Ok t).
  { unfold to_momentum in TM. destruct (table_rows o false u n n 0 (c_leg o)) as [r| |]; try discriminate TM. cbn [obind] in TM. injection TM as _ TM.
    assert (CO : c_np o = np /\ c_p o = ps).
    { unfold code_initialize in E. repeat match type of E with (if ?c then _ else _) = _ => destruct c; try discriminate E end; injection E as <-; split; reflexivity. }
    destruct CO as (CO1 & CO2). rewrite CO1, CO2 in TM. eexists. exact TM. }
  destruct EI as (l & EI). set (xs := map (pitch u n) (seq 0 n)) in *.
  assert (LX : length xs = n) by (unfold xs; rewrite map_length, seq_length; reflexivity).
  destruct (initialized _ _ _ _ _ _ EI) as (_ & L1 & G2 & L2).
  set (F := fun q y => sum nleg (fun i => mode itp 0 np ps f i q * legendre i (- y))).
  assert (MN : forall i j q w, (i < nleg)%nat -> nth_error (firstn np ps) j = Some q -> nth_error (firstn np ps) (S j) = Some w -> forall y, q <= y <= w ->
    mode itp 0 np ps f i y = through q (nth (i * np + j) f 0) w (nth (i * np + S j) f 0) y).
  { intros i j q w I Q W' y Y. unfold mode. rewrite LI. assert (J : (S j < np)%nat) by (rewrite <- LF; apply nth_error_Some; rewrite W'; discriminate).
    assert (IN : (i * np + np <= nleg * np)%nat) by (replace (i * np + np)%nat with (S i * np)%nat by lia; apply Nat.mul_le_mono_r; lia).
    apply (linear_cell _ _ y j); [lia|exact G|rewrite !firstn_length, skipn_length; lia|exact Q|exact W'| | |exact Y];
      rewrite nth_error_firstn_lt by lia; rewrite nth_skip; apply nth_error_nth'; lia. }
  assert (NV : forall i j q, (i < nleg)%nat -> nth_error (firstn np ps) j = Some q -> mode itp 0 np ps f i q = nth (i * np + j) f 0).
  { intros i j q I Q. assert (J : (j < np)%nat) by (rewrite <- LF; apply nth_error_Some; rewrite Q; discriminate).
    destruct (Nat.eq_dec (S j) np) as [K|K].
    - destruct (nth_error (firstn np ps) (j - 1)) as [a|] eqn:A; [|apply nth_error_None in A; lia]. replace j with (S (j - 1)) in Q by lia.
      pose proof (ascending_step _ _ _ _ G A Q) as H. rewrite (MN i (j - 1)%nat a q I A Q q ltac:(lra)). rewrite through_right by exact H. f_equal. lia.
    - destruct (nth_error (firstn np ps) (S j)) as [b|] eqn:B; [|apply nth_error_None in B; lia].
      pose proof (ascending_step _ _ _ _ G Q B) as H. rewrite (MN i j q b I Q B q ltac:(lra)). apply through_left. exact H. }
  assert (SA : samples (firstn np ps) xs (firstn (length (firstn np ps) * length xs) l) (fun q y => Fin (F q y))).
  { assert (TE : ms_f t = firstn (length (firstn np ps) * length xs) l).
    { destruct (ms_initialize_ok _ _ _ _ _ _ _ EI) as (? & ? & ? & ? & _ & _ & _ & _ & _ & _ & _ & _ & ->). reflexivity. }
    rewrite <- TE. intros j k q y Q Y. destruct TB as (_ & TB). rewrite LF. rewrite (Nat.add_comm (k * np)).
    assert (J : (j < np)%nat) by (rewrite <- LF; apply nth_error_Some; rewrite Q; discriminate).
    assert (K : (k < n)%nat) by (rewrite <- LX; apply nth_error_Some; rewrite Y; discriminate).
    rewrite (TB j k J K). cbn zeta. f_equal. f_equal. unfold F. apply sum_same. intros i I. rewrite (NV i j q I Q). f_equal. f_equal. f_equal.
    unfold xs in Y. rewrite nth_error_map in Y. rewrite (nth_error_nth' (seq 0 n) 0%nat) in Y by (rewrite seq_length; exact K). rewrite seq_nth in Y by exact K. cbn in Y. injection Y as <-. reflexivity. }
  assert (PX : exists x0 x1, nth_error xs 0 = Some x0 /\ nth_error xs (length xs - 1) = Some x1 /\ x0 = -1 /\ x1 = 1).
  { assert (P : INR n - 1 <> 0). { apply le_INR in N. cbn [INR] in N. lra. }
    assert (SE : forall k, (k < n)%nat -> nth_error xs k = Some (pitch u n k)).
    { intros k H. unfold xs. rewrite nth_error_map, (nth_error_nth' (seq 0 n) 0%nat) by (rewrite seq_length; exact H). rewrite seq_nth by exact H. reflexivity. }
    exists (pitch u n 0), (pitch u n (n - 1)). rewrite LX. split; [apply SE; lia|]. split; [apply SE; lia|]. unfold pitch. destruct u.
    - replace (n - 0 - 1)%nat with (n - 1)%nat by lia. replace (n - (n - 1) - 1)%nat with 0%nat by lia. rewrite minus_INR by lia. cbn [INR].
      replace (PI * (INR n - 1) / (INR n - 1)) with PI by (field; exact P). replace (PI * 0 / (INR n - 1)) with 0 by (field; exact P). split; [apply cos_PI|apply cos_0].
    - rewrite minus_INR by lia. cbn [INR]. split; field; exact P. }
  destruct PX as (x0 & x1 & X0 & X1 & -> & ->).
  assert (WX : within xs xi) by (exists (-1), 1; split; [exact X0|]; split; [exact X1|exact XI]).
  destruct (C120_cells _ p G ltac:(lia) W) as (i & a & b & A & B & HP). destruct (C120_cells xs xi G2 L2 WX) as (j & c & d & C & D & HX).
  pose proof (ascending_step _ _ _ _ G A B) as Q1. pose proof (ascending_step _ _ _ _ G2 C D) as Q2.
  eexists. split; [exact EV|]. rewrite (evaluated spline false _ _ l t p xi BI EI W WX).
  rewrite (cell_value _ _ _ F p xi i j a b c d L1 L2 G G2 SA A B C D HP HX). split; [reflexivity|].
  assert (FP : forall y, through a (F a y) b (F b y) p = F p y).
  { intro y. unfold F. rewrite sum_through by exact Q1. apply sum_same. intros k K. f_equal.
    rewrite (NV k i a K A), (NV k (S i) b K B). symmetry. apply (MN k i a b K A B p HP). }
  unfold patch. rewrite !FP.
  destruct W as (p0 & p1 & P0 & P1 & HPP). rewrite LF in P1. rewrite nth_error_firstn_lt in P0 by lia. rewrite nth_error_firstn_lt in P1 by lia.
  unfold code_value. rewrite (nth_some _ _ _ 0 _ P0), (nth_some _ _ _ 0 _ P1). rewrite (Rmin_left p0 p1) by lra. rewrite (Rmax_right p0 p1) by lra.
  destruct (Rlt_dec p p0); [lra|]. destruct (Rlt_dec p1 p); [lra|]. fold (F p xi). apply positive_part.
  apply (chord_bound Mx c d hx (F p) xi); [|exact Q2|apply (SP _ _ _ C D)|exact HX].
  apply (bends_part Mx (-1) 1 c d (F p) BE); [apply (end_first _ _ _ _ G2 X0 C)|apply (end_last _ _ _ _ G2 X1 D)].
Qed.
Print Assumptions C120_converted.

(** The function p^2 + xi on two momenta and two pitches: the error in the middle is a quarter,
    exactly the bound. *)
Lemma bends_square : forall a b c, bends 2 a b (fun p => p * p + c).
Proof.
  intros a b c. exists (fun p => 1 * p + p * 1 + 0), (fun _ => 1 * 1 + 1 * 1). intros x _. split; [|split].
  - apply (derivable_pt_lim_plus (fun p => p * p) (fun _ => c)); [|apply derivable_pt_lim_const].
    apply (derivable_pt_lim_mult (fun p => p) (fun p => p)); apply derivable_pt_lim_id.
  - replace (1 * 1 + 1 * 1) with (2 : R) by ring. apply (derivable_pt_lim_locally_ext (fun p => 2 * p + 0) _ x (x - 1) (x + 1)); [lra| |apply derive_affine]. intros; ring.
  - rewrite Rabs_right; lra.
Qed.
Lemma bends_line : forall a b k c, bends 0 a b (fun x => k + c * x).
Proof.
  intros a b k c. exists (fun _ => c), (fun _ => 0). intros x _. split; [|split].
  - apply (derivable_pt_lim_locally_ext (fun p => c * p + k) _ x (x - 1) (x + 1)); [lra| |apply derive_affine]. intros; ring.
  - apply derivable_pt_lim_const.
  - rewrite Rabs_R0. lra.
Qed.
Definition example_table : list xreal := [Fin 0; Fin 3; Fin 2; Fin 5].
Definition example_F (p x : R) : R := p * p + 1 * x.
Lemma example_samples : samples [1; 2] [-1; 1] example_table (fun p x => Fin (example_F p x)).
Proof.
  intros i j p x P X. destruct i as [|[|[|i]]]; try discriminate P; (destruct j as [|[|[|j]]]; try discriminate X); cbn in P, X |- *; injection P as <-; injection X as <-;
    unfold example_F; f_equal; f_equal; ring.
Qed.
Lemma example_points : forall a b, a < b -> ascending [a; b] /\ spacing (b - a) [a; b] /\ (forall x, a <= x <= b -> within [a; b] x).
Proof.
  intros a b H. split; [|split].
  - intros i j u v L U V. destruct i as [|[|i]], j as [|[|j]]; try lia; cbn in U, V; try discriminate; try (destruct j; discriminate); try (destruct i; discriminate). injection U as <-. injection V as <-. lra.
  - intros i u v U V. destruct i as [|[|i]]; cbn in U, V; try discriminate; try (destruct i; discriminate). injection U as <-. injection V as <-. lra.
  - intros x X. exists a, b. split; [reflexivity|]. split; [reflexivity|exact X].
Qed.
Example C120_example : exists spline m, bilinear spline /\ ms_initialize false false [1; 2] [-1; 1] example_table 0 = Ok m /\
  samples [1; 2] [-1; 1] example_table (fun p x => Fin (example_F p x)) /\ spacing 1 [1; 2] /\ spacing 2 [-1; 1] /\
  smooth 2 0 [1; 2] [-1; 1] example_F /\ within [1; 2] (3 / 2) /\ within [-1; 1] 0 /\
  ms_eval spline m (3 / 2) 0 = Some (example_F (3 / 2) 0 + (2 * 1 ^ 2 / 8 + 0 * 2 ^ 2 / 8)).
Proof.
  set (spline := fun (_ : bool) => gsl_bilinear). assert (BI : bilinear spline) by (intros xs ys z x y; reflexivity).
  destruct (example_points 1 2 ltac:(lra)) as (A1 & A2 & A3). destruct (example_points (-1) 1 ltac:(lra)) as (B1 & B2 & B3).
  assert (M : exists m, ms_initialize false false [1; 2] [-1; 1] example_table 0 = Ok m).
  { apply C57_grids. split; [split; [exact A1|cbn; lia]|]. split; [split; [exact B1|cbn; lia]|cbn; lia]. }
  destruct M as (m & E). exists spline, m. split; [exact BI|]. split; [exact E|]. split; [exact example_samples|].
  split; [replace 1 with (2 - 1) at 1 by ring; exact A2|]. split; [replace 2 with (1 - -1) by ring; exact B2|].
  split; [split; [intros a b x _ _ _; apply (bends_square a b (1 * x))|intros a b p _ _ _; apply (bends_line a b (p * p) 1)]|].
  split; [apply A3; lra|]. split; [apply B3; lra|].
  rewrite (C120_cell spline [1; 2] [-1; 1] example_table example_F m 0 0 1 2 (-1) 1 (3 / 2) 0 BI E example_samples eq_refl eq_refl eq_refl eq_refl ltac:(lra) ltac:(lra)).
  f_equal. unfold through, example_F. field.
Qed.

(** Two radii, one mode: f = r^2. *)
Definition at_radius (a : R) : code := Code 0 2 2 [1; 2] [a * a; a * a; 0; 0] (repeat None 2) None.
Example C120_gocode_example : exists itp go v, linear itp /\ gocode_eval itp (Gocode [1; 2] [at_radius 1; at_radius 2]) (3 / 2) 1 0 0 = Ok (go, Some v) /\
  Rabs (v - 3 / 2 * (3 / 2)) <= 2 * 1 ^ 2 / 8 + 0 * 1 ^ 2 / 8.
Proof.
  set (itp := fun (_ : Z) => gsl_linear). assert (LI : linear itp) by (intros xs ys x; reflexivity).
  destruct (example_points 1 2 ltac:(lra)) as (A1 & A2 & A3). replace (2 - 1) with 1 in A2 by ring.
  exists itp. destruct (C120_gocode itp [1; 2] [at_radius 1; at_radius 2] [] (Gocode [1; 2] [at_radius 1; at_radius 2]) (fun r _ _ => r * r) 2 0 1 1 (3 / 2) 1 0 0 LI A1) as (go & v & E & B).
  - cbn; lia.
  - cbn. injection. lra.
  - reflexivity.
  - intros k a c K C. assert (Q : c = at_radius a). { destruct k as [|[|k]]; cbn in K, C; [injection K as <-; injection C as <-; reflexivity|injection K as <-; injection C as <-; reflexivity|destruct k; discriminate]. }
    subst c. exists 2%nat, 2%nat, [1; 2], [a * a; a * a; 0; 0], (fun i _ => match i with O => a * a | S _ => 0 end), (fun _ => 0).
    split; [apply (two_ok 1 2 2); [lra|lia|cbn; lia]|]. split; [lia|]. split; [|split; [|split; [cbn [sum]; lra|split; [exact A2|split; [apply A3; lra|]]]]].
    + intros i j q I J _. destruct i as [|[|i]], j as [|[|j]]; try lia; reflexivity.
    + intros i u w _ _ _. destruct i as [|i].
      * exists (fun _ => 0), (fun _ => 0). intros x X. split; [apply derivable_pt_lim_const|]. split; [apply derivable_pt_lim_const|rewrite Rabs_R0; lra].
      * exists (fun _ => 0), (fun _ => 0). intros x X. split; [apply derivable_pt_lim_const|]. split; [apply derivable_pt_lim_const|rewrite Rabs_R0; lra].
    + cbn. rewrite Rmax_right; [ring|]. pose proof (pow2_ge_0 a). lra.
  - exact A2.
  - intros a b _ _. destruct (bends_square a b 0) as (g' & g'' & H). exists g', g''. intros x X. destruct (H x X) as (H1 & H2 & H3). split; [|split; assumption].
    apply (derivable_pt_lim_locally_ext (fun p => p * p + 0) _ x (x - 1) (x + 1)); [lra|intros; ring|exact H1].
  - replace (3 / 2 - 0) with (3 / 2) by ring. apply A3. lra.
  - lra.
  - reflexivity.
  - exists go, v. split; [exact LI|]. split; [exact E|]. replace (3 / 2 - 0) with (3 / 2) in B by ring. exact B.
Qed.
