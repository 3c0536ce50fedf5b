(** Theorems about the loaders of numeric distribution functions (C60, C86, C87, C88, C89). *)
From Coq Require Import Reals Lra Lia List.
From Verif Require Import Base DomainModel NumericModel NumericSpec NumericArrays DistributionModel DistributionSpec DistributionProofs DistributionBuild DistributionUse DistributionProps
  CodeModel CodeSpec GocodeProofs LoaderModel LoaderSpec LoaderProofs.
Import ListNotations.
Local Open Scope R_scope.

(** * C86: SOFT distribution functions *)
(** The tables of the file, each on its radius measured from the axis of symmetry. *)
Theorem C86_load : forall magic r groups rs p xi g axis lg it, soft_file magic r groups rs p xi g -> ascending rs ->
  (forall k, (k < length rs)%nat -> mesh it (p k) /\ mesh it (xi k)) ->
  exists o, soft_load magic r groups axis lg it = Ok o /\ distribution lg it o (map (fun x => x + axis) rs) p xi g.
Proof.
  intros magic r groups rs p xi g axis lg it F G O.
  destruct (collect_tables lg it (map (fun x => x + axis) rs) (soft_table groups) p xi g) as (o & E & D).
  - rewrite map_length. intros k K. destruct F as (_ & _ & _ & F). destruct (group_ok _ _ _ _ (F k K)) as (f & E & L & V). unfold soft_table. rewrite E.
    destruct (O k K) as [OP OX]. apply made_ok; [exact OP|exact OX|lia|exact V].
  - apply ascending_shift. exact G.
  - exists o. split; [|exact D]. unfold soft_load. rewrite (soft_raw_ok _ _ _ _ _ _ _ axis F). replace (increasing (map (fun x => x + axis) rs)) with true.
    + cbn [obind]. rewrite map_length in E. exact E.
    + symmetry. apply increasing_ok. apply ascending_shift. exact G.
Qed.
Print Assumptions C86_load.

(** What evaluation at one of the radii gives: the table of that radius alone. *)
Theorem C86_eval : forall spline lg it o rs p xi g, distribution lg it o rs p xi g -> ascending rs -> (2 <= length rs)%nat -> nth_error rs 0 <> Some 0 ->
  forall k r m q x, nth_error rs k = Some r -> nth_error (rd_ms o) k = Some (Some m) ->
    (forall k' m', nth_error (rd_ms o) k' = Some (Some m') -> ms_eval spline m' q x <> None) ->
    nd_eval spline o r q x 0 = Ok (ms_eval spline m q x).
Proof.
  intros spline lg it o rs p xi g (RR & LM & _ & EX & D) G L NZ k r m q x K M FIN.
  set (val := fun om : option msdf => match om with Some m => match ms_eval spline m q x with Some v => v | None => 0 end | None => 0 end).
  assert (V : forall k' om, nth_error (rd_ms o) k' = Some om -> ms_value spline om q x = Ok (Some (val om))).
  { intros k' om N. assert (Q : (k' < length rs)%nat) by (rewrite <- LM; apply nth_error_Some; rewrite N; discriminate). destruct (D k' Q) as (m' & N' & _).
    rewrite N in N'. injection N' as ->. unfold ms_value, val. pose proof (FIN k' m' N) as Z. destruct (ms_eval spline m' q x); [reflexivity|congruence]. }
  replace (ms_eval spline m q x) with (Some (val (Some m))).
  - apply (C55_tabulated _ _ o q x (map val (rd_ms o)) k r (val (Some m))); rewrite ?RR; try assumption.
    + lia.
    + unfold values. clear - V. revert V. generalize (rd_ms o) as l. intro l. induction l as [|a l IH]; intro V; [constructor|]. cbn [map]. constructor; [apply (V 0%nat); reflexivity|].
      apply IH. intros k' om N. apply (V (S k')). exact N.
    + rewrite nth_error_map, M. reflexivity.
  - pose proof (V k (Some m) M) as Q. unfold ms_value in Q. injection Q as Q. symmetry. exact Q.
Qed.
Print Assumptions C86_eval.

(** One radius by itself. *)
Theorem C86_momentum : forall magic r groups rs p xi g axis lg it k, soft_file magic r groups rs p xi g -> ascending rs -> (k < length rs)%nat -> mesh it (p k) -> mesh it (xi k) ->
  (lg = true -> forall i j, (i < length (p k))%nat -> (j < length (xi k))%nat -> 0 <= g k i j) ->
  exists m, soft_momentum magic r groups axis lg k it = Ok m /\ holds_table lg it m (p k) (xi k) (g k).
Proof.
  intros magic r groups rs p xi g axis lg it k F G K OP OX P. pose proof F as (_ & _ & _ & FG). destruct (group_ok _ _ _ _ (FG k K)) as (f & E & L & V).
  destruct (made_ok lg it (p k) (xi k) f (g k) OP OX ltac:(lia) V) as (m & M & H). exists m. split; [|exact H].
  unfold soft_momentum. rewrite (soft_raw_ok _ _ _ _ _ _ _ axis F). replace (increasing (map (fun x => x + axis) rs)) with true by (symmetry; apply increasing_ok, ascending_shift; exact G). cbn [obind].
  assert (N : exists x, nth_error (combine (map (fun x => x + axis) rs) (map (soft_table groups) (seq 0 (length rs)))) k = Some (x, Table (p k) (xi k) f)).
  { destruct (nth_error (map (fun x => x + axis) rs) k) as [x|] eqn:X; [|apply nth_error_None in X; rewrite map_length in X; lia]. exists x.
    rewrite nth_combine, X, nth_map_seq by exact K. unfold soft_table. rewrite E. reflexivity. }
  destruct N as (x & N). rewrite N. apply momentum_made; [exact M|cbn [t_p t_xi t_f]; lia|]. cbn [t_p t_xi t_f]. intros LG i v I Q.
  destruct (table_value f _ _ i (g k) I V) as (a & b & A & B & W). rewrite Q in W. injection W as ->. apply (P LG); assumption.
Qed.
Print Assumptions C86_momentum.

(** Reading one radius with logarithms refuses negative values, which reading all of them does
    not (C86_load). *)
Theorem C86_negative : forall magic r groups rs p xi g axis it k i j, soft_file magic r groups rs p xi g -> ascending rs -> (k < length rs)%nat ->
  (i < length (p k))%nat -> (j < length (xi k))%nat -> g k i j < 0 -> soft_momentum magic r groups axis true k it = Throw.
Proof.
  intros magic r groups rs p xi g axis it k i j F G K I J N. pose proof F as (_ & _ & _ & FG). destruct (group_ok _ _ _ _ (FG k K)) as (f & E & L & V).
  unfold soft_momentum. rewrite (soft_raw_ok _ _ _ _ _ _ _ axis F). replace (increasing (map (fun x => x + axis) rs)) with true by (symmetry; apply increasing_ok, ascending_shift; exact G). cbn [obind].
  destruct (nth_error (map (fun x => x + axis) rs) k) as [x|] eqn:X; [|apply nth_error_None in X; rewrite map_length in X; lia].
  rewrite nth_combine, X, nth_map_seq by exact K. unfold soft_table. rewrite E. unfold momentum. cbn [t_p t_xi t_f]. unfold ms_initialize_log.
  rewrite (log_table_throw _ f (j * length (p k) + i) (g k i j)); [reflexivity|apply V; assumption| |lia|exact N].
  assert ((S j) * length (p k) <= length (xi k) * length (p k))%nat by (apply Nat.mul_le_mono_r; lia). lia.
Qed.
Print Assumptions C86_negative.

(** Radii that are not in the file are refused. *)
Theorem C86_range : forall magic r groups rs p xi g axis lg it k, soft_file magic r groups rs p xi g -> ascending rs -> (length rs <= k)%nat ->
  soft_momentum magic r groups axis lg k it = Throw.
Proof.
  intros magic r groups rs p xi g axis lg it k F G K. unfold soft_momentum. rewrite (soft_raw_ok _ _ _ _ _ _ _ axis F).
  replace (increasing (map (fun x => x + axis) rs)) with true by (symmetry; apply increasing_ok, ascending_shift; exact G). cbn [obind].
  replace (nth_error (combine (map (fun x => x + axis) rs) (map (soft_table groups) (seq 0 (length rs)))) k) with (@None (R * table)); [reflexivity|].
  symmetry. apply nth_error_None. rewrite combine_length, !map_length, seq_length. lia.
Qed.
Print Assumptions C86_range.

(** Malformed files are refused. *)
Theorem C86_refused : forall magic r groups axis lg it,
  magic = Some false \/ no_vector r \/
  (exists rs k, vector r rs /\ (k < length rs)%nat /\ bad_group (groups k) /\ forall k', (k' < k)%nat -> exists p xi g, group (groups k') p xi g) \/
  (exists rs p xi g, soft_file magic r groups rs p xi g /\ ~ ascending rs) ->
  soft_load magic r groups axis lg it = Throw /\ forall i, soft_momentum magic r groups axis lg i it = Throw.
Proof.
  intros magic r groups axis lg it H. enough (E : soft_raw magic r groups axis = Throw) by (unfold soft_load, soft_momentum; rewrite E; split; reflexivity).
  destruct H as [->|[V|[(rs & k & V & K & B & P)|(rs & p & xi & g & F & G)]]].
  - reflexivity.
  - unfold soft_raw. apply no_vector_throw in V. destruct magic as [[|]|]; try reflexivity; destruct r as [m|]; try reflexivity; cbn [need obind] in *; rewrite V; reflexivity.
  - unfold soft_raw. destruct (vector_ok _ _ V) as (m & -> & L & _). cbn [need obind]. rewrite L. cbn [obind].
    rewrite (fill_throw _ _ (fun i => soft_radius (groups i)) k K).
    + destruct magic as [[|]|]; reflexivity.
    + apply bad_group_throw. exact B.
    + intros j J. destruct (P j J) as (p & xi & g & Q). destruct (group_ok _ _ _ _ Q) as (f & E & _). eexists. exact E.
  - rewrite (soft_raw_ok _ _ _ _ _ _ _ axis F). destruct (increasing (map (fun x => x + axis) rs)) eqn:E; [|reflexivity]. exfalso. apply G. apply increasing_ok in E. apply ascending_shift in E. exact E.
Qed.
Print Assumptions C86_refused.

(** Arrays without rows end the program: the radii, or the first table that has none. *)
Theorem C86_no_rows : forall magic r groups axis lg it, magic <> Some false ->
  (no_rows r /\ vector r []) \/
  (exists rs k p xi, vector r rs /\ (k < length rs)%nat /\ vector (sg_p (groups k)) p /\ vector (sg_xi (groups k)) xi /\ no_rows (sg_f (groups k)) /\
    forall k', (k' < k)%nat -> exists p xi g, group (groups k') p xi g) ->
  soft_load magic r groups axis lg it = UB /\ forall i, soft_momentum magic r groups axis lg i it = UB.
Proof.
  intros magic r groups axis lg it M H. enough (E : soft_raw magic r groups axis = UB) by (unfold soft_load, soft_momentum; rewrite E; split; reflexivity).
  destruct H as [[(m & -> & Z) V]|(rs & k & p & xi & V & K & VP & VX & (m & F & Z) & P)].
  - destruct (vector_ok _ _ V) as (m' & E & L & _). injection E as <-. cbn [length] in L. unfold soft_raw. cbn [need obind]. rewrite L. cbn [obind]. change (fill 0 (fun i => soft_radius (groups i))) with (@Ok (list table) []). cbn [obind].
    rewrite (release_none m Z). destruct magic as [[|]|]; try reflexivity. congruence.
  - destruct (vector_ok _ _ V) as (a & -> & L & _). unfold soft_raw. cbn [need obind]. rewrite L. cbn [obind]. rewrite (fill_ub _ _ (fun i => soft_radius (groups i)) k K).
    + destruct magic as [[|]|]; try reflexivity. congruence.
    + unfold soft_radius. rewrite (read_vector_ok _ _ VP), (read_vector_ok _ _ VX), F. cbn [need obind]. rewrite (release_none m Z). reflexivity.
    + intros j J. destruct (P j J) as (p' & xi' & g & Q). destruct (group_ok _ _ _ _ Q) as (f & E & _). eexists. exact E.
Qed.
Print Assumptions C86_no_rows.
(** A file without radii and one with an empty table. *)
Example C86_no_rows_example : soft_load None (Some (MArray 0 1 [])) (fun _ => SGroup None None None) 1 false 0 = UB /\
  soft_load None (Some (MArray 1 1 [1])) (fun _ => SGroup (Some (MArray 1 1 [1])) (Some (MArray 1 1 [1])) (Some (MArray 0 0 []))) 1 false 0 = UB.
Proof.
  assert (V : vector (Some (MArray 1 1 [1])) [1]) by (eexists; split; [reflexivity|left]; repeat split; intros [|j] [|i] J I; try (cbn in *; lia); reflexivity).
  split; refine (proj1 (C86_no_rows _ _ _ _ _ _ _ _)); try discriminate.
  - left. split; [eexists; split; reflexivity|]. eexists. split; [reflexivity|right]. repeat split. intros [|j] i J I; cbn in J; lia.
  - right. exists [1], 0%nat, [1], [1]. split; [exact V|]. split; [cbn; lia|]. split; [exact V|]. split; [exact V|]. split; [eexists; split; reflexivity|]. intros k K. lia.
Qed.

(** Two radii with tables of different sizes. *)
Lemma vector2 : forall a b, vector (Some (MArray 1 2 [a; b])) [a; b].
Proof.
  intros a b. eexists. split; [reflexivity|]. left. repeat split. intros [|j] [|[|i]] J I; try (cbn in *; lia); reflexivity.
Qed.
Lemma vector2c : forall a b, vector (Some (MArray 2 1 [a; b])) [a; b].
Proof.
  intros a b. eexists. split; [reflexivity|]. right. repeat split. intros [|[|j]] [|i] J I; try (cbn in *; lia); reflexivity.
Qed.
Lemma vector3 : forall a b c, vector (Some (MArray 1 3 [a; b; c])) [a; b; c].
Proof.
  intros a b c. eexists. split; [reflexivity|]. left. repeat split. intros [|j] [|[|[|i]]] J I; try (cbn in *; lia); reflexivity.
Qed.
Definition example_groups (k : nat) : sgroup :=
  match k with
  | O => SGroup (Some (MArray 1 3 [1; 2; 3])) (Some (MArray 2 1 [-1; 1])) (Some (MArray 2 3 [10; 11; 12; 13; 14; 15]))
  | _ => SGroup (Some (MArray 1 2 [1; 2])) (Some (MArray 1 2 [-1; 1])) (Some (MArray 2 2 [-20; 21; 22; 23]))
  end.
Definition example_p (k : nat) : list R := match k with O => [1; 2; 3] | _ => [1; 2] end.
Definition example_table (k i j : nat) : R := match k with O => nth (j * 3 + i) [10; 11; 12; 13; 14; 15] 0 | _ => nth (j * 2 + i) [-20; 21; 22; 23] 0 end.
Lemma example_file : soft_file None (Some (MArray 2 1 [1; 2])) example_groups [1; 2] example_p (fun _ => [-1; 1]) example_table.
Proof.
  split; [discriminate|]. split; [discriminate|]. split; [apply vector2c|]. intros [|[|k]] K; [| |cbn in K; lia].
  - split; [discriminate|]. split; [discriminate|]. split; [apply vector3|]. split; [apply vector2c|]. eexists. split; [reflexivity|]. repeat split. intros [|[|j]] [|[|[|i]]] J I; try (cbn in *; lia); reflexivity.
  - split; [discriminate|]. split; [discriminate|]. split; [apply vector2|]. split; [apply vector2|]. eexists. split; [reflexivity|]. repeat split. intros [|[|j]] [|[|i]] J I; try (cbn in *; lia); reflexivity.
Qed.
Example C86_example : exists o, soft_load None (Some (MArray 2 1 [1; 2])) example_groups 6 false 0 = Ok o /\
  distribution false 0 o [1 + 6; 2 + 6] example_p (fun _ => [-1; 1]) example_table /\
  nd_eval first_value o (1 + 6) 1 0 0 = Ok (Some 10) /\ nd_eval first_value o (2 + 6) 1 0 0 = Ok (Some (-20)).
Proof.
  assert (O : forall k, (k < length [1; 2])%nat -> mesh 0 (example_p k) /\ mesh 0 [-1; 1]).
  { intros [|[|k]] K; [| |cbn in K; lia]; (split; [|apply grid_two; lra]); [split; [apply asc3; lra|cbn; lia]|apply grid_two; lra]. }
  assert (G : ascending [1; 2]) by (apply asc2; lra).
  destruct (C86_load _ _ _ _ _ _ _ 6 false 0 example_file G O) as (o & E & D). exists o. split; [exact E|]. split; [exact D|].
  assert (V : forall k m, nth_error (rd_ms o) k = Some (Some m) -> (k < 2)%nat /\ ms_eval first_value m 1 0 = Some (example_table k 0 0)).
  { intros k m M. destruct D as (_ & LM & _ & _ & D). assert (K : (k < 2)%nat) by (change 2%nat with (length (map (fun x : R => (x + 6)%R) [1%R; 2%R])); rewrite <- LM; apply nth_error_Some; rewrite M; discriminate).
    split; [exact K|]. destruct (D k K) as (m' & M' & H). rewrite M in M'. injection M' as <-. destruct H as (H1 & H2 & H3 & H4 & H5 & (H6 & H7 & _) & (H8 & H9 & _) & _ & H10).
    unfold ms_eval. rewrite H3, H4. assert (PP : ms_pmin m = 1 /\ 1 <= ms_pmax m).
    { destruct k as [|[|k]]; [| |cbn in K; lia]; cbn in H6, H7; injection H6 as <-; injection H7 as <-; lra. }
    cbn in H8, H9. injection H8 as <-. injection H9 as <-. destruct PP as [-> PP].
    replace (Rltb 1 1) with false by (symmetry; apply Rltb_f; lra). replace (Rltb (ms_pmax m) 1) with false by (symmetry; apply Rltb_f; lra).
    replace (Rltb 0 (-1)) with false by (symmetry; apply Rltb_f; lra). replace (Rltb 1 0) with false by (symmetry; apply Rltb_f; lra). cbn [orb].
    unfold first_value. specialize (H10 0%nat 0%nat). destruct k as [|[|k]]; [| |cbn in K; lia]; specialize (H10 ltac:(cbn; lia) ltac:(cbn; lia)); cbn [Nat.mul Nat.add] in H10;
      destruct (ms_f m) as [|v l]; try discriminate; cbn in H10; injection H10 as ->; reflexivity. }
  assert (GS : ascending (map (fun x => x + 6) [1; 2])) by (apply ascending_shift; exact G).
  assert (NZ : nth_error (map (fun x => x + 6) [1; 2]) 0 <> Some 0) by (cbn; intro Q; injection Q; lra).
  assert (FIN : forall k' m', nth_error (rd_ms o) k' = Some (Some m') -> ms_eval first_value m' 1 0 <> None) by (intros k' m' M; destruct (V k' m' M) as [_ ->]; discriminate).
  pose proof D as (_ & LM & _ & _ & DD).
  destruct (DD 0%nat ltac:(cbn; lia)) as (m0 & M0 & _). destruct (DD 1%nat ltac:(cbn; lia)) as (m1 & M1 & _). split.
  - rewrite (C86_eval first_value _ _ _ _ _ _ _ D GS (le_n _) NZ 0%nat (1 + 6) m0 1 0 eq_refl M0 FIN). destruct (V _ _ M0) as [_ ->]. reflexivity.
  - rewrite (C86_eval first_value _ _ _ _ _ _ _ D GS (le_n _) NZ 1%nat (2 + 6) m1 1 0 eq_refl M1 FIN). destruct (V _ _ M1) as [_ ->]. reflexivity.
Qed.

(** * C60, C87: DREAM distribution functions *)
(** Sizes and time indices for which the 64-bit index arithmetic is exact. *)
Definition in_memory (nt n : nat) (time : Z) : Prop := (n <> 0)%nat /\ (Z.of_nat n * (Z.of_nat nt + 2 ^ 31) < 2 ^ 64)%Z /\ (- 2 ^ 31 <= time < 2 ^ 31)%Z.
(** The tables of the selected slice, with radii measured from the axis of symmetry. *)
Theorem C60_dream : forall d axis distname name grid nt r p xi g time t lg it, selects d distname name -> grid_of name grid -> dream_file d name grid nt r p xi g ->
  in_memory nt (length r * length p * length xi) time -> slice_of nt time t -> ascending r -> mesh it p -> mesh it xi ->
  exists o, dream_load d axis distname time lg it = Ok o /\ distribution lg it (dd_dist o) (map (fun x => x + axis) r) (fun _ => p) (fun _ => xi) (g t).
Proof.
  intros d axis distname name grid nt r p xi g time t lg it SE GR F (N1 & N2 & N3) (T & TT) G OP OX. destruct (dream_raw_ok d axis distname time name grid nt r p xi g SE GR F) as (f & FF & E).
  destruct F as (_ & _ & _ & _ & f' & F' & LF & V). rewrite FF in F'. injection F' as <-.
  rewrite (time_index_ok _ _ _ N1 N2 N3) in E. cbn zeta in E.
  replace (if (time <? 0)%Z then (Z.of_nat nt + time)%Z else time) with (Z.of_nat t) in E by (destruct (Z.ltb_spec time 0); lia).
  replace ((0 <=? Z.of_nat t) && (Z.of_nat t <=? Z.of_nat nt))%Z%bool with true in E by (symmetry; apply andb_true_iff; split; apply Z.leb_le; lia).
  rewrite (proj2 (increasing_ok (map (fun v => v + axis) r))) in E by (apply ascending_shift; exact G).
  rewrite <- Nat2Z.inj_mul, Nat2Z.id in E.
  destruct (collect_tables lg it (map (fun x => x + axis) r) (fun i => Table p xi (skipn (t * (length r * length p * length xi) + i * (length p * length xi)) f)) (fun _ => p) (fun _ => xi) (g t)) as (o & E1 & D).
  - rewrite map_length. intros k K. apply (slice_tables lg it f r p xi nt g t k T K OP OX LF V).
  - apply ascending_shift. exact G.
  - exists (DreamDF o (Z.of_nat (t * (length r * length p * length xi)))). split; [|exact D]. unfold dream_load. rewrite E. cbn [obind fst snd]. rewrite E1. reflexivity.
Qed.
Print Assumptions C60_dream.
(** Indices outside the file are refused, except for the number of slices itself. *)
Theorem C60_dream_refused : forall d axis distname name grid nt r p xi g time lg it, selects d distname name -> grid_of name grid -> dream_file d name grid nt r p xi g ->
  in_memory nt (length r * length p * length xi) time -> (time < - Z.of_nat nt \/ Z.of_nat nt < time)%Z -> dream_load d axis distname time lg it = Throw.
Proof.
  intros d axis distname name grid nt r p xi g time lg it SE GR F (N1 & N2 & N3) TT. destruct (dream_raw_ok d axis distname time name grid nt r p xi g SE GR F) as (f & FF & E).
  unfold dream_load. rewrite E, (time_index_ok _ _ _ N1 N2 N3). cbn zeta.
  replace ((0 <=? (if (time <? 0)%Z then (Z.of_nat nt + time)%Z else time)) && ((if (time <? 0)%Z then (Z.of_nat nt + time)%Z else time) <=? Z.of_nat nt))%Z%bool with false; [reflexivity|].
  symmetry. apply andb_false_iff. destruct (Z.ltb_spec time 0); [left; apply Z.leb_gt; lia|right; apply Z.leb_gt; lia].
Qed.
Print Assumptions C60_dream_refused.
(** That one reads behind the table. *)
Theorem C60_dream_end : forall d axis distname name grid nt r p xi g lg it, selects d distname name -> grid_of name grid -> dream_file d name grid nt r p xi g ->
  in_memory nt (length r * length p * length xi) (Z.of_nat nt) -> ascending r -> mesh it p -> mesh it xi -> dream_load d axis distname (Z.of_nat nt) lg it = UB.
Proof.
  intros d axis distname name grid nt r p xi g lg it SE GR F (N1 & N2 & N3) G OP OX. destruct (dream_raw_ok d axis distname (Z.of_nat nt) name grid nt r p xi g SE GR F) as (f & FF & E).
  destruct F as (_ & _ & _ & _ & f' & F' & LF & V). rewrite FF in F'. injection F' as <-.
  rewrite (time_index_ok _ _ _ N1 N2 N3) in E. cbn zeta in E. replace (Z.of_nat nt <? 0)%Z with false in E by (symmetry; apply Z.ltb_ge; lia).
  replace ((0 <=? Z.of_nat nt) && (Z.of_nat nt <=? Z.of_nat nt))%Z%bool with true in E by (symmetry; apply andb_true_iff; split; apply Z.leb_le; lia).
  rewrite (proj2 (increasing_ok (map (fun v => v + axis) r))) in E by (apply ascending_shift; exact G). rewrite <- Nat2Z.inj_mul, Nat2Z.id in E.
  unfold dream_load. rewrite E. cbn [obind fst snd]. destruct r as [|x r]; [cbn in N1; lia|]. cbn [map length seq combine]. rewrite insert_cons.
  destruct (insert_one_ub lg it rd_new (x + axis) (Table p xi (skipn (nt * (length (x :: r) * length p * length xi) + 0 * (length p * length xi)) f))) as (o' & W).
  - apply made_short; try assumption. rewrite skipn_length, LF. cbn [length] in N1 |- *. destruct (length p * length xi)%nat eqn:Z; [exfalso; apply N1; rewrite <- Nat.mul_assoc, Z; lia|].
    replace (S (length r) * length p * length xi)%nat with (S (length r) * (length xi * length p))%nat by lia. lia.
  - reflexivity.
  - exact I.
  - intros [|j] a J; discriminate J.
  - cbn [length] in W. rewrite W. reflexivity.
Qed.
Print Assumptions C60_dream_end.

(** The names. *)
Theorem C87_name : forall d axis distname time lg it, (forall name, ~ selects d distname name) -> dream_load d axis distname time lg it = Throw.
Proof. intros d axis distname time lg it H. unfold dream_load, dream_raw. rewrite (name_no _ _ H). reflexivity. Qed.
Print Assumptions C87_name.
Theorem C87_grid : forall d axis distname name time lg it, selects d distname name -> (forall grid, ~ grid_of name grid) -> dream_load d axis distname time lg it = Throw.
Proof. intros d axis distname name time lg it H G. unfold dream_load, dream_raw. rewrite (name_ok _ _ _ H). cbn [obind]. rewrite (grid_no _ G). reflexivity. Qed.
Print Assumptions C87_grid.
(** A name selects at most one distribution, and that has at most one grid. *)
Theorem C87_unique : forall d distname n1 n2 g1 g2, selects d distname n1 -> selects d distname n2 -> grid_of n1 g1 -> grid_of n2 g2 -> n1 = n2 /\ g1 = g2.
Proof.
  intros d distname n1 n2 g1 g2 S1 S2 G1 G2. apply name_ok in S1. apply name_ok in S2. rewrite S1 in S2. injection S2 as <-. split; [reflexivity|].
  apply grid_ok in G1. apply grid_ok in G2. rewrite G1 in G2. injection G2 as <-. reflexivity.
Qed.
Print Assumptions C87_unique.
(** Missing grids and tables of the wrong size are refused, and so are radii out of order. *)
Theorem C87_refused : forall d axis distname name grid time lg it, selects d distname name -> grid_of name grid ->
  (dr_array d name = None \/ dr_vec d "/grid/t" = None \/ dr_vec d "/grid/r" = None \/ dr_vec d (String.append grid "/p1") = None \/ dr_vec d (String.append grid "/p2") = None \/
   exists t r p xi dims f, dr_vec d "/grid/t" = Some t /\ dr_vec d "/grid/r" = Some r /\ dr_vec d (String.append grid "/p1") = Some p /\ dr_vec d (String.append grid "/p2") = Some xi /\
     dr_array d name = Some (dims, f) /\ ((forall n, dims <> [n; length r; length xi; length p]) \/ ~ ascending r)) ->
  dream_load d axis distname time lg it = Throw.
Proof.
  intros d axis distname name grid time lg it SE GR H. enough (E : dream_raw d axis distname time = Throw) by (unfold dream_load; rewrite E; reflexivity).
  unfold dream_raw. rewrite (name_ok _ _ _ SE). cbn [obind]. rewrite (grid_ok _ _ GR). cbn [obind]. destruct (dr_array d name) as [[dims f]|] eqn:FF; [|reflexivity]. cbn [need obind fst snd].
  destruct H as [H|[->|[R0|[P1|[P2|(t & r & p & xi & dims' & f' & T & R0 & P1 & P2 & F & H)]]]]].
  - discriminate H.
  - reflexivity.
  - rewrite R0. destruct (dr_vec d "/grid/t"); reflexivity.
  - rewrite P1. destruct (dr_vec d "/grid/t"); [|reflexivity]. destruct (dr_vec d "/grid/r"); reflexivity.
  - rewrite P2. destruct (dr_vec d "/grid/t"); [|reflexivity]. destruct (dr_vec d "/grid/r"); [|reflexivity]. destruct (dr_vec d (String.append grid "/p1")); reflexivity.
  - injection F as -> ->. rewrite T, R0, P1, P2. cbn [need obind]. destruct dims' as [|a0 [|a1 [|a2 [|a3 [|a4 dims]]]]]; try reflexivity.
    destruct ((a1 =? length r) && (a2 =? length xi) && (a3 =? length p))%nat%bool eqn:Q; [|reflexivity].
    apply andb_true_iff in Q. destruct Q as [Q Q3]. apply andb_true_iff in Q. destruct Q as [Q1 Q2]. apply Nat.eqb_eq in Q1, Q2, Q3. subst. destruct H as [H|H]; [congruence|].
    destruct (time_index _ _ _); [|reflexivity]. rewrite monotone_up. destruct (increasing (map (fun v => v + axis) r)) eqn:I; [|reflexivity]. exfalso. apply H. apply increasing_ok in I. apply ascending_shift in I. exact I.
Qed.
Print Assumptions C87_refused.
(** The object can only be destroyed if it was loaded from the first slice. *)
Theorem C87_destroy : forall d axis distname name grid nt r p xi g time t lg it o, selects d distname name -> grid_of name grid -> dream_file d name grid nt r p xi g ->
  in_memory nt (length r * length p * length xi) time -> slice_of nt time t -> dream_load d axis distname time lg it = Ok o ->
  dream_destroy o = if Nat.eqb t 0 then Ok tt else UB.
Proof.
  intros d axis distname name grid nt r p xi g time t lg it o SE GR F (N1 & N2 & N3) (T & TT) L. destruct (dream_raw_ok d axis distname time name grid nt r p xi g SE GR F) as (f & FF & E).
  rewrite (time_index_ok _ _ _ N1 N2 N3) in E. cbn zeta in E.
  replace (if (time <? 0)%Z then (Z.of_nat nt + time)%Z else time) with (Z.of_nat t) in E by (destruct (Z.ltb_spec time 0); lia).
  replace ((0 <=? Z.of_nat t) && (Z.of_nat t <=? Z.of_nat nt))%Z%bool with true in E by (symmetry; apply andb_true_iff; split; apply Z.leb_le; lia).
  unfold dream_load in L. rewrite E in L. destruct (increasing (map (fun v => v + axis) r)); [|discriminate]. cbn [obind fst snd] in L.
  destruct (insert_tables lg it rd_new _) as [o'| |]; try discriminate. cbn [obind] in L. injection L as <-. unfold dream_destroy. cbn [dd_offset].
  destruct (Nat.eqb_spec t 0) as [->|N]; [reflexivity|]. replace (Z.of_nat t * Z.of_nat (length r * length p * length xi) =? 0)%Z with false; [reflexivity|].
  symmetry. apply Z.eqb_neq. nia.
Qed.
Print Assumptions C87_destroy.

(** A file with two slices. *)
Definition example_dream : dream :=
  Dream (fun s => String.eqb s "/eqsys/f_hot") (fun s => if String.eqb s "/eqsys/f_hot" then Some ([2; 2; 2; 2]%nat, map INR (seq 0 16)) else None)
        (fun s => if String.eqb s "/grid/t" then Some [0; 1] else if String.eqb s "/grid/r" then Some [1; 2] else
                  if String.eqb s "/grid/hottail/p1" then Some [1; 2] else if String.eqb s "/grid/hottail/p2" then Some [-1; 1] else None).
Lemma example_dream_file : dream_file example_dream "/eqsys/f_hot" "/grid/hottail" 2 [1; 2] [1; 2] [-1; 1] (fun t k i j => INR (((t * 2 + k) * 2 + j) * 2 + i)).
Proof.
  split; [exists [0; 1]; split; reflexivity|]. repeat (split; [reflexivity|]). exists (map INR (seq 0 16)). split; [reflexivity|]. split; [reflexivity|].
  intros t k j i T K J I. cbn [length] in *. apply nth_map_seq. lia.
Qed.
Lemma example_selects : forall s, s = EmptyString \/ s = "f_hot"%string \/ s = "/eqsys/f_hot"%string -> selects example_dream s "/eqsys/f_hot".
Proof.
  intros s [->|[->| ->]]; (split; [reflexivity|]); [right; split; [reflexivity|right; split; reflexivity]|left; split; [discriminate|reflexivity]|left; split; [discriminate|reflexivity]].
Qed.
Lemma example_grid : grid_of "/eqsys/f_hot" "/grid/hottail".
Proof. right. split; [exists "/eqsys/"%string; reflexivity|reflexivity]. Qed.
Lemma example_memory : forall time, (- 10 <= time <= 10)%Z -> in_memory 2 (length [1; 2] * length [1; 2] * length [-1; 1]) time.
Proof. intros time H. unfold in_memory. cbn [length]. split; [discriminate|]. split; [reflexivity|lia]. Qed.
Lemma pitches : mesh 0 [-1; 1]. Proof. apply grid_two. lra. Qed.
Lemma momenta : mesh 0 [1; 2]. Proof. apply grid_two. lra. Qed.
Example C60_dream_example : exists o, dream_load example_dream 5 EmptyString (-1) false 0 = Ok o /\
  distribution false 0 (dd_dist o) [1 + 5; 2 + 5] (fun _ => [1; 2]) (fun _ => [-1; 1]) (fun k i j => INR (((1 * 2 + k) * 2 + j) * 2 + i)) /\ dream_destroy o = UB.
Proof.
  assert (S : slice_of 2 (-1) 1) by (split; [lia|right; lia]).
  destruct (C60_dream example_dream 5 EmptyString _ _ _ _ _ _ _ (-1) 1 false 0 (example_selects EmptyString (or_introl eq_refl)) example_grid example_dream_file (example_memory (-1) ltac:(lia)) S
    (asc2 1 2 ltac:(lra)) momenta pitches) as (o & E & D).
  exists o. split; [exact E|]. split; [exact D|].
  exact (C87_destroy example_dream 5 EmptyString _ _ _ _ _ _ _ (-1) 1 false 0 o (example_selects EmptyString (or_introl eq_refl)) example_grid example_dream_file (example_memory (-1) ltac:(lia)) S E).
Qed.
(** Not every index outside the file is refused. *)
Theorem C60_dream_refuted : ~ (forall d axis distname name grid nt r p xi g time lg it, selects d distname name -> grid_of name grid -> dream_file d name grid nt r p xi g ->
  in_memory nt (length r * length p * length xi) time -> (time < - Z.of_nat nt \/ Z.of_nat nt <= time)%Z -> dream_load d axis distname time lg it = Throw).
Proof.
  intro H. assert (Q := H example_dream 5 "f_hot"%string _ _ _ _ _ _ _ 2%Z false 0%Z (example_selects "f_hot" (or_intror (or_introl eq_refl))) example_grid example_dream_file (example_memory 2 ltac:(lia)) ltac:(right; lia)).
  assert (U := C60_dream_end example_dream 5 "f_hot" _ _ 2 _ _ _ _ false 0 (example_selects "f_hot" (or_intror (or_introl eq_refl))) example_grid example_dream_file (example_memory 2 ltac:(lia)) (asc2 1 2 ltac:(lra)) momenta pitches). change (Z.of_nat 2) with 2%Z in U. rewrite U in Q.
  discriminate Q.
Qed.
Print Assumptions C60_dream_refuted.
(** Not every object that was loaded can be destroyed. *)
Theorem C87_destroy_refuted : ~ (forall d axis distname time lg it o, dream_load d axis distname time lg it = Ok o -> dream_destroy o = Ok tt).
Proof. intro H. destruct C60_dream_example as (o & E & _ & U). rewrite (H _ _ _ _ _ _ _ E) in U. discriminate U. Qed.
Print Assumptions C87_destroy_refuted.
Example C87_example : (forall name, ~ selects example_dream "f_re" name) /\ selects example_dream "f_hot" "/eqsys/f_hot" /\ (forall grid, ~ grid_of "/eqsys/n_re" grid).
Proof.
  split; [|split].
  - intros name [P [[_ ->]|[Q _]]]; [discriminate P|discriminate Q].
  - apply example_selects. right. left. reflexivity.
  - intros grid G. apply grid_ok in G. discriminate G.
Qed.

(** * C88: LUKE distribution functions *)
(** The grids of the distribution: radii from the magnetic axis to the edge, momenta in units
    of the thermal one. *)
Definition luke_radii (x : list R) (minr maxr : R) : list R := map (fun x => minr + x * (maxr - minr)) x.
Definition luke_momenta (p : list R) (beta : R) : list R := map (fun q => q * beta) p.
Lemma luke_raw_ok : forall l x p beta xi g minr maxr, luke_file l x p beta xi g ->
  exists f, luke_raw l minr maxr = Ok (Block (luke_radii x minr maxr) (luke_momenta p beta) xi f) /\ block_of f (length x) (length p) (length xi) g.
Proof.
  intros l x p beta xi g minr maxr (N1 & N2 & N3 & V1 & V2 & N & V3 & f & F & B). exists f. split; [|exact B]. unfold luke_raw.
  rewrite (read_vector_ok _ _ V1), (read_vector_ok _ _ V2), (read_vector_ok _ _ V3), F. destruct (number_ok _ _ N) as (m & -> & SC). cbn [obind need]. rewrite SC. cbn [obind fst snd].
  rewrite !Nat.eqb_refl. cbn [negb orb]. rewrite (first_row_ok _ _ V1 N1), (first_row_ok _ _ V2 N2), (first_row_ok _ _ V3 N3). reflexivity.
Qed.
Lemma radii_ascending : forall x minr maxr, ascending x -> minr < maxr -> ascending (luke_radii x minr maxr).
Proof.
  intros x minr maxr G L i j a b IJ A B. unfold luke_radii in *. rewrite nth_error_map in A, B. destruct (nth_error x i) as [u|] eqn:U; [|discriminate]. destruct (nth_error x j) as [v|] eqn:V; [|discriminate].
  injection A as <-. injection B as <-. pose proof (G i j u v IJ U V). apply Rplus_lt_compat_l. apply Rmult_lt_compat_r; lra.
Qed.
Lemma mesh_scaled : forall it p c, mesh it p -> 0 < c -> mesh it (map (fun q => q * c) p).
Proof.
  intros it p c (A & L) H. split; [|rewrite map_length; exact L]. intros i j a b IJ U V. rewrite nth_error_map in U, V.
  destruct (nth_error p i) as [u|] eqn:EU; [|discriminate]. destruct (nth_error p j) as [v|] eqn:EV; [|discriminate]. injection U as <-. injection V as <-.
  apply Rmult_lt_compat_r; [exact H|]. exact (A i j u v IJ EU EV).
Qed.
(** One radius by itself. *)
Theorem C88_momentum : forall l x p beta xi g minr maxr lg it k, luke_file l x p beta xi g -> mesh it p -> mesh it xi -> 0 < beta -> (k < length x)%nat ->
  (lg = true -> forall i j, (i < length p)%nat -> (j < length xi)%nat -> 0 <= g k i j) ->
  exists m, luke_momentum l minr maxr lg k it = Ok m /\ holds_table lg it m (luke_momenta p beta) xi (g k).
Proof.
  intros l x p beta xi g minr maxr lg it k F OP OX H K P. destruct (luke_raw_ok l x p beta xi g minr maxr F) as (f & E & B). unfold luke_momentum. rewrite E. cbn [obind].
  apply block_momentum_ok; unfold luke_radii, luke_momenta; rewrite ?map_length; try assumption. exact (mesh_scaled it p beta OP H).
Qed.
Print Assumptions C88_momentum.
Theorem C88_range : forall l x p beta xi g minr maxr lg it k, luke_file l x p beta xi g -> (length x <= k)%nat -> luke_momentum l minr maxr lg k it = Throw.
Proof.
  intros l x p beta xi g minr maxr lg it k F K. destruct (luke_raw_ok l x p beta xi g minr maxr F) as (f & E & B). unfold luke_momentum. rewrite E. cbn [obind]. unfold block_momentum. cbn [b_r].
  unfold luke_radii. rewrite map_length. replace (length x <=? k)%nat with true by (symmetry; apply Nat.leb_le; exact K). reflexivity.
Qed.
Print Assumptions C88_range.
(** All radii: every table is read, but the first radius is dropped, so that table k is found at
    radius k+1 (for the reason, see C54). *)
Theorem C88_load : forall l x p beta xi g minr maxr lg it, luke_file l x p beta xi g -> ascending x -> x <> [] -> mesh it p -> mesh it xi -> 0 < beta -> minr < maxr ->
  exists o, luke_load l minr maxr lg it = Ok o /\ rd_r o = tl (luke_radii x minr maxr) /\ rd_extra o = true /\ length (rd_ms o) = length x /\
    forall k, (k < length x)%nat -> exists m, nth_error (rd_ms o) k = Some (Some m) /\ holds_table lg it m (luke_momenta p beta) xi (g k).
Proof.
  intros l x p beta xi g minr maxr lg it F G NE OP OX H LT. destruct (luke_raw_ok l x p beta xi g minr maxr F) as (f & E & B).
  assert (LR : length (luke_radii x minr maxr) = length x) by apply map_length. assert (LP : length (luke_momenta p beta) = length p) by apply map_length.
  assert (LX : (length x <> 0)%nat) by (destruct x; [congruence|discriminate]).
  destruct (ends_of _ (luke_radii x minr maxr) ltac:(lia)) as (a & b & A & Z).
  destruct (block_load_ok lg it (luke_radii x minr maxr) (luke_momenta p beta) xi f g a b (radii_ascending x minr maxr G LT) A Z (mesh_scaled it p beta OP H) OX ltac:(rewrite LR, LP; exact B)) as (ds & L & D).
  eexists. split; [unfold luke_load; rewrite E; cbn [obind]; exact L|]. cbn [rd_r rd_extra rd_ms]. split; [reflexivity|]. split; [reflexivity|]. rewrite map_length, seq_length. split; [exact LR|].
  intros k K. destruct (D k ltac:(lia)) as (m & M & HT). exists m. split; [rewrite nth_map_seq by lia; rewrite M; reflexivity|exact HT].
Qed.
Print Assumptions C88_load.
(** What evaluation gives at radius k+1 of the file. *)
Theorem C88_shifted : forall spline (o : ndf) rs, rd_r o = tl rs -> rd_extra o = true -> length (rd_ms o) = length rs -> ascending rs -> (3 <= length rs)%nat -> nth_error rs 1 <> Some 0 ->
  forall k r m q x, nth_error rs (S k) = Some r -> nth_error (rd_ms o) k = Some (Some m) -> (forall k' om, nth_error (rd_ms o) k' = Some om -> exists v, ms_value spline om q x = Ok (Some v)) ->
  nd_eval spline o r q x 0 = Ok (ms_eval spline m q x).
Proof.
  intros spline o rs RR EX LM G L NZ k r m q x K M FIN.
  set (val := fun om : option msdf => match ms_value spline om q x with Ok (Some v) => v | _ => 0 end).
  assert (V : forall k' om, nth_error (rd_ms o) k' = Some om -> ms_value spline om q x = Ok (Some (val om))).
  { intros k' om N. destruct (FIN k' om N) as (v & E). unfold val. rewrite E. reflexivity. }
  replace (ms_eval spline m q x) with (Some (val (Some m))).
  - apply (C55_tabulated _ _ o q x (map val (rd_ms o)) k r (val (Some m))); rewrite ?RR, ?nth_tl, ?length_tl; try assumption.
    + apply ascending_tl. exact G.
    + lia.
    + unfold values. clear - V. revert V. generalize (rd_ms o) as l. intro l. induction l as [|a l IH]; intro V; [constructor|]. cbn [map]. constructor; [apply (V 0%nat); reflexivity|].
      apply IH. intros k' om N. apply (V (S k')). exact N.
    + rewrite nth_error_map, M. reflexivity.
  - pose proof (V k (Some m) M) as Q. unfold ms_value in Q. injection Q as Q. symmetry. exact Q.
Qed.
Print Assumptions C88_shifted.
(** Malformed files are refused. *)
Theorem C88_refused : forall l minr maxr lg it,
  no_vector (lk_r l) \/
  (exists x, vector (lk_r l) x /\ (no_vector (lk_p l) \/ exists p, vector (lk_p l) p /\
    (no_matrix (lk_beta l) 1 1 \/ exists beta, number (lk_beta l) beta /\ (no_vector (lk_xi l) \/ exists xi, vector (lk_xi l) xi /\
      forall f, lk_f l <> Some ([length x; length xi; length p], f))))) ->
  luke_load l minr maxr lg it = Throw /\ forall k, luke_momentum l minr maxr lg k it = Throw.
Proof.
  intros l minr maxr lg it H. enough (E : luke_raw l minr maxr = Throw) by (unfold luke_load, luke_momentum; rewrite E; split; reflexivity). unfold luke_raw.
  destruct H as [H|(x & V1 & [H|(p & V2 & [H|(beta & N & [H|(xi & V3 & H)])])])].
  - rewrite (read_no_vector _ H). reflexivity.
  - rewrite (read_vector_ok _ _ V1), (read_no_vector _ H). reflexivity.
  - rewrite (read_vector_ok _ _ V1), (read_vector_ok _ _ V2). cbn [obind]. destruct (lk_beta l) as [b|]; [|reflexivity]. cbn [need obind]. unfold scalar.
    destruct (H b eq_refl) as [Q|Q]; apply Nat.eqb_neq in Q; rewrite Q; cbn [andb]; rewrite ?andb_false_r; reflexivity.
  - rewrite (read_vector_ok _ _ V1), (read_vector_ok _ _ V2). cbn [obind]. destruct (number_ok _ _ N) as (m & -> & SC). cbn [need obind]. rewrite SC. cbn [obind]. rewrite (read_no_vector _ H). reflexivity.
  - rewrite (read_vector_ok _ _ V1), (read_vector_ok _ _ V2). cbn [obind]. destruct (number_ok _ _ N) as (m & -> & SC). cbn [need obind]. rewrite SC. cbn [obind]. rewrite (read_vector_ok _ _ V3). cbn [obind].
    destruct (lk_f l) as [[dims f]|]; [|reflexivity]. cbn [need obind fst snd]. destruct dims as [|a0 [|a1 [|a2 [|a3 dims]]]]; try reflexivity.
    destruct (Nat.eqb_spec a0 (length x)) as [->|]; [|reflexivity]. destruct (Nat.eqb_spec a1 (length xi)) as [->|]; [|reflexivity]. destruct (Nat.eqb_spec a2 (length p)) as [->|]; [|reflexivity].
    exfalso. apply (H f). reflexivity.
Qed.
Print Assumptions C88_refused.

(** An array without rows among the grids ends the program, if the table has the size that goes
    with it. *)
Theorem C88_no_rows : forall l x p beta xi f minr maxr lg it, vector (lk_r l) x -> vector (lk_p l) p -> number (lk_beta l) beta -> vector (lk_xi l) xi ->
  lk_f l = Some ([length x; length xi; length p], f) -> no_rows (lk_r l) \/ no_rows (lk_p l) \/ no_rows (lk_xi l) ->
  luke_load l minr maxr lg it = UB /\ forall k, luke_momentum l minr maxr lg k it = UB.
Proof.
  intros l x p beta xi f minr maxr lg it V1 V2 N V3 F Z. enough (E : luke_raw l minr maxr = UB) by (unfold luke_load, luke_momentum; rewrite E; split; reflexivity). unfold luke_raw.
  rewrite (read_vector_ok _ _ V1), (read_vector_ok _ _ V2), (read_vector_ok _ _ V3), F. destruct (number_ok _ _ N) as (b & -> & SC). cbn [obind need]. rewrite SC. cbn [obind fst snd].
  rewrite !Nat.eqb_refl. cbn [negb orb]. destruct (row_or_not _ _ V1) as [Q1|[Q1 _]]; rewrite Q1; [cbn [obind]|reflexivity].
  destruct (row_or_not _ _ V2) as [Q2|[Q2 _]]; rewrite Q2; [cbn [obind]|reflexivity]. destruct (row_or_not _ _ V3) as [Q3|[Q3 _]]; rewrite Q3; [cbn [obind]|reflexivity].
  exfalso. destruct Z as [(m & E & Z)|[(m & E & Z)|(m & E & Z)]]; unfold first_row in *; rewrite E in *; cbn [need obind] in *; rewrite (release_none m Z) in *; discriminate.
Qed.
Print Assumptions C88_no_rows.

(** Three radii; the table of radius k has the value k+1 everywhere. *)
Definition example_luke : luke :=
  Luke (Some (MArray 1 3 [0; 1 / 2; 1])) (Some (MArray 1 2 [1; 2])) (Some (MArray 1 1 [2])) (Some (MArray 1 2 [-1; 1])) (Some ([3; 2; 2]%nat, [1; 1; 1; 1; 2; 2; 2; 2; 3; 3; 3; 3])).
Lemma number1 : forall x, number (Some (MArray 1 1 [x])) x.
Proof. intro x. eexists. split; [reflexivity|]. repeat split. intros [|j] [|i] J I; try lia. reflexivity. Qed.
Lemma example_luke_file : luke_file example_luke [0; 1 / 2; 1] [1; 2] 2 [-1; 1] (fun k _ _ => match k with O => 1 | 1%nat => 2 | _ => 3 end).
Proof.
  split; [discriminate|]. split; [discriminate|]. split; [discriminate|]. split; [apply vector3|]. split; [apply vector2|]. split; [apply number1|]. split; [apply vector2|]. eexists. split; [reflexivity|]. split; [reflexivity|].
  intros [|[|[|k]]] [|[|j]] [|[|i]] K J I; try (cbn in *; lia); reflexivity.
Qed.
Lemma example_luke_value : exists o, luke_load example_luke 1 2 false 0 = Ok o /\ nd_eval first_value o (3 / 2) 3 0 0 = Ok (Some 1).
Proof.
  assert (OP : mesh 0 [1; 2]) by exact momenta.
  assert (G : ascending [0; 1 / 2; 1]) by (apply asc3; lra).
  destruct (C88_load example_luke _ _ _ _ _ 1 2 false 0 example_luke_file G ltac:(discriminate) OP pitches ltac:(lra) ltac:(lra)) as (o & E & RR & EX & LM & D).
  exists o. split; [exact E|]. destruct (D 0%nat ltac:(cbn; lia)) as (m & M & _).
  assert (V : forall k m, (k < 3)%nat -> nth_error (rd_ms o) k = Some (Some m) -> ms_eval first_value m 3 0 = Some (match k with O => 1 | 1%nat => 2 | _ => 3 end)).
  { intros k m' K M'. destruct (D k K) as (m2 & M2 & H). rewrite M' in M2. injection M2 as <-.
    destruct H as (H1 & H2 & H3 & H4 & H5 & (H6 & H7 & _) & (H8 & H9 & _) & _ & H10).
    unfold ms_eval. rewrite H3, H4. cbn in H6, H7, H8, H9. injection H6 as <-. injection H7 as <-. injection H8 as <-. injection H9 as <-.
    replace (Rltb 3 (1 * 2)) with false by (symmetry; apply Rltb_f; lra). replace (Rltb (2 * 2) 3) with false by (symmetry; apply Rltb_f; lra).
    replace (Rltb 0 (-1)) with false by (symmetry; apply Rltb_f; lra). replace (Rltb 1 0) with false by (symmetry; apply Rltb_f; lra). cbn [orb].
    unfold first_value. specialize (H10 0%nat 0%nat ltac:(cbn; lia) ltac:(cbn; lia)). cbn [Nat.mul Nat.add] in H10. destruct (ms_f m') as [|v l]; [discriminate|]. cbn [nth_error] in H10. injection H10 as ->. reflexivity. }
  rewrite (C88_shifted first_value o (luke_radii [0; 1 / 2; 1] 1 2) RR EX LM (radii_ascending _ 1 2 G ltac:(lra)) (le_n _) ltac:(cbn; intro Q; injection Q; lra) 0%nat (3 / 2) m 3 0).
  - rewrite (V 0%nat m ltac:(lia) M). reflexivity.
  - cbn. f_equal. lra.
  - exact M.
  - intros k' om N. assert (K' : (k' < 3)%nat) by (change 3%nat with (length [0%R; (1 / 2)%R; 1%R]); rewrite <- LM; apply nth_error_Some; rewrite N; discriminate). destruct (D k' K') as (m' & M' & _). rewrite N in M'. injection M' as ->.
    eexists. unfold ms_value. rewrite (V k' m' K' N). reflexivity.
Qed.
(** So the value at a radius of the file is not what reading that radius by itself gives. *)
Theorem C88_refuted : ~ (forall spline l x p beta xi g minr maxr o k r m q y, luke_file l x p beta xi g -> ascending x -> mesh 0 p -> mesh 0 xi -> 0 < beta -> minr < maxr ->
  luke_load l minr maxr false 0 = Ok o -> nth_error (luke_radii x minr maxr) k = Some r -> luke_momentum l minr maxr false k 0 = Ok m ->
  ms_eval spline m q y <> None -> nd_eval spline o r q y 0 = Ok (ms_eval spline m q y)).
Proof.
  intro H. destruct example_luke_value as (o & E & V).
  destruct (C88_momentum example_luke _ _ _ _ _ 1 2 false 0 1%nat example_luke_file momenta pitches ltac:(lra) ltac:(cbn; lia) ltac:(discriminate)) as (m & M & HT).
  assert (W : ms_eval first_value m 3 0 = Some 2).
  { destruct HT as (H1 & H2 & H3 & H4 & H5 & (H6 & H7 & _) & (H8 & H9 & _) & _ & H10).
    unfold ms_eval. rewrite H3, H4. cbn in H6, H7, H8, H9. injection H6 as <-. injection H7 as <-. injection H8 as <-. injection H9 as <-.
    replace (Rltb 3 (1 * 2)) with false by (symmetry; apply Rltb_f; lra). replace (Rltb (2 * 2) 3) with false by (symmetry; apply Rltb_f; lra).
    replace (Rltb 0 (-1)) with false by (symmetry; apply Rltb_f; lra). replace (Rltb 1 0) with false by (symmetry; apply Rltb_f; lra). cbn [orb].
    unfold first_value. specialize (H10 0%nat 0%nat ltac:(cbn; lia) ltac:(cbn; lia)). cbn [Nat.mul Nat.add] in H10. destruct (ms_f m) as [|v l]; [discriminate|]. cbn [nth_error] in H10. injection H10 as ->. reflexivity. }
  assert (Q := H first_value example_luke _ _ _ _ _ 1 2 o 1%nat (3 / 2) m 3 0 example_luke_file (asc3 0 (1 / 2) 1 ltac:(lra) ltac:(lra)) momenta pitches ltac:(lra) ltac:(lra) E
    ltac:(cbn; f_equal; lra) M ltac:(rewrite W; discriminate)).
  rewrite V, W in Q. injection Q as Q. lra.
Qed.
Print Assumptions C88_refuted.
Example C88_example : exists o m, luke_load example_luke 1 2 false 0 = Ok o /\ luke_momentum example_luke 1 2 true 1 0 = Ok m /\
  holds_table true 0 m [1 * 2; 2 * 2] [-1; 1] (fun _ _ => 2).
Proof.
  destruct example_luke_value as (o & E & _). destruct (C88_momentum example_luke _ _ _ _ _ 1 2 true 0 1%nat example_luke_file momenta pitches ltac:(lra) ltac:(cbn; lia)) as (m & M & HT).
  - intros _ i j _ _. lra.
  - exists o, m. split; [exact E|]. split; [exact M|exact HT].
Qed.

(** * C89: old SOFT distribution functions *)
Lemma verify_none : forall v n step, depr_verify None v n step = Ok true. Proof. reflexivity. Qed.
(** Verification vectors are compared with the table, to double precision. *)
Theorem C89_verify : forall a l v n step, vector a l -> (length l <= n)%nat -> (forall i, (i < length l)%nat -> (i * step < length v)%nat) ->
  exists b, depr_verify a v n step = Ok b /\ (b = true <-> forall i x y, nth_error l i = Some x -> nth_error v (i * step) = Some y -> close x y).
Proof.
  intros a l v n step V L B. destruct (compare_ok v step l 0%nat) as (b & C & H).
  { intros j x J. change (j * step < length v)%nat. apply B. apply nth_error_Some. rewrite J. discriminate. }
  exists b. split; [|exact H]. destruct (vector_ok _ _ V) as (m & -> & VL & G). destruct V as (m' & EM & ST). injection EM as <-.
  assert (F : fill (length l) (aget m 0) = Ok l).
  { apply fill_list; [reflexivity|]. intros i x I. rewrite G by (apply nth_error_Some; rewrite I; discriminate). rewrite (nth_error_nth l i 0 I). reflexivity. }
  unfold depr_verify. destruct ST as [(Q1 & Q2 & _)|(Q1 & Q2 & _)]; rewrite Q1, Q2.
  - cbn [Nat.eqb]. replace (length l <=? n)%nat with true by (symmetry; apply Nat.leb_le; exact L). cbn [andb obind]. rewrite F. cbn [obind]. exact C.
  - replace (length l <=? n)%nat with true by (symmetry; apply Nat.leb_le; exact L). destruct (Nat.eqb_spec (length l) 1) as [E|E].
    + replace (1 <=? n)%nat with true by (symmetry; apply Nat.leb_le; lia). cbn [andb obind]. rewrite <- E, F. cbn [obind]. exact C.
    + cbn [andb Nat.eqb obind]. rewrite F. cbn [obind]. exact C.
Qed.
Print Assumptions C89_verify.
(** Ones that are too long, or matrices, are refused. *)
Theorem C89_verify_refused : forall a v n step, (exists l, vector a l /\ (n < length l)%nat) \/ (exists m, a = Some m /\ ma_rows m <> 1%nat /\ ma_cols m <> 1%nat) -> depr_verify a v n step = Throw.
Proof.
  intros a v n step [(l & (m & -> & ST) & L)|(m & -> & N1 & N2)]; unfold depr_verify.
  - destruct ST as [(Q1 & Q2 & _)|(Q1 & Q2 & _)]; rewrite Q1, Q2; cbn [Nat.eqb].
    + replace (length l <=? n)%nat with false by (symmetry; apply Nat.leb_gt; exact L). cbn [andb]. destruct (Nat.eqb_spec (length l) 1) as [E|E]; [|reflexivity].
      replace (1 <=? n)%nat with false by (symmetry; apply Nat.leb_gt; lia). reflexivity.
    + replace (length l <=? n)%nat with false by (symmetry; apply Nat.leb_gt; exact L). cbn [andb]. destruct (Nat.eqb_spec (length l) 1) as [E|E]; [|reflexivity].
      replace (1 <=? n)%nat with false by (symmetry; apply Nat.leb_gt; lia). reflexivity.
  - apply Nat.eqb_neq in N1. apply Nat.eqb_neq in N2. rewrite N1, N2. reflexivity.
Qed.
Print Assumptions C89_verify_refused.

Lemma verify_agrees : forall a v n step (h : nat -> R), (forall i, (i < n)%nat -> nth_error v (i * step) = Some (h i)) -> agrees a n h -> depr_verify a v n step = Ok true.
Proof.
  intros a v n step h H [->|(l & V & L & C)]; [reflexivity|].
  destruct (C89_verify a l v n step V L) as (b & E & B).
  { intros i I. apply nth_error_Some. rewrite H by lia. discriminate. }
  rewrite E. f_equal. apply B. intros i x y X Y. assert (I : (i < length l)%nat) by (apply nth_error_Some; rewrite X; discriminate). rewrite H in Y by lia. injection Y as <-. exact (C i x X).
Qed.
Lemma verify_differs : forall a v n step (h : nat -> R), (forall i, (i < n)%nat -> nth_error v (i * step) = Some (h i)) -> differs a n h -> depr_verify a v n step = Ok false.
Proof.
  intros a v n step h H (l & V & L & i & x & X & C).
  destruct (C89_verify a l v n step V L) as (b & E & B).
  { intros j J. apply nth_error_Some. rewrite H by lia. discriminate. }
  rewrite E. f_equal. destruct b; [|reflexivity]. exfalso. apply C. apply (proj1 B eq_refl i x (h i) X). assert (I : (i < length l)%nat) by (apply nth_error_Some; rewrite X; discriminate). apply H. lia.
Qed.
Lemma unit_ok : forall u norm, momentum_unit u norm -> depr_unit u = Ok norm /\ 0 < norm.
Proof.
  intros u norm [[-> ->]|[[-> ->]|[-> ->]]]; (split; [unfold depr_unit; cbn [String.eqb Ascii.eqb Bool.eqb]; f_equal; unfold electron_mass_ev, electron_mass, light_speed; lra|lra]).
Qed.
Lemma unit_no : forall u, (forall norm, ~ momentum_unit u norm) -> depr_unit u = Throw.
Proof.
  intros u H. unfold depr_unit. destruct (String.eqb_spec u "ev") as [->|]; [exfalso; eapply H; right; left; split; reflexivity|].
  destruct (String.eqb_spec u "normalized") as [->|]; [exfalso; eapply H; left; split; reflexivity|].
  destruct (String.eqb_spec u "si") as [->|]; [exfalso; eapply H; right; right; split; reflexivity|]. reflexivity.
Qed.
(** The file up to the verification. *)
Lemma depr_raw_ok : forall d r p xi g, depr_file d r p xi g -> exists f, block_of f (length r) (length p) (length xi) g /\
  depr_raw d =
    let check a n step k := obind (depr_verify a f n step) (fun b : bool => if b then k tt else Throw) in
    check (dp_fp0 d) (length p) 1%nat (fun _ => check (dp_fxi0 d) (length xi) (length p) (fun _ => check (dp_fr0 d) (length r) (length p * length xi)%nat (fun _ =>
    obind (need (dp_units d)) (fun u => obind (depr_unit u) (fun norm => Ok (Block r (map (fun q => q / norm) p) xi f)))))).
Proof.
  intros d r p xi g (N1 & N2 & N3 & V1 & V2 & V3 & f & F & B & SH). exists (ma_data f). split; [exact B|]. unfold depr_raw.
  assert (RW : ma_rows f <> 0%nat).
  { apply length_pos in N1, N2, N3. destruct SH as [[-> _]|[[-> _]|[_ ->]]]; [exact N1|discriminate|]. intro Q. apply Nat.eq_mul_0 in Q. destruct Q as [Q|Q]; [apply Nat.eq_mul_0 in Q; destruct Q|]; contradiction. }
  rewrite (read_vector_ok _ _ V1), (read_vector_ok _ _ V2), (read_vector_ok _ _ V3), F. cbn [obind need]. rewrite (release_some f RW). cbn [obind]. rewrite (first_row_ok _ _ V1 N1), (first_row_ok _ _ V2 N2), (first_row_ok _ _ V3 N3). cbn [obind].
  match goal with |- (if ?c then _ else _) = _ => replace c with false; [reflexivity|] end. symmetry.
  destruct SH as [[-> ->]|[[-> ->]|[-> ->]]]; rewrite !Nat.eqb_refl; cbn [andb negb]; rewrite ?andb_false_r; reflexivity.
Qed.
Lemma block_rows : forall f nr np nxi g, block_of f nr np nxi g -> (0 < nr)%nat -> (0 < np)%nat -> (0 < nxi)%nat ->
  (forall i, (i < np)%nat -> nth_error f (i * 1) = Some (g 0%nat i 0%nat)) /\ (forall j, (j < nxi)%nat -> nth_error f (j * np) = Some (g 0%nat 0%nat j)) /\
  (forall k, (k < nr)%nat -> nth_error f (k * (np * nxi)) = Some (g k 0%nat 0%nat)).
Proof.
  intros f nr np nxi g (L & H) A B C. split; [|split].
  - intros i I. rewrite <- (H 0%nat 0%nat i A C I). f_equal. lia.
  - intros j J. rewrite <- (H 0%nat j 0%nat A J B). f_equal. lia.
  - intros k K. rewrite <- (H k 0%nat 0%nat K C B). f_equal. lia.
Qed.
Lemma mesh_pos : forall it l, mesh it l -> (0 < length l)%nat.
Proof. intros it l (_ & L). destruct (it =? 0)%Z; lia. Qed.
Lemma depr_raw_done : forall it d r p xi g u norm, depr_file d r p xi g -> r <> [] -> mesh it p -> mesh it xi ->
  agrees (dp_fp0 d) (length p) (fun i => g 0%nat i 0%nat) -> agrees (dp_fxi0 d) (length xi) (fun j => g 0%nat 0%nat j) -> agrees (dp_fr0 d) (length r) (fun k => g k 0%nat 0%nat) ->
  dp_units d = Some u -> momentum_unit u norm ->
  exists f, block_of f (length r) (length p) (length xi) g /\ depr_raw d = Ok (Block r (map (fun q => q / norm) p) xi f) /\ mesh it (map (fun q => q / norm) p).
Proof.
  intros it d r p xi g u norm F NE OP OX A1 A2 A3 U UN. destruct (depr_raw_ok d r p xi g F) as (f & B & E). exists f. split; [exact B|].
  assert (LR : (0 < length r)%nat) by (destruct r; [congruence|cbn; lia]).
  destruct (block_rows _ _ _ _ _ B LR (mesh_pos _ _ OP) (mesh_pos _ _ OX)) as (R1 & R2 & R3). destruct (unit_ok _ _ UN) as [UE UP]. split.
  - rewrite E. cbn beta zeta. rewrite (verify_agrees _ _ _ _ _ R1 A1). cbn [obind]. rewrite (verify_agrees _ _ _ _ _ R2 A2). cbn [obind]. rewrite (verify_agrees _ _ _ _ _ R3 A3). cbn [obind].
    rewrite U. cbn [need obind]. rewrite UE. reflexivity.
  - apply (mesh_scaled it p (/ norm) OP). apply Rinv_0_lt_compat. exact UP.
Qed.
(** A file whose verification vectors agree with its table is loaded, momenta being converted to
    units of the electron's rest momentum.  As with LUKE files (C88), the first radius is dropped. *)
Theorem C89_load : forall d r p xi g u norm lg it, depr_file d r p xi g -> r <> [] -> ascending r -> mesh it p -> mesh it xi ->
  agrees (dp_fp0 d) (length p) (fun i => g 0%nat i 0%nat) -> agrees (dp_fxi0 d) (length xi) (fun j => g 0%nat 0%nat j) -> agrees (dp_fr0 d) (length r) (fun k => g k 0%nat 0%nat) ->
  dp_units d = Some u -> momentum_unit u norm ->
  exists o, depr_load d lg it = Ok o /\ rd_r o = tl r /\ rd_extra o = true /\ length (rd_ms o) = length r /\
    forall k, (k < length r)%nat -> exists m, nth_error (rd_ms o) k = Some (Some m) /\ holds_table lg it m (map (fun q => q / norm) p) xi (g k).
Proof.
  intros d r p xi g u norm lg it F NE G OP OX A1 A2 A3 U UN. destruct (depr_raw_done it d r p xi g u norm F NE OP OX A1 A2 A3 U UN) as (f & B & E & ON).
  assert (LR : (1 <= length r)%nat) by (destruct r; [congruence|cbn; lia]). destruct (ends_of _ r LR) as (a & b & A & Z).
  destruct (block_load_ok lg it r (map (fun q => q / norm) p) xi f g a b G A Z ON OX ltac:(rewrite map_length; exact B)) as (ds & L & D).
  eexists. split; [unfold depr_load; rewrite E; cbn [obind]; exact L|]. cbn [rd_r rd_extra rd_ms]. split; [reflexivity|]. split; [reflexivity|]. rewrite map_length, seq_length. split; [reflexivity|].
  intros k K. destruct (D k K) as (m & M & HT). exists m. split; [rewrite nth_map_seq by exact K; rewrite M; reflexivity|exact HT].
Qed.
Print Assumptions C89_load.
Theorem C89_momentum : forall d r p xi g u norm lg it k, depr_file d r p xi g -> mesh it p -> mesh it xi -> (k < length r)%nat ->
  agrees (dp_fp0 d) (length p) (fun i => g 0%nat i 0%nat) -> agrees (dp_fxi0 d) (length xi) (fun j => g 0%nat 0%nat j) -> agrees (dp_fr0 d) (length r) (fun k => g k 0%nat 0%nat) ->
  dp_units d = Some u -> momentum_unit u norm -> (lg = true -> forall i j, (i < length p)%nat -> (j < length xi)%nat -> 0 <= g k i j) ->
  exists m, depr_momentum d lg k it = Ok m /\ holds_table lg it m (map (fun q => q / norm) p) xi (g k).
Proof.
  intros d r p xi g u norm lg it k F OP OX K A1 A2 A3 U UN P. assert (NE : r <> []) by (intros ->; cbn in K; lia).
  destruct (depr_raw_done it d r p xi g u norm F NE OP OX A1 A2 A3 U UN) as (f & B & E & ON). unfold depr_momentum. rewrite E. cbn [obind].
  apply block_momentum_ok; rewrite ?map_length; try assumption.
Qed.
Print Assumptions C89_momentum.
(** Files with a verification vector that differs, without a unit or with an unknown one are
    refused. *)
Theorem C89_refused : forall d r p xi g lg it, depr_file d r p xi g -> r <> [] -> p <> [] -> xi <> [] ->
  let ap := agrees (dp_fp0 d) (length p) (fun i => g 0%nat i 0%nat) in let ax := agrees (dp_fxi0 d) (length xi) (fun j => g 0%nat 0%nat j) in let ar := agrees (dp_fr0 d) (length r) (fun k => g k 0%nat 0%nat) in
  differs (dp_fp0 d) (length p) (fun i => g 0%nat i 0%nat) \/ (ap /\ differs (dp_fxi0 d) (length xi) (fun j => g 0%nat 0%nat j)) \/
  (ap /\ ax /\ differs (dp_fr0 d) (length r) (fun k => g k 0%nat 0%nat)) \/ (ap /\ ax /\ ar /\ forall u norm, dp_units d = Some u -> ~ momentum_unit u norm) ->
  depr_load d lg it = Throw /\ forall k, depr_momentum d lg k it = Throw.
Proof.
  intros d r p xi g lg it F NE OP OX ap ax ar H. enough (E : depr_raw d = Throw) by (unfold depr_load, depr_momentum; rewrite E; split; reflexivity).
  destruct (depr_raw_ok d r p xi g F) as (f & B & E). rewrite E. cbn beta zeta. clear E.
  assert (LR : (0 < length r)%nat) by (destruct r; [congruence|cbn; lia]).
  assert (LP : (0 < length p)%nat) by (destruct p; [congruence|cbn; lia]). assert (LX : (0 < length xi)%nat) by (destruct xi; [congruence|cbn; lia]).
  destruct (block_rows _ _ _ _ _ B LR LP LX) as (R1 & R2 & R3). unfold ap, ax, ar in H. clear ap ax ar.
  destruct H as [H|[(A1 & H)|[(A1 & A2 & H)|(A1 & A2 & A3 & H)]]].
  - rewrite (verify_differs _ _ _ _ _ R1 H). reflexivity.
  - rewrite (verify_agrees _ _ _ _ _ R1 A1), (verify_differs _ _ _ _ _ R2 H). reflexivity.
  - rewrite (verify_agrees _ _ _ _ _ R1 A1). cbn [obind]. rewrite (verify_agrees _ _ _ _ _ R2 A2). cbn [obind]. rewrite (verify_differs _ _ _ _ _ R3 H). reflexivity.
  - rewrite (verify_agrees _ _ _ _ _ R1 A1). cbn [obind]. rewrite (verify_agrees _ _ _ _ _ R2 A2). cbn [obind]. rewrite (verify_agrees _ _ _ _ _ R3 A3). cbn [obind].
    destruct (dp_units d) as [u|]; [|reflexivity]. cbn [need obind]. rewrite (unit_no u); [reflexivity|]. intros norm N. exact (H u norm eq_refl N).
Qed.
Print Assumptions C89_refused.
(** Missing or malformed grids and tables are refused. *)
Theorem C89_shape : forall d lg it,
  no_vector (dp_r d) \/ (exists r, vector (dp_r d) r /\ (no_vector (dp_p d) \/ exists p, vector (dp_p d) p /\ (no_vector (dp_xi d) \/ exists xi, vector (dp_xi d) xi /\ ~ no_rows (dp_f d) /\
    no_matrix (dp_f d) (length r) (length p * length xi) /\ no_matrix (dp_f d) 1 (length p * length xi * length r) /\ no_matrix (dp_f d) (length p * length xi * length r) 1))) ->
  depr_load d lg it = Throw /\ forall k, depr_momentum d lg k it = Throw.
Proof.
  intros d lg it H. enough (E : depr_raw d = Throw) by (unfold depr_load, depr_momentum; rewrite E; split; reflexivity). unfold depr_raw.
  destruct H as [H|(r & V1 & [H|(p & V2 & [H|(xi & V3 & R0 & H1 & H2 & H3)])])].
  - rewrite (read_no_vector _ H). reflexivity.
  - rewrite (read_vector_ok _ _ V1), (read_no_vector _ H). reflexivity.
  - rewrite (read_vector_ok _ _ V1), (read_vector_ok _ _ V2), (read_no_vector _ H). reflexivity.
  - rewrite (read_vector_ok _ _ V1), (read_vector_ok _ _ V2), (read_vector_ok _ _ V3). cbn [obind]. destruct (dp_f d) as [f|] eqn:DF; [|reflexivity]. cbn [need obind].
    rewrite release_some by (intro Z; apply R0; exists f; split; [reflexivity|exact Z]). cbn [obind].
    match goal with |- (if ?c then _ else _) = _ => replace c with true; [reflexivity|] end. symmetry.
    specialize (H1 f eq_refl). specialize (H2 f eq_refl). specialize (H3 f eq_refl). apply andb_true_iff. split; [apply andb_true_iff; split|]; apply negb_true_iff, andb_false_iff.
    + destruct H1 as [Q|Q]; apply Nat.eqb_neq in Q; [left|right]; exact Q.
    + destruct H2 as [Q|Q]; apply Nat.eqb_neq in Q; [left|right]; exact Q.
    + destruct H3 as [Q|Q]; apply Nat.eqb_neq in Q; [right|left]; exact Q.
Qed.
Print Assumptions C89_shape.
(** A table without rows ends the program. *)
Theorem C89_no_rows : forall d r p xi lg it, vector (dp_r d) r -> vector (dp_p d) p -> vector (dp_xi d) xi -> no_rows (dp_f d) ->
  depr_load d lg it = UB /\ forall k, depr_momentum d lg k it = UB.
Proof.
  intros d r p xi lg it V1 V2 V3 (m & E & Z). enough (Q : depr_raw d = UB) by (unfold depr_load, depr_momentum; rewrite Q; split; reflexivity). unfold depr_raw.
  rewrite (read_vector_ok _ _ V1), (read_vector_ok _ _ V2), (read_vector_ok _ _ V3), E. cbn [obind need]. rewrite (release_none m Z). reflexivity.
Qed.
Print Assumptions C89_no_rows.
(** Two radii, two pitches and two momenta in electronvolts, with two verification vectors. *)
Definition example_depr : depr :=
  Depr (Some (MArray 1 2 [1; 2])) (Some (MArray 1 2 [1; 2])) (Some (MArray 2 1 [-1; 1])) (Some (MArray 2 4 [1; 2; 3; 4; 5; 6; 7; 8]))
       (Some (MArray 1 2 [1; 2])) (Some (MArray 2 1 [1; 3])) None (Some "ev"%string).
Lemma example_depr_file : depr_file example_depr [1; 2] [1; 2] [-1; 1] (fun k i j => nth ((k * 2 + j) * 2 + i) [1; 2; 3; 4; 5; 6; 7; 8] 0).
Proof.
  split; [discriminate|]. split; [discriminate|]. split; [discriminate|]. split; [apply vector2|]. split; [apply vector2|]. split; [apply vector2c|]. eexists. split; [reflexivity|]. split; [|left; split; reflexivity]. split; [reflexivity|].
  intros [|[|k]] [|[|j]] [|[|i]] K J I; try (cbn in *; lia); reflexivity.
Qed.
Lemma close_refl : forall x, close x x.
Proof.
  intro x. assert (P : 0 < / 2 ^ 52) by (apply Rinv_0_lt_compat, pow_lt; lra). unfold close. rewrite Rminus_diag_eq, Rabs_R0 by reflexivity. split; intro H; [lra|]. apply Rmult_le_pos; [lra|apply Rabs_pos].
Qed.
Example C89_example : exists m, depr_momentum example_depr true 1 0 = Ok m /\ holds_table true 0 m [1 / 510998.9461; 2 / 510998.9461] [-1; 1] (fun i j => nth ((1 * 2 + j) * 2 + i) [1; 2; 3; 4; 5; 6; 7; 8] 0).
Proof.
  destruct (C89_momentum example_depr [1; 2] [1; 2] [-1; 1] _ "ev" 510998.9461 true 0 1 example_depr_file momenta pitches) as (m & M & H).
  - cbn. lia.
  - right. exists [1; 2]. split; [apply vector2|]. split; [cbn; lia|]. intros [|[|i]] x X; [| |destruct i; discriminate X]; injection X as <-; apply close_refl.
  - right. exists [1; 3]. split; [apply vector2c|]. split; [cbn; lia|]. intros [|[|i]] x X; [| |destruct i; discriminate X]; injection X as <-; apply close_refl.
  - left. reflexivity.
  - reflexivity.
  - right. left. split; reflexivity.
  - intros _ [|[|i]] [|[|j]] I J; try (cbn in *; lia); cbn; lra.
  - exists m. split; [exact M|exact H].
Qed.
(** Files with an array without rows. *)
Lemma vector_none : vector (Some (MArray 0 1 [])) [].
Proof. eexists. split; [reflexivity|right]. repeat split. intros [|j] i J I; cbn in J; lia. Qed.
Lemma vector1 : forall x, vector (Some (MArray 1 1 [x])) [x].
Proof. intro x. eexists. split; [reflexivity|left]. repeat split. intros [|j] [|i] J I; try (cbn in *; lia); reflexivity. Qed.
Example C88_no_rows_example : luke_load (Luke (Some (MArray 0 1 [])) (Some (MArray 1 1 [1])) (Some (MArray 1 1 [1])) (Some (MArray 1 1 [0])) (Some ([0; 1; 1]%nat, []))) 1 2 true 0 = UB.
Proof.
  refine (proj1 (C88_no_rows _ [] [1] 1 [0] [] _ _ _ _ _ _ _ _ _ _)); [apply vector_none|apply vector1|apply number1|apply vector1|reflexivity|]. left. eexists. split; reflexivity.
Qed.
Example C89_no_rows_example : depr_load (Depr (Some (MArray 1 1 [1])) (Some (MArray 1 1 [1])) (Some (MArray 1 1 [0])) (Some (MArray 0 3 [])) None None None (Some "ev"%string)) true 0 = UB.
Proof.
  refine (proj1 (C89_no_rows _ [1] [1] [0] _ _ _ _ _ _)); [apply vector1|apply vector1|apply vector1|]. eexists. split; reflexivity.
Qed.
