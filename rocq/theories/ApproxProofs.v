(** Proofs about linear interpolation. *)
From Coq Require Import Reals Lra Lia.
From Coquelicot Require Rcomplements.
From Verif Require Import Base DomainModel NumericSpec NumericProofs DistributionModel DistributionSpec DistributionProofs ApproxModel ApproxSpec.
Local Open Scope R_scope.

Lemma Rltb_yes : forall a b, a < b -> Rltb a b = true.
Proof. intros a b H. unfold Rltb. destruct (Rlt_dec a b); [reflexivity|contradiction]. Qed.
Lemma Rltb_no : forall a b, ~ a < b -> Rltb a b = false.
Proof. intros a b H. unfold Rltb. destruct (Rlt_dec a b); [contradiction|reflexivity]. Qed.

(** * The search *)
Lemma bsearch_S : forall xs x f lo hi, gsl_bsearch xs x (S f) lo hi =
  if (hi <=? lo + 1)%nat then lo
  else if Rltb x (nth ((hi + lo) / 2) xs 0) then gsl_bsearch xs x f lo ((hi + lo) / 2) else gsl_bsearch xs x f ((hi + lo) / 2) hi.
Proof. reflexivity. Qed.
Lemma half_between : forall lo hi, (lo + 1 < hi)%nat -> (lo < (hi + lo) / 2 < hi)%nat.
Proof.
  intros lo hi H. split.
  - apply Nat.div_le_lower_bound with (q := S lo); lia.
  - apply Nat.div_lt_upper_bound; lia.
Qed.
Lemma bsearch_finds : forall xs x f lo hi, (lo < hi)%nat -> (hi - lo <= f)%nat -> nth lo xs 0 <= x ->
  x < nth hi xs 0 \/ hi = (length xs - 1)%nat ->
  (lo <= gsl_bsearch xs x f lo hi < hi)%nat /\ nth (gsl_bsearch xs x f lo hi) xs 0 <= x /\
  (x < nth (S (gsl_bsearch xs x f lo hi)) xs 0 \/ S (gsl_bsearch xs x f lo hi) = (length xs - 1)%nat).
Proof.
  intros xs x f. induction f as [|f IH]; intros lo hi L F A B; [lia|]. rewrite bsearch_S.
  destruct (hi <=? lo + 1)%nat eqn:E.
  - apply Nat.leb_le in E. replace hi with (S lo) in * by lia. split; [lia|]. split; assumption.
  - apply Nat.leb_gt in E. pose proof (half_between lo hi E) as H. destruct (Rlt_dec x (nth ((hi + lo) / 2) xs 0)) as [Q|Q].
    + rewrite (Rltb_yes _ _ Q). destruct (IH lo ((hi + lo) / 2)%nat ltac:(lia) ltac:(lia) A (or_introl Q)) as (H1 & H2). split; [lia|exact H2].
    + rewrite (Rltb_no _ _ Q). destruct (IH ((hi + lo) / 2)%nat hi ltac:(lia) ltac:(lia) ltac:(lra) B) as (H1 & H2). split; [lia|exact H2].
Qed.
(** The interval holds the point; only in the last one it may be the right end. *)
Lemma interval_finds : forall xs x, (2 <= length xs)%nat -> within xs x -> exists a b,
  nth_error xs (interval xs x) = Some a /\ nth_error xs (S (interval xs x)) = Some b /\ a <= x <= b /\
  (x < b \/ S (interval xs x) = (length xs - 1)%nat).
Proof.
  intros xs x L (a & b & A & B & H).
  assert (A0 : nth 0 xs 0 = a) by (apply (nth_error_nth xs 0 0 A)).
  assert (B0 : nth (length xs - 1) xs 0 = b) by (apply (nth_error_nth xs (length xs - 1) 0 B)).
  destruct (bsearch_finds xs x (length xs) 0 (length xs - 1) ltac:(lia) ltac:(lia) ltac:(lra) (or_intror eq_refl)) as (H1 & H2 & H3).
  fold (interval xs x) in H1, H2, H3.
  exists (nth (interval xs x) xs 0), (nth (S (interval xs x)) xs 0).
  split; [apply nth_error_nth'; lia|]. split; [apply nth_error_nth'; lia|]. split; [|exact H3]. split; [exact H2|].
  destruct H3 as [H3|H3]; [lra|]. rewrite H3, B0. lra.
Qed.
Lemma ascending_step : forall l i a b, ascending l -> nth_error l i = Some a -> nth_error l (S i) = Some b -> a < b.
Proof. intros l i a b G A B. apply (G i (S i) a b); [lia|assumption|assumption]. Qed.
(** At a grid point the interval is the one to the right of it, except at the last one. *)
Lemma interval_node : forall xs i x, (2 <= length xs)%nat -> ascending xs -> nth_error xs i = Some x ->
  interval xs x = (if (i =? length xs - 1)%nat then i - 1 else i)%nat.
Proof.
  intros xs i x L G E. assert (Li : (i < length xs)%nat) by (apply nth_error_Some; rewrite E; discriminate).
  assert (W : within xs x).
  { destruct (nth_error xs 0) as [a|] eqn:A; [|apply nth_error_None in A; lia].
    destruct (nth_error xs (length xs - 1)) as [b|] eqn:B; [|apply nth_error_None in B; lia].
    exists a, b. split; [exact A|]. split; [exact B|]. split.
    - destruct (Nat.eq_dec i 0) as [->|N]; [rewrite A in E; injection E as ->; lra|]. left. apply (G 0%nat i a x); [lia|assumption|assumption].
    - destruct (Nat.eq_dec i (length xs - 1)) as [->|N]; [rewrite B in E; injection E as ->; lra|]. left. apply (G i (length xs - 1)%nat x b); [lia|assumption|assumption]. }
  destruct (interval_finds xs x L W) as (a & b & A & B & H & K). set (k := interval xs x) in *.
  assert (Lk : (S k < length xs)%nat) by (apply nth_error_Some; rewrite B; discriminate).
  assert (K1 : (k <= i)%nat). { destruct (le_lt_dec k i) as [?|Q]; [assumption|]. pose proof (G i k x a Q E A). lra. }
  assert (K2 : (i <= S k)%nat). { destruct (le_lt_dec i (S k)) as [?|Q]; [assumption|]. pose proof (G (S k) i b x Q B E). lra. }
  destruct (i =? length xs - 1)%nat eqn:Q.
  - apply Nat.eqb_eq in Q. lia.
  - apply Nat.eqb_neq in Q. destruct (Nat.eq_dec i (S k)) as [->|N]; [|lia]. rewrite B in E. injection E as ->. destruct K; [lra|lia].
Qed.

(** * Lines *)
Lemma through_mix : forall a u b v x, a < b -> through a u b v x = (1 - (x - a) / (b - a)) * u + (x - a) / (b - a) * v.
Proof. intros a u b v x H. unfold through. field. lra. Qed.
Lemma ratio_range : forall a b x, a < b -> a <= x <= b -> 0 <= (x - a) / (b - a) <= 1.
Proof.
  intros a b x H X. split.
  - apply Rmult_le_pos; [lra|]. left. apply Rinv_0_lt_compat. lra.
  - apply Rmult_le_reg_r with (b - a); [lra|]. unfold Rdiv. rewrite Rmult_assoc, Rinv_l by lra. lra.
Qed.
Lemma mix_close : forall t u v u' v' e, 0 <= t <= 1 -> Rabs (u - u') <= e -> Rabs (v - v') <= e ->
  Rabs (((1 - t) * u + t * v) - ((1 - t) * u' + t * v')) <= e.
Proof.
  intros t u v u' v' e T U V. apply Rabs_le. apply Rcomplements.Rabs_le_between in U. apply Rcomplements.Rabs_le_between in V.
  split; nra.
Qed.
Lemma mix_range : forall t u v lo hi, 0 <= t <= 1 -> lo <= u <= hi -> lo <= v <= hi -> lo <= (1 - t) * u + t * v <= hi.
Proof. intros t u v lo hi T U V. split; nra. Qed.
Lemma through_left : forall a u b v, a < b -> through a u b v a = u.
Proof. intros. unfold through. field. lra. Qed.
Lemma through_right : forall a u b v, a < b -> through a u b v b = v.
Proof. intros. unfold through. field. lra. Qed.

(** A function whose derivative does not increase lies above its chord. *)
Lemma above_chord : forall g g' a b x, a < x < b -> (forall y, a <= y <= b -> derivable_pt_lim g y (g' y)) ->
  (forall y z, a <= y <= z -> z <= b -> g' z <= g' y) -> g a = 0 -> g b = 0 -> 0 <= g x.
Proof.
  intros g g' a b x X D M A B.
  destruct (MVT_cor2 g g' a x ltac:(lra)) as (c1 & E1 & C1); [intros; apply D; lra|].
  destruct (MVT_cor2 g g' x b ltac:(lra)) as (c2 & E2 & C2); [intros; apply D; lra|].
  assert (Q : g' c2 <= g' c1) by (apply M; lra). rewrite A in E1. rewrite B in E2.
  destruct (Rle_dec 0 (g x)) as [?|N]; [assumption|]. exfalso.
  assert (P1 : g' c1 < 0). { apply Rnot_le_lt. intro K. assert (0 <= g' c1 * (x - a)) by (apply Rmult_le_pos; lra). lra. }
  assert (P2 : 0 < g' c2). { apply Rnot_le_lt. intro K. assert (0 <= (- g' c2) * (b - x)) by (apply Rmult_le_pos; lra). lra. }
  lra.
Qed.
Lemma decreasing_from : forall g g' a b, (forall y, a <= y <= b -> derivable_pt_lim g y (g' y)) -> (forall y, a <= y <= b -> g' y <= 0) ->
  forall y z, a <= y <= z -> z <= b -> g z <= g y.
Proof.
  intros g g' a b D N y z H Z. destruct (Req_dec y z) as [->|Q]; [lra|].
  destruct (MVT_cor2 g g' y z ltac:(lra)) as (c & E & C); [intros; apply D; lra|].
  assert (g' c <= 0) by (apply N; lra). assert (0 <= (- g' c) * (z - y)) by (apply Rmult_le_pos; lra). lra.
Qed.
Lemma derive_quadratic : forall k a b y, derivable_pt_lim (fun x => k * ((x - a) * (x - b))) y (k * (2 * y - a - b)).
Proof.
  intros k a b y. replace (k * (2 * y - a - b)) with (k * ((1 - 0) * (y - b) + (y - a) * (1 - 0))) by ring.
  apply (derivable_pt_lim_scal (fun x => (x - a) * (x - b))).
  apply (derivable_pt_lim_mult (fun x => x - a) (fun x => x - b)).
  - apply (derivable_pt_lim_minus (fun x => x) (fun _ => a)); [apply derivable_pt_lim_id|apply derivable_pt_lim_const].
  - apply (derivable_pt_lim_minus (fun x => x) (fun _ => b)); [apply derivable_pt_lim_id|apply derivable_pt_lim_const].
Qed.
Lemma derive_affine : forall k c y, derivable_pt_lim (fun x => k * x + c) y k.
Proof.
  intros k c y. assert (H : derivable_pt_lim (fun x => k * x + c) y (k * 1 + 0)).
  { apply (derivable_pt_lim_plus (fun x => k * x) (fun _ => c)); [|apply derivable_pt_lim_const]. apply (derivable_pt_lim_scal (fun x => x)), derivable_pt_lim_id. }
  replace (k * 1 + 0) with k in H by ring. exact H.
Qed.
Lemma derive_slope : forall k a b y, derivable_pt_lim (fun x => k * (2 * x - a - b)) y (2 * k).
Proof.
  intros k a b y. replace (2 * k) with (k * (2 * 1 - 0 - 0)) by ring. apply (derivable_pt_lim_scal (fun x => 2 * x - a - b)).
  apply (derivable_pt_lim_minus (fun x => 2 * x - a) (fun _ => b)); [|apply derivable_pt_lim_const].
  apply (derivable_pt_lim_minus (fun x => 2 * x) (fun _ => a)); [|apply derivable_pt_lim_const].
  apply (derivable_pt_lim_scal (fun x => x)), derivable_pt_lim_id.
Qed.
Lemma one_side : forall M a b g x, bends M a b g -> a < x < b ->
  through a (g a) b (g b) x - M / 2 * ((x - a) * (b - x)) <= g x.
Proof.
  intros M a b g x (g' & g'' & H) X.
  set (s := (g b - g a) / (b - a)).
  set (phi := fun y => (g y - (s * y + (g a - s * a))) + (- (M / 2)) * ((y - a) * (y - b))).
  assert (P : 0 <= phi x).
  { apply (above_chord phi (fun y => (g' y - s) + (- (M / 2)) * (2 * y - a - b)) a b x X).
    - intros y Y. destruct (H y Y) as (D1 & _). unfold phi.
      apply (derivable_pt_lim_plus (fun y => g y - (s * y + (g a - s * a))) (fun y => (- (M / 2)) * ((y - a) * (y - b)))); [|apply derive_quadratic].
      apply (derivable_pt_lim_minus g (fun y => s * y + (g a - s * a))); [exact D1|apply derive_affine].
    - intros y z Y Z.
      apply (decreasing_from (fun y => (g' y - s) + (- (M / 2)) * (2 * y - a - b)) (fun y => (g'' y - 0) + 2 * (- (M / 2))) a b); [| |exact Y|exact Z].
      + intros w W. destruct (H w W) as (_ & D2 & _). apply (derivable_pt_lim_plus (fun y => g' y - s) (fun y => (- (M / 2)) * (2 * y - a - b))).
        * apply (derivable_pt_lim_minus g' (fun _ => s)); [exact D2|apply derivable_pt_lim_const].
        * apply derive_slope.
      + intros w W. destruct (H w W) as (_ & _ & B). apply Rcomplements.Rabs_le_between in B. lra.
    - unfold phi. ring.
    - unfold phi, s. field. lra. }
  unfold phi in P. unfold through. fold s. lra.
Qed.

Lemma bends_opp : forall M a b g, bends M a b g -> bends M a b (fun x => - g x).
Proof.
  intros M a b g (g' & g'' & H). exists (fun x => - g' x), (fun x => - g'' x). intros x X. destruct (H x X) as (H1 & H2 & H3).
  split; [apply (derivable_pt_lim_opp g); exact H1|]. split; [apply (derivable_pt_lim_opp g'); exact H2|]. rewrite Rabs_Ropp. exact H3.
Qed.
Lemma bends_nonneg : forall M a b g, bends M a b g -> a <= b -> 0 <= M.
Proof. intros M a b g (g' & g'' & H) L. destruct (H a ltac:(lra)) as (_ & _ & B). pose proof (Rabs_pos (g'' a)). lra. Qed.
Lemma bends_part : forall M a b c d g, bends M a b g -> a <= c -> d <= b -> bends M c d g.
Proof. intros M a b c d g (g' & g'' & H) L1 L2. exists g', g''. intros x X. apply H. lra. Qed.
(** The error of a straight line through two points of a curve. *)
Lemma chord_error : forall M a b g x, bends M a b g -> a < b -> a <= x <= b ->
  Rabs (through a (g a) b (g b) x - g x) <= M / 2 * ((x - a) * (b - x)).
Proof.
  intros M a b g x B L X. pose proof (bends_nonneg _ _ _ _ B ltac:(lra)) as M0.
  destruct (Req_dec x a) as [->|N1].
  { rewrite through_left by lra. rewrite Rminus_diag_eq by reflexivity. rewrite Rabs_R0. right. ring. }
  destruct (Req_dec x b) as [->|N2].
  { rewrite through_right by lra. rewrite Rminus_diag_eq by reflexivity. rewrite Rabs_R0. right. ring. }
  pose proof (one_side M a b g x B ltac:(lra)) as P1.
  pose proof (one_side M a b (fun x => - g x) x (bends_opp _ _ _ _ B) ltac:(lra)) as P2. cbn beta in P2.
  assert (E : through a (- g a) b (- g b) x = - through a (g a) b (g b) x) by (unfold through; field; lra). rewrite E in P2.
  apply Rabs_le. lra.
Qed.
Lemma chord_bound : forall M a b h g x, bends M a b g -> a < b -> b - a <= h -> a <= x <= b ->
  Rabs (through a (g a) b (g b) x - g x) <= M * h ^ 2 / 8.
Proof.
  intros M a b h g x B L H X. pose proof (bends_nonneg _ _ _ _ B ltac:(lra)) as M0.
  eapply Rle_trans; [apply (chord_error M a b g x B L X)|].
  assert (Q : (x - a) * (b - x) <= h ^ 2 / 4).
  { assert (Q1 : 0 <= (2 * x - a - b) ^ 2) by apply pow2_ge_0. assert (Q2 : (b - a) ^ 2 <= h ^ 2) by (apply pow_incr; lra). 
    replace ((x - a) * (b - x)) with (((b - a) ^ 2 - (2 * x - a - b) ^ 2) / 4) by field. lra. }
  replace (M * h ^ 2 / 8) with (M / 2 * (h ^ 2 / 4)) by field. apply Rmult_le_compat_l; [lra|exact Q].
Qed.

(** * Two dimensions *)
(** The value between four corners. *)
Definition patch (a b c d : R) (z00 z10 z01 z11 x y : R) : R :=
  through c (through a z00 b z10 x) d (through a z01 b z11 x) y.
Lemma patch_range : forall a b c d z00 z10 z01 z11 x y lo hi, a < b -> c < d -> a <= x <= b -> c <= y <= d ->
  lo <= z00 <= hi -> lo <= z10 <= hi -> lo <= z01 <= hi -> lo <= z11 <= hi -> lo <= patch a b c d z00 z10 z01 z11 x y <= hi.
Proof.
  intros a b c d z00 z10 z01 z11 x y lo hi A C X Y H1 H2 H3 H4. unfold patch. rewrite (through_mix c) by lra. rewrite !(through_mix a) by lra.
  pose proof (ratio_range a b x A X) as T. pose proof (ratio_range c d y C Y) as U.
  apply mix_range; [exact U| |]; apply mix_range; assumption.
Qed.
Lemma patch_error : forall Mx My hx hy a b c d F x y, a < b -> c < d -> b - a <= hx -> d - c <= hy -> a <= x <= b -> c <= y <= d ->
  bends Mx a b (fun x => F x c) -> bends Mx a b (fun x => F x d) -> bends My c d (F x) ->
  Rabs (patch a b c d (F a c) (F b c) (F a d) (F b d) x y - F x y) <= Mx * hx ^ 2 / 8 + My * hy ^ 2 / 8.
Proof.
  intros Mx My hx hy a b c d F x y A C HX HY X Y B1 B2 B3. unfold patch.
  pose proof (chord_bound Mx a b hx (fun x => F x c) x B1 A HX X) as P1. pose proof (chord_bound Mx a b hx (fun x => F x d) x B2 A HX X) as P2.
  pose proof (chord_bound My c d hy (F x) y B3 C HY Y) as P3. cbn beta in P1, P2.
  set (u := through a (F a c) b (F b c) x) in *. set (v := through a (F a d) b (F b d) x) in *.
  replace (through c u d v y - F x y) with ((through c u d v y - through c (F x c) d (F x d) y) + (through c (F x c) d (F x d) y - F x y)) by ring.
  eapply Rle_trans; [apply Rabs_triang|]. apply Rplus_le_compat; [|exact P3].
  rewrite !(through_mix c) by lra. apply mix_close; [apply ratio_range; assumption|exact P1|exact P2].
Qed.

(** * Tables *)
Lemma nth_some : forall (A : Type) (l : list A) i d v, nth_error l i = Some v -> nth i l d = v.
Proof. intros A l i d v H. apply (nth_error_nth l i d H). Qed.
Lemma index_inside : forall i j n m, (i < n)%nat -> (j < m)%nat -> (j * n + i < n * m)%nat.
Proof. intros i j n m I J. assert (j * n + n <= m * n)%nat by (replace (j * n + n)%nat with ((S j) * n)%nat by lia; apply Nat.mul_le_mono_r; lia). lia. Qed.
Lemma nth_error_firstn_lt : forall (A : Type) (l : list A) n i, (i < n)%nat -> nth_error (firstn n l) i = nth_error l i.
Proof.
  intros A l. induction l as [|x l IH]; intros n i H; [rewrite firstn_nil; reflexivity|]. destruct n as [|n]; [lia|].
  destruct i as [|i]; [reflexivity|]. cbn [firstn nth_error]. apply IH. lia.
Qed.
Lemma samples_first : forall (A : Type) ps xs (f : list A) F, samples ps xs f F -> samples ps xs (firstn (length ps * length xs) f) F.
Proof.
  intros A ps xs f F H i j p x P X. rewrite nth_error_firstn_lt by
    (apply index_inside; apply nth_error_Some; rewrite ?P, ?X; discriminate). apply H; assumption.
Qed.
(** The value of the bilinear interpolation: the four corners of the cell that holds the point. *)
Lemma bilinear_cell : forall ps xs f (F : R -> R -> xreal) p x, (2 <= length ps)%nat -> (2 <= length xs)%nat -> ascending ps -> ascending xs ->
  samples ps xs f F -> within ps p -> within xs x -> exists a b c d,
    nth_error ps (interval ps p) = Some a /\ nth_error ps (S (interval ps p)) = Some b /\
    nth_error xs (interval xs x) = Some c /\ nth_error xs (S (interval xs x)) = Some d /\
    a < b /\ c < d /\ a <= p <= b /\ c <= x <= d /\
    gsl_bilinear ps xs f p x =
      let t := (p - a) / (b - a) in let u := (x - c) / (d - c) in
      xadd (xadd (xadd (xscale ((1 - t) * (1 - u)) (F a c)) (xscale (t * (1 - u)) (F b c)))
                 (xscale ((1 - t) * u) (F a d))) (xscale (t * u) (F b d)).
Proof.
  intros ps xs f F p x L1 L2 G1 G2 SA W1 W2.
  destruct (interval_finds ps p L1 W1) as (a & b & A & B & H1 & _). destruct (interval_finds xs x L2 W2) as (c & d & C & D & H2 & _).
  pose proof (ascending_step _ _ _ _ G1 A B) as Q1. pose proof (ascending_step _ _ _ _ G2 C D) as Q2.
  exists a, b, c, d. split; [exact A|]. split; [exact B|]. split; [exact C|]. split; [exact D|].
  split; [exact Q1|]. split; [exact Q2|]. split; [exact H1|]. split; [exact H2|]. unfold gsl_bilinear. cbn zeta.
  rewrite (nth_some _ ps _ 0 _ A), (nth_some _ ps _ 0 _ B), (nth_some _ xs _ 0 _ C), (nth_some _ xs _ 0 _ D).
  rewrite (nth_some _ f _ NaN _ (SA _ _ _ _ A C)), (nth_some _ f _ NaN _ (SA _ _ _ _ B C)),
    (nth_some _ f _ NaN _ (SA _ _ _ _ A D)), (nth_some _ f _ NaN _ (SA _ _ _ _ B D)). reflexivity.
Qed.
Lemma bilinear_finite : forall ps xs f (F : R -> R -> R) p x, (2 <= length ps)%nat -> (2 <= length xs)%nat -> ascending ps -> ascending xs ->
  samples ps xs f (fun p x => Fin (F p x)) -> within ps p -> within xs x -> exists a b c d,
    nth_error ps (interval ps p) = Some a /\ nth_error ps (S (interval ps p)) = Some b /\
    nth_error xs (interval xs x) = Some c /\ nth_error xs (S (interval xs x)) = Some d /\
    a < b /\ c < d /\ a <= p <= b /\ c <= x <= d /\
    gsl_bilinear ps xs f p x = Fin (patch a b c d (F a c) (F b c) (F a d) (F b d) p x).
Proof.
  intros ps xs f F p x L1 L2 G1 G2 SA W1 W2.
  destruct (bilinear_cell ps xs f _ p x L1 L2 G1 G2 SA W1 W2) as (a & b & c & d & A & B & C & D & Q1 & Q2 & H1 & H2 & E).
  exists a, b, c, d. repeat (split; [assumption|]). rewrite E. cbn. f_equal. unfold patch, through. field. lra.
Qed.
Lemma end_first : forall l i a v, ascending l -> nth_error l 0 = Some a -> nth_error l i = Some v -> a <= v.
Proof.
  intros l i a v G A V. destruct (Nat.eq_dec i 0) as [->|N]; [rewrite A in V; injection V as ->; lra|]. left. apply (G 0%nat i a v); [lia|assumption|assumption].
Qed.
Lemma end_last : forall l i b v, ascending l -> nth_error l (length l - 1) = Some b -> nth_error l i = Some v -> v <= b.
Proof.
  intros l i b v G B V. assert (i < length l)%nat by (apply nth_error_Some; rewrite V; discriminate).
  destruct (Nat.eq_dec i (length l - 1)) as [->|N]; [rewrite B in V; injection V as ->; lra|]. left. apply (G i (length l - 1)%nat v b); [lia|assumption|assumption].
Qed.
Lemma within_ends : forall l : list R, (1 <= length l)%nat -> exists a b, nth_error l 0 = Some a /\ nth_error l (length l - 1) = Some b.
Proof.
  intros l L. destruct (nth_error l 0) as [a|] eqn:A; [|apply nth_error_None in A; lia].
  destruct (nth_error l (length l - 1)) as [b|] eqn:B; [|apply nth_error_None in B; lia]. exists a, b. split; reflexivity.
Qed.
Lemma within_node : forall l i v, ascending l -> nth_error l i = Some v -> within l v.
Proof.
  intros l i v G V. assert (L : (i < length l)%nat) by (apply nth_error_Some; rewrite V; discriminate).
  destruct (within_ends l ltac:(lia)) as (a & b & A & B). exists a, b. split; [exact A|]. split; [exact B|].
  split; [apply (end_first l i a v G A V)|apply (end_last l i b v G B V)].
Qed.
(** The error of a table. *)
Lemma table_error : forall Mp Mx hp hx ps xs f F p x, (2 <= length ps)%nat -> (2 <= length xs)%nat -> ascending ps -> ascending xs ->
  spacing hp ps -> spacing hx xs -> samples ps xs f (fun p x => Fin (F p x)) -> smooth Mp Mx ps xs F -> within ps p -> within xs x ->
  exists v, gsl_bilinear ps xs f p x = Fin v /\ Rabs (v - F p x) <= Mp * hp ^ 2 / 8 + Mx * hx ^ 2 / 8.
Proof.
  intros Mp Mx hp hx ps xs f F p x L1 L2 G1 G2 S1 S2 SA (B1 & B2) W1 W2.
  destruct (bilinear_finite ps xs f F p x L1 L2 G1 G2 SA W1 W2) as (a & b & c & d & A & B & C & D & Q1 & Q2 & H1 & H2 & E).
  eexists. split; [exact E|]. destruct W1 as (p0 & p1 & P0 & P1 & HP). destruct W2 as (x0 & x1 & X0 & X1 & HX).
  pose proof (end_first _ _ _ _ G1 P0 A). pose proof (end_last _ _ _ _ G1 P1 B). pose proof (end_first _ _ _ _ G2 X0 C). pose proof (end_last _ _ _ _ G2 X1 D).
  apply (patch_error Mp Mx hp hx a b c d F p x Q1 Q2 (S1 _ _ _ A B) (S2 _ _ _ C D) H1 H2).
  - apply (bends_part Mp p0 p1); [|assumption|assumption]. apply B1; [exact P0|exact P1|apply (within_node xs _ _ G2 C)].
  - apply (bends_part Mp p0 p1); [|assumption|assumption]. apply B1; [exact P0|exact P1|apply (within_node xs _ _ G2 D)].
  - apply (bends_part Mx x0 x1); [|assumption|assumption]. apply B2; [exact X0|exact X1|]. exists p0, p1. split; [exact P0|]. split; [exact P1|exact HP].
Qed.
(** A cell with an infinite corner. *)
Lemma infinite_corner : forall t u z00 z10 z01 z11, 0 <= t <= 1 -> 0 <= u <= 1 ->
  (forall z, In z [z00; z10; z01; z11] -> z <> PInf /\ z <> NaN) -> In NInf [z00; z10; z01; z11] ->
  let v := xadd (xadd (xadd (xscale ((1 - t) * (1 - u)) z00) (xscale (t * (1 - u)) z10)) (xscale ((1 - t) * u) z01)) (xscale (t * u) z11) in
  v = NInf \/ v = NaN.
Proof.
  intros t u z00 z10 z01 z11 T U NP IN. cbn zeta.
  assert (N : forall c z, 0 <= c -> In z [z00; z10; z01; z11] -> (z = NInf -> xscale c z = NInf \/ xscale c z = NaN) /\
    (xscale c z = NInf \/ xscale c z = NaN \/ exists v, xscale c z = Fin v)).
  { intros c z C Z. destruct (NP z Z) as (Z1 & Z2). destruct z; [|contradiction| |contradiction]; cbn.
    - split; [discriminate|]. right. right. eexists. reflexivity.
    - destruct (Rlt_dec 0 c); [split; intros; left; reflexivity|]. destruct (Rlt_dec c 0); [lra|]. split; [intros; right; reflexivity|]. right. left. reflexivity. }
  assert (C1 : 0 <= (1 - t) * (1 - u)) by (apply Rmult_le_pos; lra). assert (C2 : 0 <= t * (1 - u)) by (apply Rmult_le_pos; lra).
  assert (C3 : 0 <= (1 - t) * u) by (apply Rmult_le_pos; lra). assert (C4 : 0 <= t * u) by (apply Rmult_le_pos; lra).
  destruct (N _ z00 C1 ltac:(cbn; tauto)) as (I1 & D1). destruct (N _ z10 C2 ltac:(cbn; tauto)) as (I2 & D2).
  destruct (N _ z01 C3 ltac:(cbn; tauto)) as (I3 & D3). destruct (N _ z11 C4 ltac:(cbn; tauto)) as (I4 & D4).
  set (v1 := xscale ((1 - t) * (1 - u)) z00) in *. set (v2 := xscale (t * (1 - u)) z10) in *. set (v3 := xscale ((1 - t) * u) z01) in *. set (v4 := xscale (t * u) z11) in *.
  clearbody v1 v2 v3 v4. clear N NP.
  assert (K : forall v w, (v = NInf \/ v = NaN \/ exists r, v = Fin r) -> (w = NInf \/ w = NaN \/ exists r, w = Fin r) ->
    (xadd v w = NInf \/ xadd v w = NaN \/ exists r, xadd v w = Fin r) /\ ((v = NInf \/ v = NaN) \/ (w = NInf \/ w = NaN) -> xadd v w = NInf \/ xadd v w = NaN)).
  { intros v w V W. destruct V as [ -> | [ -> | (r & ->) ] ], W as [ -> | [ -> | (q & ->) ] ]; cbn; (split; [|intros K]); try tauto;
      try (right; right; eexists; reflexivity). destruct K as [ [K|K] | [K|K] ]; discriminate. }
  destruct (K v1 v2 D1 D2) as (E1 & K1). destruct (K _ v3 E1 D3) as (E2 & K2). destruct (K _ v4 E2 D4) as (_ & K3).
  apply K3. cbn [In] in IN. destruct IN as [IN|[IN|[IN|[IN|[]]]]]; [left; apply K2; left; apply K1; left; auto|left; apply K2; left; apply K1; right; auto|left; apply K2; right; auto|right; auto].
Qed.

(** * One dimension *)
Lemma linear_finds : forall xs ys x, (2 <= length xs)%nat -> ascending xs -> within xs x -> (length xs <= length ys)%nat -> exists a b u v,
  nth_error xs (interval xs x) = Some a /\ nth_error xs (S (interval xs x)) = Some b /\
  nth_error ys (interval xs x) = Some u /\ nth_error ys (S (interval xs x)) = Some v /\ a < b /\ a <= x <= b /\
  gsl_linear xs ys x = through a u b v x.
Proof.
  intros xs ys x L G W N. destruct (interval_finds xs x L W) as (a & b & A & B & H & _). pose proof (ascending_step _ _ _ _ G A B) as Q.
  assert (LB : (S (interval xs x) < length xs)%nat) by (apply nth_error_Some; rewrite B; discriminate).
  destruct (nth_error ys (interval xs x)) as [u|] eqn:U; [|apply nth_error_None in U; lia].
  destruct (nth_error ys (S (interval xs x))) as [v|] eqn:V; [|apply nth_error_None in V; lia].
  exists a, b, u, v. split; [exact A|]. split; [exact B|]. split; [reflexivity|]. split; [reflexivity|]. split; [exact Q|]. split; [exact H|].
  unfold gsl_linear. rewrite (nth_some _ xs _ 0 _ A), (nth_some _ xs _ 0 _ B), (nth_some _ ys _ 0 _ U), (nth_some _ ys _ 0 _ V). unfold through. field. lra.
Qed.
Lemma linear_error : forall M h xs ys g x, (2 <= length xs)%nat -> ascending xs -> spacing h xs -> within xs x -> (length xs <= length ys)%nat ->
  (forall i v, nth_error xs i = Some v -> nth_error ys i = Some (g v)) ->
  (forall a b, nth_error xs 0 = Some a -> nth_error xs (length xs - 1) = Some b -> bends M a b g) ->
  Rabs (gsl_linear xs ys x - g x) <= M * h ^ 2 / 8.
Proof.
  intros M h xs ys g x L G SP W N SA B. destruct (linear_finds xs ys x L G W N) as (a & b & u & v & A & Bb & U & V & Q & H & E). rewrite E.
  rewrite (SA _ _ A) in U. rewrite (SA _ _ Bb) in V. injection U as <-. injection V as <-.
  destruct W as (x0 & x1 & X0 & X1 & HX). apply chord_bound; [|exact Q|apply (SP _ _ _ A Bb)|exact H].
  apply (bends_part M x0 x1); [apply B; assumption|apply (end_first _ _ _ _ G X0 A)|apply (end_last _ _ _ _ G X1 Bb)].
Qed.
