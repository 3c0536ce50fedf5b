(** CODE distribution functions as state machines. *)
From Coq Require Import Reals Lra Lia List.
From Verif Require Import Base DomainModel AnalyticalModel NumericModel NumericSpec NumericArrays DistributionModel DistributionSpec DistributionProofs DistributionUse CodeModel CodeSpec CodeProofs.
Import ListNotations.
Local Open Scope R_scope.

(** The array [l] holds the first [n] Legendre polynomials at [x]. *)
Definition filled (l : list (option R)) (n : nat) (x : R) : Prop := forall i, (i < n)%nat -> nth_error l i = Some (Some (legendre i x)).
Lemma awrite_ok : forall l i v, (i < length l)%nat -> awrite l i v = Ok (update l i (Some v)).
Proof. intros l i v H. unfold awrite. replace (i <? length l)%nat with true by (symmetry; apply Nat.ltb_lt; exact H). reflexivity. Qed.
Lemma update_at : forall (A : Type) (l : list A) i x, (i < length l)%nat -> nth_error (update l i x) i = Some x.
Proof.
  intros A l i x H. destruct (nth_error l i) as [y|] eqn:E; [apply (update_same _ _ _ _ y E)|]. apply nth_error_None in E. lia.
Qed.
Lemma loop_ok : forall k i x l, filled l (i + 2) x -> (i + 2 + k <= length l)%nat ->
  exists l', legendre_loop k i x l = Ok l' /\ length l' = length l /\ filled l' (i + 2 + k) x.
Proof.
  induction k as [|k IH]; intros i x l F L.
  - exists l. rewrite Nat.add_0_r. split; [reflexivity|]. split; [reflexivity|exact F].
  - cbn [legendre_loop]. unfold aread. rewrite (F (i + 1)%nat), (F i) by lia. cbn [obind]. rewrite awrite_ok by lia. cbn [obind].
    destruct (IH (i + 1)%nat x (update l (i + 2) (Some ((2 * INR (i + 1) + 1) / (INR (i + 1) + 1) * x * legendre (i + 1) x - INR (i + 1) / (INR (i + 1) + 1) * legendre i x)))) as (l' & E & L' & F').
    + intros j J. destruct (Nat.eq_dec j (i + 2)) as [->|N].
      * rewrite update_at by lia. do 2 f_equal. replace (i + 2)%nat with (S (S i)) by lia. rewrite leg_SS. replace (i + 1)%nat with (S i) by lia. rewrite S_INR.
        field. pose proof (pos_INR i). lra.
      * rewrite update_other by lia. apply F. lia.
    + rewrite update_length. lia.
    + exists l'. split; [exact E|]. split; [rewrite L', update_length; reflexivity|]. replace (i + 2 + S k)%nat with (i + 1 + 2 + k)%nat by lia. exact F'.
Qed.
Lemma compute_ok : forall l x n, (2 <= n <= length l)%nat -> exists l', compute_legendre l x n = Ok l' /\ length l' = length l /\ filled l' n x.
Proof.
  intros l x n [H1 H2]. unfold compute_legendre. rewrite awrite_ok by lia. cbn [obind].
  replace (1 <=? n)%nat with true by (symmetry; apply Nat.leb_le; lia). rewrite awrite_ok by (rewrite update_length; lia). cbn [obind].
  destruct (loop_ok (n - 2) 0 x (update (update l 0 (Some 1)) 1 (Some x))) as (l' & E & L & F).
  - intros i I. destruct i as [|[|i]]; [| |lia].
    + rewrite update_other by lia. rewrite update_at by lia. reflexivity.
    + rewrite update_at by (rewrite update_length; lia). reflexivity.
  - rewrite !update_length. lia.
  - exists l'. split; [exact E|]. split; [rewrite L, !update_length; reflexivity|]. replace n with (0 + 2 + (n - 2))%nat by lia. exact F.
Qed.
Lemma compute_short : forall l x, compute_legendre l x (length l) = UB <-> (length l < 2)%nat.
Proof.
  intros l x. split.
  - intro E. destruct (le_lt_dec 2 (length l)) as [H|H]; [|exact H]. destruct (compute_ok l x (length l) ltac:(lia)) as (l' & E' & _). rewrite E' in E. discriminate.
  - intro H. destruct l as [|a [|b l]]; [reflexivity|reflexivity|cbn in H; lia].
Qed.

Lemma takes_ok : forall method p, (0 <= method <= 6)%Z -> ((least_points method <=? length p)%nat && monotone true p)%bool = true <-> takes method p.
Proof.
  intros method p M. rewrite andb_true_iff, monotone_spec, Nat.leb_le. unfold takes.
  assert (C : (method = 0 \/ method = 1 \/ method = 2 \/ method = 3 \/ method = 4 \/ method = 5 \/ method = 6)%Z) by lia.
  destruct C as [ -> | [ -> | [ -> | [ -> | [ -> | [ -> | -> ] ] ] ] ] ]; unfold least_points; cbn [Z.to_nat Pos.to_nat Pos.iter_op nth Nat.add]; split; intuition (try lia).
Qed.
Lemma initialize_iff : forall np nleg p f method, (1 <= nleg)%nat ->
  (exists o, code_initialize np nleg p f method = Ok o) <->
  (0 <= method <= 6)%Z /\ (nleg <= np <= length p)%nat /\ (nleg * np <= length f)%nat /\ takes method (firstn np p).
Proof.
  intros np nleg p f method L. unfold code_initialize. replace (nleg =? 0)%nat with false by (symmetry; apply Nat.eqb_neq; lia).
  destruct ((0 <=? method) && (method <=? 6))%Z%bool eqn:M; cbn [negb].
  - apply andb_true_iff in M. rewrite !Z.leb_le in M. destruct (np <? nleg)%nat eqn:E1; [split; [intros (o & Q); discriminate|apply Nat.ltb_lt in E1; lia]|]. apply Nat.ltb_ge in E1.
    destruct (length p <? np)%nat eqn:E2; [split; [intros (o & Q); discriminate|apply Nat.ltb_lt in E2; lia]|]. apply Nat.ltb_ge in E2.
    destruct (length f <? nleg * np)%nat eqn:E3; [split; [intros (o & Q); discriminate|apply Nat.ltb_lt in E3; intros (_ & _ & Q & _); exfalso; lia]|]. apply Nat.ltb_ge in E3.
    assert (T := takes_ok method (firstn np p) ltac:(lia)). rewrite (firstn_length_le p E2) in T.
    destruct ((least_points method <=? np)%nat && monotone true (firstn np p))%bool; cbn [negb]; split.
    + intros _. split; [lia|]. split; [lia|]. split; [exact E3|]. apply T. reflexivity.
    + intros _. eexists. reflexivity.
    + intros (o & Q). discriminate.
    + intros (_ & _ & _ & Q). apply T in Q. discriminate.
  - split; [intros (o & Q); discriminate|]. intros (Q & _). apply andb_false_iff in M. rewrite !Z.leb_gt in M. lia.
Qed.

Section Machine.
  Variable itp : Z -> list R -> list R -> R -> R.
  (** Objects an application can have: two modes at least, and arrays of the declared sizes. *)
  Definition sound (o : code) : Prop :=
    (2 <= c_nleg o)%nat /\ (1 <= c_np o <= length (c_p o))%nat /\ (c_nleg o * c_np o <= length (c_f o))%nat /\ length (c_leg o) = c_nleg o.
  (** The cache of an object: [last] is the pitch evaluated last; the array holds the polynomials
      there or, after ToMomentumSpace, those at one. *)
  Definition cached (o : code) (last : option R) (tabled : bool) : Prop :=
    c_xileg o = last /\ match last with Some x => filled (c_leg o) (c_nleg o) (if tabled then 1 else x) | None => True end.
  Definition same_data (o o' : code) : Prop :=
    c_method o' = c_method o /\ c_np o' = c_np o /\ c_nleg o' = c_nleg o /\ c_p o' = c_p o /\ c_f o' = c_f o.
  Definition value_of (o : code) : R -> R -> R := code_value itp (c_method o) (c_np o) (c_nleg o) (c_p o) (c_f o).
  Definition first_p (o : code) : R := Rmin (nth 0 (c_p o) 0) (nth (c_np o - 1) (c_p o) 0).
  Definition last_p (o : code) : R := Rmax (nth 0 (c_p o) 0) (nth (c_np o - 1) (c_p o) 0).

  Lemma initialize_sound : forall np nleg p f method o, code_initialize np nleg p f method = Ok o -> (2 <= nleg)%nat ->
    sound o /\ cached o None false /\ c_method o = method /\ c_np o = np /\ c_nleg o = nleg /\ c_p o = p /\ c_f o = f.
  Proof.
    intros np nleg p f method o E L. unfold code_initialize in E. destruct (nleg =? 0)%nat eqn:E0; [apply Nat.eqb_eq in E0; lia|].
    destruct (negb _); [discriminate|]. destruct (np <? nleg)%nat eqn:E1; [discriminate|]. destruct (length p <? np)%nat eqn:E2; [discriminate|].
    destruct (length f <? nleg * np)%nat eqn:E3; [discriminate|]. destruct (negb _); [discriminate|]. apply Nat.ltb_ge in E1. apply Nat.ltb_ge in E2. apply Nat.ltb_ge in E3. injection E as <-.
    split; [|split; [split; [reflexivity|exact I]|repeat split]]. unfold sound. cbn. rewrite repeat_length. lia.
  Qed.
  Lemma limits_ok : forall o, sound o -> code_limits o = Ok (first_p o, last_p o).
  Proof.
    intros o (_ & [H1 H2] & _). unfold code_limits. replace (c_np o =? 0)%nat with false by (symmetry; apply Nat.eqb_neq; lia). unfold dget.
    rewrite (nth_error_nth' (c_p o) 0) by lia. rewrite (nth_error_nth' (c_p o) 0) by lia. cbn [obind]. f_equal. unfold first_p, last_p.
    set (a := nth 0 (c_p o) 0). set (b := nth (c_np o - 1) (c_p o) 0). destruct (Rltb a b) eqn:E.
    - apply Rltb_t in E. rewrite Rmin_left, Rmax_right by lra. reflexivity.
    - apply Rltb_f in E. rewrite Rmin_right, Rmax_left by lra. reflexivity.
  Qed.
  Lemma sum_first : forall n (g : nat -> R), sum (S n) g = g 0%nat + sum n (fun i => g (S i)).
  Proof. induction n as [|n IH]; intro g; [cbn; ring|]. rewrite sum_S, IH, sum_S. ring. Qed.
  Lemma sum_ok : forall o leg p x, (c_nleg o * c_np o <= length (c_f o))%nat -> filled leg (c_nleg o) x -> forall k i s, (i + k = c_nleg o)%nat ->
    code_sum itp o leg p k i s = Ok (s + sum k (fun j => mode itp (c_method o) (c_np o) (c_p o) (c_f o) (i + j) p * legendre (i + j) (- x))).
  Proof.
    intros o leg p x L F. induction k as [|k IH]; intros i s K; [cbn; f_equal; ring|]. cbn [code_sum].
    replace (length (c_f o) <? (i + 1) * c_np o)%nat with false.
    - unfold aread. rewrite (F i) by lia. cbn [obind]. rewrite IH by lia. f_equal. rewrite sum_first, Nat.add_0_r, leg_parity.
      rewrite (sum_ext k (fun j => mode itp (c_method o) (c_np o) (c_p o) (c_f o) (S i + j) p * legendre (S i + j) (- x))
        (fun j => mode itp (c_method o) (c_np o) (c_p o) (c_f o) (i + S j) p * legendre (i + S j) (- x))) by (intros j _; rewrite Nat.add_succ_r; reflexivity).
      unfold mode at 2. ring.
    - symmetry. apply Nat.ltb_ge. apply Nat.le_trans with (c_nleg o * c_np o)%nat; [apply Nat.mul_le_mono_r; lia|exact L].
  Qed.
  Lemma positive_part : forall s, (if Rleb s 0 then 0 else s) = Rmax 0 s.
  Proof.
    intro s. destruct (Rleb s 0) eqn:E; [apply Rleb_t in E; rewrite Rmax_left by lra; reflexivity|apply Rleb_f in E; rewrite Rmax_right by lra; reflexivity].
  Qed.
  (** One evaluation. *)
  Lemma eval_step : forall o last tabled p xi, sound o -> cached o last tabled ->
    exists o', code_eval itp o p xi = Ok (o', value_of o p (match last with Some x => if Req_EM_T xi x then (if tabled then 1 else xi) else xi | None => xi end)) /\
      sound o' /\ same_data o o' /\
      let (last', tabled') := stale (first_p o) (last_p o) [CallEval p xi] last tabled in cached o' last' tabled'.
  Proof.
    intros o last tabled p xi S [X C]. assert (S' := S). destruct S' as (N & P & L & G). unfold code_eval. rewrite (limits_ok o S). cbn [obind fst snd].
    unfold value_of, code_value. cbn [stale]. fold (first_p o) (last_p o).
    destruct (Rlt_dec p (first_p o)) as [H|H].
    - replace (Rltb p (first_p o)) with true by (symmetry; apply Rltb_t; exact H). rewrite Bool.orb_true_r.
      exists o. split; [reflexivity|]. split; [exact S|]. split; [repeat split|]. split; assumption.
    - replace (Rltb p (first_p o)) with false by (symmetry; apply Rltb_f; lra). rewrite Bool.orb_false_r. destruct (Rlt_dec (last_p o) p) as [H'|H'].
      + replace (Rltb (last_p o) p) with true by (symmetry; apply Rltb_t; exact H').
        exists o. split; [reflexivity|]. split; [exact S|]. split; [repeat split|]. split; assumption.
      + replace (Rltb (last_p o) p) with false by (symmetry; apply Rltb_f; lra). rewrite X.
        assert (W : forall leg y, filled leg (c_nleg o) y -> obind (code_sum itp o leg p (c_nleg o) 0 0)
            (fun s => Ok (Code (c_method o) (c_np o) (c_nleg o) (c_p o) (c_f o) leg (Some xi), if Rleb s 0 then 0 else s)) =
            Ok (Code (c_method o) (c_np o) (c_nleg o) (c_p o) (c_f o) leg (Some xi), Rmax 0 (sum (c_nleg o) (fun i => mode itp (c_method o) (c_np o) (c_p o) (c_f o) i p * legendre i (- y))))).
        { intros leg y F. rewrite (sum_ok o leg p y L F (c_nleg o) 0 0 eq_refl). cbn [obind]. rewrite positive_part. do 3 f_equal. rewrite Rplus_0_l. reflexivity. }
        destruct (compute_ok (c_leg o) xi (c_nleg o) ltac:(lia)) as (leg & E & GL & F). destruct last as [x|].
        * destruct (Req_EM_T xi x) as [Q|Q].
          -- subst xi. cbn [obind]. rewrite (W _ _ C). eexists. split; [destruct tabled; reflexivity|]. split; [repeat split; assumption || (cbn; lia)|]. split; [repeat split|].
             split; [reflexivity|exact C].
          -- rewrite E. cbn [obind]. rewrite (W _ _ F). eexists. split; [reflexivity|]. split; [repeat split; try assumption; cbn; lia|]. split; [repeat split|].
             split; [reflexivity|exact F].
        * rewrite E. cbn [obind]. rewrite (W _ _ F). eexists. split; [reflexivity|]. split; [repeat split; try assumption; cbn; lia|]. split; [repeat split|].
          split; [reflexivity|exact F].
  Qed.

  (** * Tables *)
  Lemma pitch_last : forall u n, (2 <= n)%nat -> pitch u n (n - 1) = 1.
  Proof.
    intros u n H. assert (N : INR n - 1 <> 0) by (pose proof (le_INR 2 n H) as Q; cbn in Q; lra). unfold pitch. destruct u.
    - replace (n - (n - 1) - 1)%nat with 0%nat by lia. change (INR 0) with 0. replace (PI * 0 / (INR n - 1)) with 0 by (field; exact N). apply cos_0.
    - rewrite minus_INR by lia. change (INR 1) with 1. field. exact N.
  Qed.
  Lemma pitch_first : forall u n, (2 <= n)%nat -> pitch u n 0 = -1.
  Proof.
    intros u n H. assert (N : INR n - 1 <> 0) by (pose proof (le_INR 2 n H) as Q; cbn in Q; lra). unfold pitch. destruct u.
    - rewrite Nat.sub_0_r, minus_INR by lia. change (INR 1) with 1. replace (PI * (INR n - 1) / (INR n - 1)) with PI by (field; exact N). apply cos_PI.
    - change (INR 0) with 0. field. exact N.
  Qed.
  Lemma pitch_increasing : forall u n i j, (2 <= n)%nat -> (i < j < n)%nat -> pitch u n i < pitch u n j.
  Proof.
    intros u n i j H [IJ JN]. assert (N : 0 < INR n - 1) by (pose proof (le_INR 2 n H) as Q; cbn in Q; lra). unfold pitch. destruct u.
    - pose proof PI_RGT_0. assert (A : INR (n - j - 1) < INR (n - i - 1)) by (apply lt_INR; lia). assert (B : INR (n - i - 1) <= INR n - 1).
      { replace (INR n - 1) with (INR (n - 1)) by (rewrite minus_INR by lia; reflexivity). apply le_INR. lia. }
      pose proof (pos_INR (n - j - 1)).
      assert (U : PI * INR (n - j - 1) / (INR n - 1) < PI * INR (n - i - 1) / (INR n - 1)).
      { unfold Rdiv. apply Rmult_lt_compat_r; [apply Rinv_0_lt_compat; exact N|]. apply Rmult_lt_compat_l; assumption. }
      assert (V : PI * INR (n - i - 1) / (INR n - 1) <= PI).
      { apply Rmult_le_reg_r with (INR n - 1); [exact N|]. unfold Rdiv. rewrite Rmult_assoc, Rinv_l by lra. rewrite Rmult_1_r. apply Rmult_le_compat_l; lra. }
      assert (Z : 0 <= PI * INR (n - j - 1) / (INR n - 1)).
      { unfold Rdiv. apply Rmult_le_pos; [apply Rmult_le_pos; lra|left; apply Rinv_0_lt_compat; exact N]. }
      apply cos_decreasing_1; lra.
    - pose proof (lt_INR i j IJ). apply Rplus_lt_compat_l. unfold Rdiv. apply Rmult_lt_compat_r; [apply Rinv_0_lt_compat; exact N|]. lra.
  Qed.
  (** Element (j, i) of a table. *)
  Definition table_value (o : code) (lg : bool) (j : nat) (x : R) : R :=
    let s := sum (c_nleg o) (fun k => nth (k * c_np o + j) (c_f o) 0 * legendre k (- x)) in if lg then Rmax 0 s else s.
  Lemma table_sum_ok : forall o leg j x, (c_nleg o * c_np o <= length (c_f o))%nat -> filled leg (c_nleg o) x -> (j < c_np o)%nat -> forall k i s, (i + k = c_nleg o)%nat ->
    table_sum o leg j k i s = Ok (s + sum k (fun m => nth ((i + m) * c_np o + j) (c_f o) 0 * legendre (i + m) (- x))).
  Proof.
    intros o leg j x L F J. induction k as [|k IH]; intros i s K; [cbn; f_equal; ring|]. cbn [table_sum]. unfold dget.
    rewrite (nth_error_nth' (c_f o) 0) by (apply Nat.lt_le_trans with (c_nleg o * c_np o)%nat; [|exact L]; nia). cbn [obind]. unfold aread. rewrite (F i) by lia. cbn [obind].
    rewrite IH by lia. f_equal. rewrite sum_first, Nat.add_0_r, leg_parity.
    rewrite (sum_ext k (fun m => nth ((S i + m) * c_np o + j) (c_f o) 0 * legendre (S i + m) (- x))
      (fun m => nth ((i + S m) * c_np o + j) (c_f o) 0 * legendre (i + S m) (- x))) by (intros m _; rewrite Nat.add_succ_r; reflexivity).
    ring.
  Qed.
  Lemma rows_ok : forall o lg u n, (c_nleg o * c_np o <= length (c_f o))%nat -> (2 <= c_nleg o)%nat -> forall k i leg, length leg = c_nleg o -> (i + k = n)%nat ->
    exists leg', table_rows o lg u n k i leg = Ok (flat_map (fun m => map (fun j => table_value o lg j (pitch u n m)) (seq 0 (c_np o))) (seq i k), leg') /\
      length leg' = c_nleg o /\ (k <> 0%nat -> filled leg' (c_nleg o) (pitch u n (n - 1))).
  Proof.
    intros o lg u n L N. induction k as [|k IH]; intros i leg G K.
    - exists leg. split; [reflexivity|]. split; [exact G|]. intro Q. contradiction.
    - cbn [table_rows]. destruct (compute_ok leg (pitch u n i) (c_nleg o) ltac:(lia)) as (l1 & E & G1 & F). rewrite E. cbn [obind].
      rewrite (fill_ok _ (c_np o) _ (fun j => table_value o lg j (pitch u n i))).
      + cbn [obind]. destruct (IH (S i) l1 ltac:(lia) ltac:(lia)) as (l2 & E2 & G2 & F2). rewrite E2. cbn [obind fst snd].
        exists l2. split; [reflexivity|]. split; [exact G2|]. intros _. destruct k as [|k]; [|apply F2; discriminate].
        cbn in E2. injection E2 as <-. replace (n - 1)%nat with i by lia. exact F.
      + intros j J. rewrite (table_sum_ok o l1 j (pitch u n i) L F J (c_nleg o) 0 0 eq_refl). cbn [obind]. f_equal. unfold table_value. rewrite Rplus_0_l.
        change (fun m => nth ((0 + m) * c_np o + j) (c_f o) 0 * legendre (0 + m) (- pitch u n i)) with (fun m => nth (m * c_np o + j) (c_f o) 0 * legendre m (- pitch u n i)).
        set (s := sum (c_nleg o) (fun m => nth (m * c_np o + j) (c_f o) 0 * legendre m (- pitch u n i))).
        destruct lg; cbn [andb]; [|reflexivity]. destruct (Rltb s 0) eqn:Q; [apply Rltb_t in Q; rewrite Rmax_left by lra; reflexivity|apply Rltb_f in Q; rewrite Rmax_right by lra; reflexivity].
  Qed.
  Lemma flat_nth : forall (A : Type) (g : nat -> nat -> A) np k i a b, (a < np)%nat -> (b < k)%nat ->
    nth_error (flat_map (fun m => map (fun j => g j m) (seq 0 np)) (seq i k)) (a + b * np) = Some (g a (i + b)%nat).
  Proof.
    intros A g np. induction k as [|k IH]; intros i a b HA HB; [lia|]. cbn [seq flat_map]. destruct b as [|b].
    - rewrite nth_error_app1 by (rewrite map_length, seq_length; lia). change (a + 0 * np)%nat with (a + 0)%nat; rewrite !Nat.add_0_r. rewrite (nth_map_seq A (fun j => g j i)) by lia. reflexivity.
    - rewrite nth_error_app2 by (rewrite map_length, seq_length; nia). rewrite map_length, seq_length. replace (a + S b * np - np)%nat with (a + b * np)%nat by nia.
      rewrite IH by lia. replace (S i + b)%nat with (i + S b)%nat by lia. reflexivity.
  Qed.
  Lemma flat_length : forall (A : Type) (g : nat -> nat -> A) np k i, length (flat_map (fun m => map (fun j => g j m) (seq 0 np)) (seq i k)) = (np * k)%nat.
  Proof.
    intros A g np. induction k as [|k IH]; intro i; [cbn; lia|]. cbn [seq flat_map]. rewrite app_length, IH, map_length, seq_length. lia.
  Qed.
  (** One call of ToMomentumSpace. *)
  Lemma table_step : forall o last tabled lg u n method, sound o -> cached o last tabled -> (2 <= n)%nat ->
    exists o' ff, to_momentum o lg u n method = Ok (o', if lg then ms_initialize_log (firstn (c_np o) (c_p o)) (map (pitch u n) (seq 0 n)) ff method
                                                          else ms_initialize false false (firstn (c_np o) (c_p o)) (map (pitch u n) (seq 0 n)) (map Fin ff) method) /\
      sound o' /\ same_data o o' /\ cached o' last true /\ tabulates ff (c_np o) n (fun j i => table_value o lg j (pitch u n i)).
  Proof.
    intros o last tabled lg u n method S [X C] H. destruct S as (N & P & L & G).
    destruct (rows_ok o lg u n L N n 0 (c_leg o) G eq_refl) as (leg & E & GL & F). specialize (F ltac:(lia)). rewrite pitch_last in F by exact H.
    unfold to_momentum. rewrite E. cbn [obind fst snd]. eexists _, _. split; [reflexivity|]. split; [repeat split; try assumption; cbn; lia|]. split; [repeat split|].
    split; [split; [exact X|destruct last; [exact F|exact I]]|].
    split; [apply flat_length|]. intros j i J I0. apply (flat_nth R (fun j i => table_value o lg j (pitch u n i))); assumption.
  Qed.

  (** * Histories *)
  Definition modelled (c : call) : Prop := match c with CallTable _ _ n _ => (2 <= n)%nat | CallEval _ _ => True end.
  Lemma stale_cons : forall a b c h l t, stale a b (c :: h) l t = let (l', t') := stale a b [c] l t in stale a b h l' t'.
  Proof.
    intros a b c h l t. destruct c as [p xi|]; [|reflexivity]. cbn [stale]. destruct (Rlt_dec p a); [reflexivity|]. destruct (Rlt_dec b p); [reflexivity|].
    destruct l as [x|]; [destruct (Req_EM_T xi x)|]; reflexivity.
  Qed.
  Lemma same_trans : forall a b c, same_data a b -> same_data b c -> same_data a c.
  Proof. intros a b c (A1 & A2 & A3 & A4 & A5) (B1 & B2 & B3 & B4 & B5). repeat split; congruence. Qed.
  Lemma same_value : forall o o', same_data o o' -> value_of o' = value_of o /\ first_p o' = first_p o /\ last_p o' = last_p o.
  Proof. intros o o' (A1 & A2 & A3 & A4 & A5). unfold value_of, first_p, last_p. rewrite A1, A2, A3, A4, A5. repeat split. Qed.
  Lemma calls_step : forall h o last tabled, sound o -> cached o last tabled -> Forall modelled h ->
    exists o', code_calls itp o h = Ok o' /\ sound o' /\ same_data o o' /\
      let (last', tabled') := stale (first_p o) (last_p o) h last tabled in cached o' last' tabled'.
  Proof.
    induction h as [|c h IH]; intros o last tabled S C M.
    - exists o. split; [reflexivity|]. split; [exact S|]. split; [repeat split|exact C].
    - apply Forall_cons_iff in M. destruct M as [M1 M2]. rewrite stale_cons.
      assert (Q : exists o1, code_call itp o c = Ok o1 /\ sound o1 /\ same_data o o1 /\ let (l', t') := stale (first_p o) (last_p o) [c] last tabled in cached o1 l' t').
      { destruct c as [p xi|lg u n method].
        - destruct (eval_step o last tabled p xi S C) as (o1 & E & S1 & D1 & C1). exists o1. split; [cbn [code_call]; rewrite E; reflexivity|]. split; [exact S1|]. split; assumption.
        - destruct (table_step o last tabled lg u n method S C M1) as (o1 & ff & E & S1 & D1 & C1 & _). exists o1. split; [cbn [code_call]; rewrite E; reflexivity|]. split; [exact S1|]. split; assumption. }
      destruct Q as (o1 & E1 & S1 & D1 & C1). destruct (stale (first_p o) (last_p o) [c] last tabled) as [l' t'].
      destruct (IH o1 l' t' S1 C1 M2) as (o2 & E2 & S2 & D2 & C2). destruct (same_value o o1 D1) as (_ & Q1 & Q2). rewrite Q1, Q2 in C2.
      exists o2. split; [cbn [code_calls]; rewrite E1; exact E2|]. split; [exact S2|]. split; [apply (same_trans o o1 o2 D1 D2)|exact C2].
  Qed.
End Machine.
