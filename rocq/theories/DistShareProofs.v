(** Proofs about shared arrays and momentum-space functions (C109). *)
From Coq Require Import Reals Lia.
From Verif Require Import Base DomainModel DistributionModel DistributionUse DistShareModel DistShareSpec.

(** * Lists *)
Lemma put_at_length : forall (T : Type) (l : list T) i x, length (put_at l i x) = length l.
Proof. intros T. induction l as [|y l IH]; intros [|i] x; try reflexivity. cbn. rewrite IH. reflexivity. Qed.
Lemma put_at_same : forall (T : Type) (l : list T) i x, (i < length l)%nat -> nth_error (put_at l i x) i = Some x.
Proof. intros T. induction l as [|y l IH]; intros [|i] x L; cbn in *; try lia; [reflexivity|]. apply IH. lia. Qed.
Lemma put_at_other : forall (T : Type) (l : list T) i j x, i <> j -> nth_error (put_at l i x) j = nth_error l j.
Proof. intros T. induction l as [|y l IH]; intros [|i] [|j] x N; try reflexivity; try congruence. cbn. apply IH. congruence. Qed.
Lemma put_at_app : forall (T : Type) (l r : list T) i x, (i < length l)%nat -> put_at (l ++ r) i x = put_at l i x ++ r.
Proof. intros T. induction l as [|y l IH]; intros r [|i] x L; cbn in *; try lia; [reflexivity|]. rewrite IH by lia. reflexivity. Qed.
Lemma put_at_last : forall (T : Type) (l : list T) y x, put_at (l ++ [y]) (length l) x = l ++ [x].
Proof. intros T. induction l as [|z l IH]; intros y x; [reflexivity|]. cbn. rewrite IH. reflexivity. Qed.

Lemma some_lt : forall (T : Type) (l : list T) i x, nth_error l i = Some x -> (i < length l)%nat.
Proof. intros T l i x E. apply nth_error_Some. rewrite E. discriminate. Qed.
Lemma nth_app_l : forall (T : Type) (l r : list T) i x, nth_error l i = Some x -> nth_error (l ++ r) i = Some x.
Proof. intros T l r i x E. rewrite nth_error_app1 by (apply (some_lt _ _ _ _ E)). exact E. Qed.

Section Proofs.
Variable A : Type.
Variables (gt : A -> A -> bool) (fit : bool -> list A -> bool) (neg : A -> bool) (lg slog : A -> A) (val : view A -> R -> R -> outcome (option R)).
Notation stp := (step gt fit neg lg slog val).
Notation rn := (run gt fit neg lg slog val).

Lemma obind_ok : forall (X Y : Type) (o : outcome X) (k : X -> outcome Y) y, obind o k = Ok y -> exists x, o = Ok x /\ k x = Ok y.
Proof. intros X Y [x| |] k y H; try discriminate. exists x. split; [reflexivity|exact H]. Qed.

Lemma mom_at_ok : forall (ms : list (option (mom A))) j m, mom_at ms j = Ok m <-> nth_error ms j = Some (Some m).
Proof.
  intros ms j m. unfold mom_at. destruct (nth_error ms j) as [[x|]|]; split; intro H; try discriminate; congruence.
Qed.
Lemma dist_at_ok : forall (w : world A) d o, dist_at w d = Ok o <-> nth_error (w_dists w) d = Some (Some o).
Proof.
  intros w d o. unfold dist_at. destruct (nth_error (w_dists w) d) as [[x|]|]; split; intro H; try discriminate; congruence.
Qed.

(** * Effects on momentum-space functions *)
Lemma flip_all_spec : forall js (ms ms' : list (option (mom A))) v, flip_all ms js v = Ok ms' ->
  length ms' = length ms /\
  (forall j, ~ In j js -> nth_error ms' j = nth_error ms j) /\
  (forall j, In j js -> exists m, nth_error ms j = Some (Some m) /\ nth_error ms' j = Some (Some (set_flip v m))).
Proof.
  induction js as [|i js IH]; intros ms ms' v H; cbn [flip_all] in H.
  - injection H as <-. split; [reflexivity|]. split; [reflexivity|]. intros j [].
  - apply obind_ok in H. destruct H as (m & M & H). apply mom_at_ok in M. pose proof (some_lt _ _ _ _ M) as L.
    destruct (IH _ _ _ H) as (I0 & I1 & I2). rewrite put_at_length in I0. split; [exact I0|]. split.
    + intros j N. rewrite I1 by (intro W; apply N; right; exact W). apply put_at_other. intro E. apply N. left. exact E.
    + intros j [E|J].
      * subst j. exists m. split; [exact M|]. destruct (in_dec Nat.eq_dec i js) as [W|W].
        -- destruct (I2 i W) as (m1 & M1 & M2). rewrite put_at_same in M1 by exact L. injection M1 as <-. exact M2.
        -- rewrite I1 by exact W. apply put_at_same. exact L.
      * destruct (I2 j J) as (m1 & M1 & M2). destruct (Nat.eq_dec i j) as [->|N].
        -- rewrite put_at_same in M1 by exact L. injection M1 as <-. exists m. split; [exact M|exact M2].
        -- rewrite put_at_other in M1 by exact N. exists m1. split; assumption.
Qed.
Lemma log_all_spec : forall js (ms ms' : list (option (mom A))), log_all ms js = Ok ms' ->
  length ms' = length ms /\
  (forall j, ~ In j js -> nth_error ms' j = nth_error ms j) /\
  (forall j, In j js -> exists m, nth_error ms j = Some (Some m) /\ nth_error ms' j = Some (Some (set_log true m))).
Proof.
  induction js as [|i js IH]; intros ms ms' H; cbn [log_all] in H.
  - injection H as <-. split; [reflexivity|]. split; [reflexivity|]. intros j [].
  - apply obind_ok in H. destruct H as (m & M & H). apply mom_at_ok in M. pose proof (some_lt _ _ _ _ M) as L.
    destruct (IH _ _ H) as (I0 & I1 & I2). rewrite put_at_length in I0. split; [exact I0|]. split.
    + intros j N. rewrite I1 by (intro W; apply N; right; exact W). apply put_at_other. intro E. apply N. left. exact E.
    + intros j [E|J].
      * subst j. exists m. split; [exact M|]. destruct (in_dec Nat.eq_dec i js) as [W|W].
        -- destruct (I2 i W) as (m1 & M1 & M2). rewrite put_at_same in M1 by exact L. injection M1 as <-. exact M2.
        -- rewrite I1 by exact W. apply put_at_same. exact L.
      * destruct (I2 j J) as (m1 & M1 & M2). destruct (Nat.eq_dec i j) as [->|N].
        -- rewrite put_at_same in M1 by exact L. injection M1 as <-. exists m. split; [exact M|exact M2].
        -- rewrite put_at_other in M1 by exact N. exists m1. split; assumption.
Qed.

(** Clones: new functions behind the old ones, each used once. *)
Lemma clone_all_spec : forall h (o : radial nat) rs ms i df ms' df', clone_all gt fit h ms o rs i df = Ok (Some (ms', df')) ->
  exists new, ms' = ms ++ map Some new /\ length new = length rs /\ length (rd_ms df') = (length (rd_ms df) + length rs)%nat /\
    (forall j, In j (rd_ms df') <-> In j (rd_ms df) \/ (length ms <= j < length ms + length rs)%nat) /\
    (NoDup (rd_ms df) -> (forall j, In j (rd_ms df) -> (j < length ms)%nat) -> NoDup (rd_ms df')).
Proof.
  intros h o. induction rs as [|x rs IH]; intros ms i df ms' df' H; cbn [clone_all] in H.
  - injection H as <- <-. exists []. cbn [map length]. rewrite app_nil_r. repeat (split; [reflexivity || lia|]).
    split; [|intros; assumption]. intro j. split; [intro; left; assumption|]. intros [W|W]; [exact W|lia].
  - apply obind_ok in H. destruct H as (j0 & J0 & H). apply obind_ok in H. destruct H as (m & M & H).
    apply obind_ok in H. destruct H as ([c ok] & C & H). cbn [fst snd] in H. destruct ok; [|discriminate].
    apply obind_ok in H. destruct H as ([df1 z] & I & H). cbn [fst] in H.
    destruct (insert_shape _ _ _ _ _ _ I) as (k & -> & KL & MS & _ & _).
    destruct (IH _ _ _ _ _ H) as (new & E1 & E2 & E3 & E4 & E5). rewrite app_length in E4, E5. cbn [length] in E4, E5.
    assert (L1 : length (rd_ms df1) = S (length (rd_ms df))).
    { rewrite MS, app_length. cbn [length]. rewrite firstn_length, skipn_length. lia. }
    assert (I1 : forall j, In j (rd_ms df1) <-> j = length ms \/ In j (rd_ms df)).
    { intro j. rewrite MS, in_app_iff. cbn [In]. rewrite <- (firstn_skipn k (rd_ms df)) at 3. rewrite in_app_iff. intuition congruence. }
    exists (c :: new). split; [rewrite E1, <- app_assoc; reflexivity|]. split; [cbn; lia|]. split; [cbn; lia|]. split.
    + intro j. rewrite E4, I1. cbn [length]. intuition lia.
    + intros ND B. apply E5.
      * rewrite MS. apply NoDup_Add with (a := length ms) (l := rd_ms df).
        -- rewrite <- (firstn_skipn k (rd_ms df)) at 1. apply Add_app.
        -- split; [exact ND|]. intro W. apply B in W. lia.
      * intros j W. apply I1 in W. destruct W as [->|W]; [lia|]. apply B in W. lia.
Qed.

(** Initialising a distribution. *)
Lemma init_all_spec : forall h g it k ms js i ms' js' ok, init_all gt fit h ms js g it k i = Ok (ms', js', ok) ->
  exists n, (n <= k)%nat /\ (ok = true -> n = k) /\ length ms' = (length ms + n)%nat /\ js' = js ++ seq (length ms) n /\
    (forall j, (j < length ms)%nat -> ~ In j js -> nth_error ms' j = nth_error ms j) /\
    (forall j, (length ms <= j < length ms + n)%nat -> exists m, nth_error ms' j = Some (Some m)).
Proof.
  intros h g it. induction k as [|k IH]; intros ms js i ms' js' ok H; cbn [init_all] in H.
  - injection H as <- <- <-. exists 0%nat. rewrite Nat.add_0_r, app_nil_r. repeat (split; [reflexivity || lia|]).
    intros j J. lia.
  - apply obind_ok in H. destruct H as (j0 & J0 & H). apply obind_ok in H. destruct H as (m & M & H).
    apply obind_ok in H. destruct H as ([m' b] & C & H). cbn [fst snd] in H. apply mom_at_ok in M.
    assert (IN : In j0 (js ++ [length ms])).
    { unfold dget in J0. destruct (nth_error (js ++ [length ms]) i) eqn:Q; [|discriminate]. injection J0 as ->. apply nth_error_In in Q. exact Q. }
    assert (LL : length (put_at (ms ++ [Some new_mom]) j0 (Some m')) = S (length ms)) by (rewrite put_at_length, app_length; cbn; lia).
    assert (OLD : forall j, (j < length ms)%nat -> ~ In j js -> nth_error (put_at (ms ++ [Some new_mom]) j0 (Some m')) j = nth_error ms j).
    { intros j L N. rewrite put_at_other, nth_error_app1 by (exact L || (intro; subst j0; apply in_app_iff in IN; destruct IN as [W|[W|[]]]; [contradiction|lia])). reflexivity. }
    assert (NEW : exists m1, nth_error (put_at (ms ++ [Some new_mom]) j0 (Some m')) (length ms) = Some (Some m1)).
    { destruct (Nat.eq_dec j0 (length ms)) as [->|N].
      - exists m'. apply put_at_same. rewrite app_length. cbn. lia.
      - exists new_mom. rewrite put_at_other, nth_error_app2, Nat.sub_diag by (lia || exact N). reflexivity. }
    destruct b.
    + destruct (IH _ _ _ _ _ _ H) as (n & N1 & N2 & N3 & N4 & N5 & N6). rewrite LL in N3, N4, N5, N6.
      exists (S n). split; [lia|]. split; [intro W; rewrite (N2 W); reflexivity|]. split; [lia|].
      split; [rewrite N4, <- app_assoc; reflexivity|]. split.
      * intros j L N. rewrite N5; [apply OLD; assumption|lia|]. intro W. apply in_app_iff in W. destruct W as [W|[W|[]]]; [contradiction|lia].
      * intros j J. destruct (Nat.eq_dec j (length ms)) as [->|NE]; [|apply N6; lia].
        clear N6. revert H. revert NEW.
        generalize (put_at (ms ++ [Some new_mom]) j0 (Some m')). clear. intros ms1 (m1 & E1) H.
        assert (G : forall k ms1 js i ms' js' ok j m1, init_all gt fit h ms1 js g it k i = Ok (ms', js', ok) -> nth_error ms1 j = Some (Some m1) -> exists m, nth_error ms' j = Some (Some m)).
        { clear. induction k as [|k IH]; intros ms1 js i ms' js' ok j m1 H E; cbn [init_all] in H; [injection H as <- _ _; exists m1; exact E|].
          apply obind_ok in H. destruct H as (j0 & J0 & H). apply obind_ok in H. destruct H as (m & M & H).
          apply obind_ok in H. destruct H as ([m' b] & C & H). cbn [fst snd] in H.
          assert (X : exists m2, nth_error (put_at (ms1 ++ [Some new_mom]) j0 (Some m')) j = Some (Some m2)).
          { pose proof (some_lt _ _ _ _ E) as L. destruct (Nat.eq_dec j0 j) as [->|N].
            - exists m'. apply put_at_same. rewrite app_length. lia.
            - exists m1. rewrite put_at_other by exact N. apply nth_app_l. exact E. }
          destruct X as (m2 & X). destruct b; [apply (IH _ _ _ _ _ _ _ _ H X)|]. injection H as <- _ _. exists m2. exact X. }
        apply (G _ _ _ _ _ _ _ _ _ H E1).
    + injection H as <- <- <-. exists 1%nat. split; [lia|]. split; [discriminate|]. split; [lia|]. split; [reflexivity|].
      split; [exact OLD|]. intros j J. replace j with (length ms) by lia. exact NEW.
Qed.

Lemma init_dist_spec : forall h ms (o : radial nat) rs g it ms' o' ok, init_dist gt fit h ms o rs g it = Ok (ms', o', ok) ->
  exists n, (ok = true -> n = length rs) /\ length ms' = (length ms + n)%nat /\ rd_ms o' = rd_ms o ++ seq (length ms) n /\
    (forall j, (j < length ms)%nat -> ~ In j (rd_ms o) -> nth_error ms' j = nth_error ms j) /\ rd_extra o' = rd_extra o.
Proof.
  intros h ms o rs g it ms' o' ok H. unfold init_dist in H.
  destruct (match rs with [] => ([], true) | a :: l => push_radii (match rs with a0 :: b :: _ :: _ => Rleb a0 b | _ => true end) a l end) as [new b] eqn:P.
  destruct b.
  - apply obind_ok in H. destruct H as (lo & LO & H). apply obind_ok in H. destruct H as (hi & HI & H).
    apply obind_ok in H. destruct H as ([[ms1 js1] b] & I & H). cbn [fst snd] in H. injection H as <- <- <-.
    destruct (init_all_spec _ _ _ _ _ _ _ _ _ _ I) as (n & N1 & N2 & N3 & N4 & N5 & _).
    exists n. cbn [rd_ms rd_extra]. repeat (split; [assumption|]). reflexivity.
  - injection H as <- <- <-. exists 0%nat. cbn [seq rd_ms rd_extra]. rewrite app_nil_r, Nat.add_0_r. split; [discriminate|].
    repeat (split; [reflexivity|]). split; reflexivity.
Qed.

Lemma insert_table_spec : forall (w : world A) d o x g it w' z, insert_table gt fit w d o x g it = Ok (w', z) ->
  exists c ok r i, w' = mkWorld (w_heap w) (w_moms w ++ [Some c]) (put_at (w_dists w) d (Some r)) /\
    initialize gt fit (w_heap w) new_mom g it = Ok (c, ok) /\ rd_insert o x (length (w_moms w)) = Ok (r, i) /\ z = (if ok then Some i else None).
Proof.
  intros w d o x g it w' z H. unfold insert_table in H. apply obind_ok in H. destruct H as ([r i] & I & H).
  apply obind_ok in H. destruct H as ([c ok] & C & H). cbn [fst snd] in H. injection H as <- <-. exists c, ok, r, i. repeat split; assumption.
Qed.

(** * One call and one function *)
Lemma step_keeps : forall w c w' r j x, stp w c = Ok (w', r) -> ~ touches w c j -> nth_error (w_moms w) j = Some x -> nth_error (w_moms w') j = Some x.
Proof.
  intros w c w' r j x H N E. pose proof (some_lt _ _ _ _ E) as L. destruct w as [h ms ds]. cbn [w_moms] in *.
  destruct c; cbn [step w_heap w_moms w_dists touches] in *.
  - injection H as <- _. exact E.
  - destruct (nth_error h b) as [[l0|]|]; try discriminate. destruct (length l =? length l0)%nat; [|discriminate]. injection H as <- _. exact E.
  - destruct (nth_error h b) as [[l0|]|]; try discriminate. injection H as <- _. exact E.
  - injection H as <- _. apply nth_app_l. exact E.
  - apply obind_ok in H. destruct H as (m & M & H). apply obind_ok in H. destruct H as ([m' b] & C & H). injection H as <- _. cbn [w_moms fst]. rewrite put_at_other by exact N. exact E.
  - apply obind_ok in H. destruct H as (m & M & H). apply obind_ok in H. destruct H as ([[h' m'] b] & C & H). injection H as <- _. cbn [w_moms fst snd]. rewrite put_at_other by exact N. exact E.
  - apply obind_ok in H. destruct H as (m & M & H). apply obind_ok in H. destruct H as ([m' b] & C & H). cbn [fst snd] in H.
    destruct b; injection H as <- _; [apply nth_app_l; exact E|exact E].
  - apply obind_ok in H. destruct H as (m & M & H). injection H as <- _. cbn [w_moms]. rewrite put_at_other by exact N. exact E.
  - apply obind_ok in H. destruct H as (m & M & H). injection H as <- _. cbn [w_moms]. rewrite put_at_other by exact N. exact E.
  - apply obind_ok in H. destruct H as (m & M & H). injection H as <- _. cbn [w_moms]. rewrite put_at_other by exact N. exact E.
  - apply obind_ok in H. destruct H as (v & V & H). injection H as <- _. exact E.
  - injection H as <- _. exact E.
  - apply obind_ok in H. destruct H as (o & O & H). apply dist_at_ok in O. cbn [w_dists] in O. apply obind_ok in H. destruct H as ([[ms' o'] b] & C & H). injection H as <- _. cbn [w_moms fst].
    destruct (init_dist_spec _ _ _ _ _ _ _ _ _ C) as (n & _ & _ & _ & K & _). rewrite K; [exact E|exact L|].
    intro W. apply N. exists (rd_ms o). split; [exists o; split; [exact O|reflexivity]|exact W].
  - apply obind_ok in H. destruct H as (o & O & H). apply dist_at_ok in O. cbn [w_dists] in O. apply obind_ok in H. destruct H as (f & F & H).
    apply obind_ok in H. destruct H as ([[ms' o'] b] & C & H). cbn [fst snd] in H.
    destruct (init_dist_spec _ _ _ _ _ _ _ _ _ C) as (n & N1 & N2 & N3 & K & _).
    assert (NI : ~ In j (rd_ms o)) by (intro W; apply N; exists (rd_ms o); split; [exists o; split; [exact O|reflexivity]|exact W]).
    destruct b.
    + apply obind_ok in H. destruct H as (ms2 & LA & H). injection H as <- _. cbn [w_moms].
      destruct (log_all_spec _ _ _ LA) as (_ & K2 & _). rewrite K2; [rewrite K; assumption|].
      intro W. assert (In j (rd_ms o')) as W' by (rewrite <- (firstn_skipn (length rs) (rd_ms o')); apply in_app_iff; left; exact W).
      rewrite N3 in W'. apply in_app_iff in W'. destruct W' as [W'|W']; [contradiction|]. apply in_seq in W'. lia.
    + injection H as <- _. cbn [w_moms]. rewrite K; assumption.
  - apply obind_ok in H. destruct H as (o & O & H). apply obind_ok in H. destruct H as (m & M & H). apply obind_ok in H. destruct H as (q & Q & H). injection H as <- _. exact E.
  - apply obind_ok in H. destruct H as (o & O & H). apply obind_ok in H. destruct H as ([w1 z] & C & H). injection H as <- _.
    destruct (insert_table_spec _ _ _ _ _ _ _ _ C) as (c & ok & r1 & i & -> & _). cbn [w_moms fst]. apply nth_app_l. exact E.
  - apply obind_ok in H. destruct H as (o & O & H). apply obind_ok in H. destruct H as (f & F & H). apply obind_ok in H. destruct H as ([w1 z] & C & H). cbn [fst snd] in H.
    destruct (insert_table_spec _ _ _ _ _ _ _ _ C) as (c & ok & r1 & i & -> & _). cbn [w_moms w_heap w_dists] in *. destruct z as [z|].
    + apply obind_ok in H. destruct H as (m & M & H). injection H as <- _. cbn [w_moms]. rewrite put_at_other by lia. apply nth_app_l. exact E.
    + injection H as <- _. cbn [w_moms]. apply nth_app_l. exact E.
  - apply obind_ok in H. destruct H as (o & O & H). apply obind_ok in H. destruct H as ([[ms' o']|] & C & H); injection H as <- _; [|exact E].
    destruct (clone_all_spec _ _ _ _ _ _ _ _ C) as (new & -> & _). cbn [w_moms]. apply nth_app_l. exact E.
  - apply obind_ok in H. destruct H as (o & O & H). apply dist_at_ok in O. cbn [w_dists] in O. apply obind_ok in H. destruct H as (ms' & F & H). injection H as <- _. cbn [w_moms].
    destruct (flip_all_spec _ _ _ _ F) as (_ & K & _). rewrite K; [exact E|]. intro W. apply N. exists (rd_ms o). split; [exists o; split; [exact O|reflexivity]|exact W].
  - apply obind_ok in H. destruct H as (o & O & H). injection H as <- _. exact E.
  - apply obind_ok in H. destruct H as (o & O & H). apply obind_ok in H. destruct H as (v & V & H). injection H as <- _. exact E.
Qed.

(** * One call and one distribution *)
Lemma step_keeps_dist : forall w c w' r d x, stp w c = Ok (w', r) -> ~ changes c d -> nth_error (w_dists w) d = Some x -> nth_error (w_dists w') d = Some x.
Proof.
  intros w c w' r d x H N E. destruct w as [h ms ds]. cbn [w_dists] in *.
  destruct c; cbn [step w_heap w_moms w_dists changes] in *.
  - injection H as <- _. exact E.
  - destruct (nth_error h b) as [[l0|]|]; try discriminate. destruct (length l =? length l0)%nat; [|discriminate]. injection H as <- _. exact E.
  - destruct (nth_error h b) as [[l0|]|]; try discriminate. injection H as <- _. exact E.
  - injection H as <- _. exact E.
  - apply obind_ok in H. destruct H as (m & M & H). apply obind_ok in H. destruct H as ([m' b] & C & H). injection H as <- _. exact E.
  - apply obind_ok in H. destruct H as (m & M & H). apply obind_ok in H. destruct H as ([[h' m'] b] & C & H). injection H as <- _. exact E.
  - apply obind_ok in H. destruct H as (m & M & H). apply obind_ok in H. destruct H as ([m' b] & C & H). cbn [fst snd] in H. destruct b; injection H as <- _; exact E.
  - apply obind_ok in H. destruct H as (m & M & H). injection H as <- _. exact E.
  - apply obind_ok in H. destruct H as (m & M & H). injection H as <- _. exact E.
  - apply obind_ok in H. destruct H as (m & M & H). injection H as <- _. exact E.
  - apply obind_ok in H. destruct H as (v & V & H). injection H as <- _. exact E.
  - injection H as <- _. apply nth_app_l. exact E.
  - apply obind_ok in H. destruct H as (o & O & H). apply obind_ok in H. destruct H as ([[ms' o'] b] & C & H). injection H as <- _. cbn [w_dists fst snd]. rewrite put_at_other by exact N. exact E.
  - apply obind_ok in H. destruct H as (o & O & H). apply obind_ok in H. destruct H as (f & F & H).
    apply obind_ok in H. destruct H as ([[ms' o'] b] & C & H). cbn [fst snd] in H. destruct b.
    + apply obind_ok in H. destruct H as (ms2 & LA & H). injection H as <- _. cbn [w_dists]. rewrite put_at_other by exact N. exact E.
    + injection H as <- _. cbn [w_dists]. rewrite put_at_other by exact N. exact E.
  - apply obind_ok in H. destruct H as (o & O & H). apply obind_ok in H. destruct H as (m & M & H). apply obind_ok in H. destruct H as (q & Q & H). injection H as <- _. cbn [w_dists]. rewrite put_at_other by exact N. exact E.
  - apply obind_ok in H. destruct H as (o & O & H). apply obind_ok in H. destruct H as ([w1 z] & C & H). injection H as <- _.
    destruct (insert_table_spec _ _ _ _ _ _ _ _ C) as (c & ok & r1 & i & -> & _). cbn [w_dists fst]. rewrite put_at_other by exact N. exact E.
  - apply obind_ok in H. destruct H as (o & O & H). apply obind_ok in H. destruct H as (f & F & H). apply obind_ok in H. destruct H as ([w1 z] & C & H). cbn [fst snd] in H.
    destruct (insert_table_spec _ _ _ _ _ _ _ _ C) as (c & ok & r1 & i & -> & _). cbn [w_moms w_heap w_dists] in *. destruct z as [z|].
    + apply obind_ok in H. destruct H as (m & M & H). injection H as <- _. cbn [w_dists]. rewrite put_at_other by exact N. exact E.
    + injection H as <- _. cbn [w_dists]. rewrite put_at_other by exact N. exact E.
  - apply obind_ok in H. destruct H as (o & O & H). apply obind_ok in H. destruct H as ([[ms' o']|] & C & H); injection H as <- _; [apply nth_app_l; exact E|exact E].
  - apply obind_ok in H. destruct H as (o & O & H). apply obind_ok in H. destruct H as (ms' & F & H). injection H as <- _. exact E.
  - apply obind_ok in H. destruct H as (o & O & H). injection H as <- _. cbn [w_dists]. rewrite put_at_other by exact N. exact E.
  - apply obind_ok in H. destruct H as (o & O & H). apply obind_ok in H. destruct H as (v & V & H). injection H as <- _. exact E.
Qed.

(** * Programs *)
Lemma run_cons : forall w c cs w', rn w (c :: cs) = Ok w' -> exists w1 r, stp w c = Ok (w1, r) /\ rn w1 cs = Ok w'.
Proof. intros w c cs w' H. cbn [run] in H. apply obind_ok in H. destruct H as ([w1 r] & S & H). exists w1, r. split; [exact S|exact H]. Qed.

Lemma run_keeps : forall cs w w' j x, rn w cs = Ok w' -> never gt fit neg lg slog val (fun w c => touches w c j) w cs ->
  nth_error (w_moms w) j = Some x -> nth_error (w_moms w') j = Some x.
Proof.
  induction cs as [|c cs IH]; intros w w' j x H N E; [injection H as <-; exact E|].
  destruct (run_cons _ _ _ _ H) as (w1 & r & S1 & H1). destruct N as [N1 N2]. rewrite S1 in N2.
  apply (IH w1 w' j x H1 N2). apply (step_keeps _ _ _ _ _ _ S1 N1 E).
Qed.

Lemma eval_mom_keeps : forall (ms ms' : list (option (mom A))) j p xi v,
  (forall x, nth_error ms j = Some x -> nth_error ms' j = Some x) -> eval_mom val ms j p xi = Ok v -> eval_mom val ms' j p xi = Ok v.
Proof.
  intros ms ms' j p xi v K H. unfold eval_mom, mom_at in *. destruct (nth_error ms j) as [[m|]|]; try discriminate.
  rewrite (K _ eq_refl). exact H.
Qed.

Lemma rd_eval_mono : forall (D : Type) (ev ev' : D -> R -> R -> outcome (option R)) o r p xi s v,
  (forall j y, In j (rd_ms o) -> ev j p xi = Ok y -> ev' j p xi = Ok y) -> rd_eval ev o r p xi s = Ok v -> rd_eval ev' o r p xi s = Ok v.
Proof.
  intros D ev ev' o r p xi s v K H.
  assert (M : forall i y, obind (dget (rd_ms o) i) (fun d => ev d p xi) = Ok y -> obind (dget (rd_ms o) i) (fun d => ev' d p xi) = Ok y).
  { intros i y Q. apply obind_ok in Q. destruct Q as (j & J & Q). rewrite J. cbn [obind]. apply K; [|exact Q].
    unfold dget in J. destruct (nth_error (rd_ms o) i) eqn:W; [|discriminate]. injection J as ->. apply nth_error_In in W. exact W. }
  assert (G : forall rho y, rd_at ev o rho p xi = Ok y -> rd_at ev' o rho p xi = Ok y).
  { intros rho y Q. unfold rd_at in *. destruct (find_nearest (rd_r o) rho) as [ir| |]; try discriminate. cbn [obind] in *.
    destruct (length (rd_r o) =? 1)%nat.
    { apply obind_ok in Q. destruct Q as (f0 & F0 & Q). rewrite (M _ _ F0). exact Q. }
    destruct (ir <=? 0)%Z.
    { apply obind_ok in Q. destruct Q as (r1 & R1 & Q). apply obind_ok in Q. destruct Q as (r2 & R2 & Q). apply obind_ok in Q. destruct Q as (f1 & F1 & Q).
      apply obind_ok in Q. destruct Q as (f2 & F2 & Q). rewrite R1, R2, (M _ _ F1), (M _ _ F2). exact Q. }
    destruct (Z.of_nat (length (rd_r o) - 1) <=? ir)%Z.
    { apply obind_ok in Q. destruct Q as (r1 & R1 & Q). apply obind_ok in Q. destruct Q as (r2 & R2 & Q). apply obind_ok in Q. destruct Q as (f1 & F1 & Q).
      apply obind_ok in Q. destruct Q as (f2 & F2 & Q). rewrite R1, R2, (M _ _ F1), (M _ _ F2). exact Q. }
    apply obind_ok in Q. destruct Q as (r1 & R1 & Q). apply obind_ok in Q. destruct Q as (r2 & R2 & Q). apply obind_ok in Q. destruct Q as (f1 & F1 & Q).
    apply obind_ok in Q. destruct Q as (f2 & F2 & Q). rewrite R1, R2, (M _ _ F1), (M _ _ F2). exact Q. }
  unfold rd_eval in *. destruct (rd_extra o); [apply G; exact H|]. destruct (rd_lim o) as [[lo hi]|]; [|discriminate].
  destruct (Rltb (r - s) lo || Rltb hi (r - s))%bool; [discriminate|]. apply G. exact H.
Qed.

Lemma eval_d : forall w d p r xi s v, stp w (EvalD d r p xi s) = Ok (w, RVal v) <->
  exists o, nth_error (w_dists w) d = Some (Some o) /\ rd_eval (eval_mom val (w_moms w)) o r p xi s = Ok v.
Proof.
  intros w d p r xi s v. cbn [step]. split; intro H.
  - apply obind_ok in H. destruct H as (o & O & H). apply obind_ok in H. destruct H as (y & Y & H). injection H as ->.
    exists o. split; [apply dist_at_ok; exact O|exact Y].
  - destruct H as (o & O & H). apply dist_at_ok in O. rewrite O. cbn [obind]. rewrite H. reflexivity.
Qed.
Lemma eval_m : forall w j p xi v, stp w (EvalM j p xi) = Ok (w, RVal v) <-> eval_mom val (w_moms w) j p xi = Ok v.
Proof.
  intros w j p xi v. cbn [step]. split; intro H.
  - apply obind_ok in H. destruct H as (y & Y & H). injection H as ->. exact Y.
  - rewrite H. reflexivity.
Qed.

Lemma run_keeps_dist : forall cs w w' d o r p xi s v, rn w cs = Ok w' ->
  never gt fit neg lg slog val (fun w c => changes c d \/ exists js j, points w d js /\ In j js /\ touches w c j) w cs ->
  nth_error (w_dists w) d = Some (Some o) -> rd_eval (eval_mom val (w_moms w)) o r p xi s = Ok v ->
  nth_error (w_dists w') d = Some (Some o) /\ rd_eval (eval_mom val (w_moms w')) o r p xi s = Ok v.
Proof.
  induction cs as [|c cs IH]; intros w w' d o r p xi s v H N E V; [injection H as <-; split; assumption|].
  destruct (run_cons _ _ _ _ H) as (w1 & z & S1 & H1). destruct N as [N1 N2]. rewrite S1 in N2.
  apply (IH w1 w' d o r p xi s v H1 N2).
  - apply (step_keeps_dist _ _ _ _ _ _ S1); [|exact E]. intro W. apply N1. left. exact W.
  - apply (rd_eval_mono _ (eval_mom val (w_moms w))); [|exact V]. intros j y J Y.
    apply (eval_mom_keeps (w_moms w)); [|exact Y]. intros x X. apply (step_keeps _ _ _ _ _ _ S1); [|exact X].
    intro W. apply N1. right. exists (rd_ms o), j. split; [exists o; split; [exact E|reflexivity]|]. split; assumption.
Qed.

(** * Memory *)
Lemma write_other : forall (h : heap A) q v b, fst q <> b -> nth_error (write h q v) b = nth_error h b.
Proof. intros h q v b N. unfold write. destruct (nth_error h (fst q)) as [[l|]|]; try reflexivity. apply put_at_other. exact N. Qed.

Lemma initialize_log_heap : forall (h h' : heap A) m g it m' ok, initialize_log gt fit neg lg h m g it = Ok (h', m', ok) ->
  exists x, h' = h ++ x.
Proof.
  intros h h' m g it m' ok H. unfold initialize_log in H.
  destruct (existsb neg (firstn (g_np g * g_nxi g) (cells h (g_f g)))); [injection H as <- _ _; exists []; rewrite app_nil_r; reflexivity|].
  destruct (length (firstn (g_np g * g_nxi g) (cells h (g_f g))) <? g_np g * g_nxi g)%nat; [discriminate|].
  apply obind_ok in H. destruct H as (r & _ & H). injection H as <- _ _. eexists. reflexivity.
Qed.

Lemma step_memory : forall w c w' r b x, stp w c = Ok (w', r) -> ~ writes c b -> nth_error (w_heap w) b = Some x -> nth_error (w_heap w') b = Some x.
Proof.
  intros w c w' r b x H N E. destruct w as [h ms ds]. cbn [w_heap] in *.
  destruct c; cbn [step w_heap w_moms w_dists writes] in *.
  - injection H as <- _. apply nth_app_l. exact E.
  - destruct (nth_error h b0) as [[l0|]|]; try discriminate. destruct (length l =? length l0)%nat; [|discriminate]. injection H as <- _. cbn [w_heap]. rewrite put_at_other by exact N. exact E.
  - destruct (nth_error h b0) as [[l0|]|]; try discriminate. injection H as <- _. cbn [w_heap]. rewrite put_at_other by exact N. exact E.
  - injection H as <- _. exact E.
  - apply obind_ok in H. destruct H as (m & M & H). apply obind_ok in H. destruct H as ([m' k] & C & H). injection H as <- _. exact E.
  - apply obind_ok in H. destruct H as (m & M & H). apply obind_ok in H. destruct H as ([[h' m'] k] & C & H). injection H as <- _. cbn [w_heap fst].
    destruct (initialize_log_heap _ _ _ _ _ _ _ C) as (y & ->). apply nth_app_l. exact E.
  - apply obind_ok in H. destruct H as (m & M & H). apply obind_ok in H. destruct H as ([m' k] & C & H). cbn [fst snd] in H. destruct k; injection H as <- _; exact E.
  - apply obind_ok in H. destruct H as (m & M & H). injection H as <- _. exact E.
  - apply obind_ok in H. destruct H as (m & M & H). injection H as <- _. exact E.
  - apply obind_ok in H. destruct H as (m & M & H). injection H as <- _. exact E.
  - apply obind_ok in H. destruct H as (v & V & H). injection H as <- _. exact E.
  - injection H as <- _. exact E.
  - apply obind_ok in H. destruct H as (o & O & H). apply obind_ok in H. destruct H as ([[ms' o'] k] & C & H). injection H as <- _. exact E.
  - apply obind_ok in H. destruct H as (o & O & H). apply obind_ok in H. destruct H as (f & F & H).
    apply obind_ok in H. destruct H as ([[ms' o'] k] & C & H). cbn [fst snd] in H.
    assert (K : nth_error (write h (g_f g) (map slog f)) b = Some x) by (rewrite write_other by exact N; exact E).
    destruct k; [apply obind_ok in H; destruct H as (ms2 & LA & H)|]; injection H as <- _; exact K.
  - apply obind_ok in H. destruct H as (o & O & H). apply obind_ok in H. destruct H as (m & M & H). apply obind_ok in H. destruct H as (q & Q & H). injection H as <- _. exact E.
  - apply obind_ok in H. destruct H as (o & O & H). apply obind_ok in H. destruct H as ([w1 z] & C & H). injection H as <- _.
    destruct (insert_table_spec _ _ _ _ _ _ _ _ C) as (c & ok & r1 & i & -> & _). exact E.
  - apply obind_ok in H. destruct H as (o & O & H). apply obind_ok in H. destruct H as (f & F & H). apply obind_ok in H. destruct H as ([w1 z] & C & H). cbn [fst snd] in H.
    assert (K : nth_error (if alloc then h else write h (g_f g) (map slog f)) b = Some x) by (destruct alloc; [exact E|rewrite write_other by exact N; exact E]).
    destruct (insert_table_spec _ _ _ _ _ _ _ _ C) as (c & ok & r1 & i & -> & _). cbn [w_moms w_heap w_dists] in *. destruct z as [z|].
    + apply obind_ok in H. destruct H as (m & M & H). injection H as <- _. exact K.
    + injection H as <- _. exact K.
  - apply obind_ok in H. destruct H as (o & O & H). apply obind_ok in H. destruct H as ([[ms' o']|] & C & H); injection H as <- _; exact E.
  - apply obind_ok in H. destruct H as (o & O & H). apply obind_ok in H. destruct H as (ms' & F & H). injection H as <- _. exact E.
  - apply obind_ok in H. destruct H as (o & O & H). injection H as <- _. exact E.
  - apply obind_ok in H. destruct H as (o & O & H). apply obind_ok in H. destruct H as (v & V & H). injection H as <- _. exact E.
Qed.

Lemma run_memory : forall cs w w' b x, rn w cs = Ok w' -> never gt fit neg lg slog val (fun _ c => writes c b) w cs ->
  nth_error (w_heap w) b = Some x -> nth_error (w_heap w') b = Some x.
Proof.
  induction cs as [|c cs IH]; intros w w' b x H N E; [injection H as <-; exact E|].
  destruct (run_cons _ _ _ _ H) as (w1 & r & S1 & H1). destruct N as [N1 N2]. rewrite S1 in N2.
  apply (IH w1 w' b x H1 N2). apply (step_memory _ _ _ _ _ _ S1 N1 E).
Qed.

(** Only [FreeArray] releases memory. *)
Lemma step_live : forall w c w' r b l, stp w c = Ok (w', r) -> nth_error (w_heap w) b = Some (Some l) -> c <> FreeArray b ->
  exists l', nth_error (w_heap w') b = Some (Some l') /\ length l' = length l.
Proof.
  intros w c w' r b l H E N.
  assert (D : {writes c b} + {~ writes c b}).
  { destruct c; cbn [writes]; try (right; exact (fun F => F)); try apply Nat.eq_dec. destruct alloc; [right; exact (fun F => F)|apply Nat.eq_dec]. }
  destruct D as [W|W]; [|exists l; split; [apply (step_memory _ _ _ _ _ _ H W E)|reflexivity]].
  destruct w as [h ms ds]. cbn [w_heap] in *.
  assert (WR : forall (g : given) n f, read h (g_f g) n = Ok f -> fst (g_f g) = b ->
    exists l', nth_error (write h (g_f g) (map slog f)) b = Some (Some l') /\ length l' = length l).
  { intros g n f F Q. unfold write. rewrite Q, E. eexists. split; [apply put_at_same; apply (some_lt _ _ _ _ E)|].
    unfold read, cells in F. rewrite Q, E in F. destruct (length (skipn (snd (g_f g)) l) <? n)%nat eqn:B; [discriminate|]. apply Nat.ltb_ge in B.
    injection F as <-. rewrite !app_length, map_length, !firstn_length, !skipn_length in *. lia. }
  destruct c; cbn [step w_heap w_moms w_dists writes] in *; try contradiction.
  - subst b0. rewrite E in H. destruct (length l0 =? length l)%nat eqn:Q; [|discriminate]. injection H as <- _. exists l0. cbn [w_heap].
    split; [apply put_at_same; apply (some_lt _ _ _ _ E)|apply Nat.eqb_eq; exact Q].
  - congruence.
  - apply obind_ok in H. destruct H as (o & O & H). apply obind_ok in H. destruct H as (f & F & H).
    apply obind_ok in H. destruct H as ([[ms' o'] k] & C & H). cbn [fst snd] in H. pose proof (WR _ _ _ F W) as K.
    destruct k; [apply obind_ok in H; destruct H as (ms2 & LA & H)|]; injection H as <- _; exact K.
  - destruct alloc; [contradiction|].
    apply obind_ok in H. destruct H as (o & O & H). apply obind_ok in H. destruct H as (f & F & H). apply obind_ok in H. destruct H as ([w1 z] & C & H). cbn [fst snd] in H.
    pose proof (WR _ _ _ F W) as K.
    destruct (insert_table_spec _ _ _ _ _ _ _ _ C) as (c & ok & r1 & i & -> & _). cbn [w_moms w_heap w_dists] in *. destruct z as [z|].
    + apply obind_ok in H. destruct H as (m & M & H). injection H as <- _. exact K.
    + injection H as <- _. exact K.
Qed.

(** * Contents *)
Lemma read_firstn : forall (h : heap A) q n l r, length l = n -> cells h q = l ++ r -> read h q n = Ok l.
Proof.
  intros h q n l r L C. unfold read. rewrite C, app_length. replace (length l + length r <? n)%nat with false by (symmetry; apply Nat.ltb_ge; lia).
  rewrite firstn_app, L, Nat.sub_diag, firstn_O, app_nil_r, firstn_all2 by lia. reflexivity.
Qed.
Lemma read_inv : forall (h : heap A) q n l, read h q n = Ok l -> length l = n /\ exists r, cells h q = l ++ r.
Proof.
  intros h q n l H. unfold read in H. destruct (length (cells h q) <? n)%nat eqn:B; [discriminate|]. apply Nat.ltb_ge in B. injection H as <-.
  split; [rewrite firstn_length; lia|]. exists (skipn n (cells h q)). symmetry. apply firstn_skipn.
Qed.
Lemma contents_read : forall (w : world A) g p xi f, contents w g p xi f <->
  read (w_heap w) (g_p g) (g_np g) = Ok p /\ read (w_heap w) (g_xi g) (g_nxi g) = Ok xi /\ read (w_heap w) (g_f g) (g_np g * g_nxi g) = Ok f.
Proof.
  intros w g p xi f. split.
  - intros (L1 & L2 & L3 & (r1 & C1) & (r2 & C2) & (r3 & C3)). split; [|split]; eapply read_firstn; eassumption.
  - intros (E1 & E2 & E3). apply read_inv in E1, E2, E3. destruct E1 as [L1 C1], E2 as [L2 C2], E3 as [L3 C3]. repeat (split; [assumption|]). assumption.
Qed.

Lemma initialize_ok : forall h (m m' : mom A) g it ok, initialize gt fit h m g it = Ok (m', ok) ->
  exists p xi a b c d, read h (g_p g) (g_np g) = Ok p /\ read h (g_xi g) (g_nxi g) = Ok xi /\
    nth_error p 0 = Some a /\ nth_error p (length p - 1) = Some b /\ nth_error xi 0 = Some c /\ nth_error xi (length xi - 1) = Some d /\
    ok = negb (gt a b || gt c d)%bool /\
    (ok = false -> m' = mkMom (Some g) (Some (a, b, c, d)) (m_spline m) (m_flip m) (m_log m) (m_cubic m)) /\
    (ok = true -> exists f, read h (g_f g) (g_np g * g_nxi g) = Ok f /\
       m' = mkMom (Some g) (Some (a, b, c, d)) (Some (negb (it =? 0)%Z, p, xi, f)) (m_flip m) (m_log m) (negb (it =? 0)%Z) /\ fit (negb (it =? 0)%Z) p = true /\ fit (negb (it =? 0)%Z) xi = true).
Proof.
  intros h m m' g it ok H. unfold initialize in H.
  apply obind_ok in H. destruct H as (p & P & H). apply obind_ok in H. destruct H as (xi & X & H).
  apply obind_ok in H. destruct H as (a & E1 & H). apply obind_ok in H. destruct H as (b & E2 & H).
  apply obind_ok in H. destruct H as (c & E3 & H). apply obind_ok in H. destruct H as (d & E4 & H).
  pose proof (read_inv _ _ _ _ P) as [LP _]. pose proof (read_inv _ _ _ _ X) as [LX _].
  assert (DG : forall (l : list A) i y, dget l i = Ok y -> nth_error l i = Some y) by (intros l i y Q; unfold dget in Q; destruct (nth_error l i); congruence).
  apply DG in E1, E2, E3, E4. rewrite <- LP in E2. rewrite <- LX in E4.
  exists p, xi, a, b, c, d. repeat (split; [assumption|]).
  destruct (gt a b || gt c d)%bool.
  - injection H as <- <-. split; [reflexivity|]. split; [reflexivity|discriminate].
  - cbv zeta in H. destruct (fit (negb (it =? 0)%Z) p) eqn:F1; [|discriminate H]. destruct (fit (negb (it =? 0)%Z) xi) eqn:F2; [|discriminate H]. cbn [andb negb] in H.
    apply obind_ok in H. destruct H as (f & F & H). injection H as <- <-. split; [reflexivity|]. split; [discriminate|]. intros _. exists f. split; [exact F|repeat split; reflexivity].
Qed.
Lemma initialize_do : forall h (m : mom A) g it p xi f a b c d, read h (g_p g) (g_np g) = Ok p -> read h (g_xi g) (g_nxi g) = Ok xi -> read h (g_f g) (g_np g * g_nxi g) = Ok f ->
  nth_error p 0 = Some a -> nth_error p (length p - 1) = Some b -> nth_error xi 0 = Some c -> nth_error xi (length xi - 1) = Some d ->
  gt a b = false -> gt c d = false -> fit (negb (it =? 0)%Z) p = true -> fit (negb (it =? 0)%Z) xi = true ->
  initialize gt fit h m g it = Ok (mkMom (Some g) (Some (a, b, c, d)) (Some (negb (it =? 0)%Z, p, xi, f)) (m_flip m) (m_log m) (negb (it =? 0)%Z), true).
Proof.
  intros h m g it p xi f a b c d P X F E1 E2 E3 E4 G1 G2 F1 F2. unfold initialize. rewrite P, X. cbn [obind].
  pose proof (read_inv _ _ _ _ P) as [LP _]. pose proof (read_inv _ _ _ _ X) as [LX _]. rewrite LP in E2. rewrite LX in E4.
  unfold dget. rewrite E1, E2, E3, E4. cbn [obind]. rewrite G1, G2. cbn [orb]. cbv zeta. rewrite F1, F2. cbn [andb negb]. rewrite F. reflexivity.
Qed.

(** * Reachable worlds *)
Lemma insert_in : forall (o o' : radial nat) x j i k, rd_insert o x j = Ok (o', i) -> In k (rd_ms o') <-> k = j \/ In k (rd_ms o).
Proof.
  intros o o' x j i k H. destruct (insert_shape _ _ _ _ _ _ H) as (n & _ & _ & MS & _ & _). rewrite MS, in_app_iff. cbn [In].
  rewrite <- (firstn_skipn n (rd_ms o)) at 3. rewrite in_app_iff. intuition congruence.
Qed.
Lemma dist_put : forall (ds : list (option (radial nat))) d o e o', nth_error (put_at ds d (Some o)) e = Some (Some o') ->
  (e = d /\ o' = o) \/ (nth_error ds e = Some (Some o')).
Proof.
  intros ds d o e o' H. destruct (Nat.eq_dec d e) as [->|N].
  - left. split; [reflexivity|]. pose proof (some_lt _ _ _ _ H) as L. rewrite put_at_length in L. rewrite put_at_same in H by exact L. congruence.
  - right. rewrite put_at_other in H by exact N. exact H.
Qed.

Lemma step_sound : forall w c w' r, sound w -> stp w c = Ok (w', r) -> sound w'.
Proof.
  intros w c w' r V H. destruct w as [h ms ds].
  assert (V' : forall e o j, nth_error ds e = Some (Some o) -> In j (rd_ms o) -> (j < length ms)%nat).
  { intros e o j E J. apply (V e (rd_ms o) j); [exists o; split; [exact E|reflexivity]|exact J]. }
  assert (K : forall h' (ms' : list (option (mom A))) ds', (length ms <= length ms')%nat ->
    (forall e o j, nth_error ds' e = Some (Some o) -> In j (rd_ms o) -> (exists e', exists o', nth_error ds e' = Some (Some o') /\ In j (rd_ms o')) \/ (j < length ms')%nat) ->
    sound (mkWorld h' ms' ds')).
  { intros h' ms' ds' L Q e js j (o & E & <-) J. cbn [w_dists w_moms] in *. destruct (Q e o j E J) as [(e' & o' & E' & J')|B]; [|exact B].
    pose proof (V' e' o' j E' J'). lia. }
  assert (SAME : forall h' (ms' : list (option (mom A))), (length ms <= length ms')%nat -> sound (mkWorld h' ms' ds)).
  { intros h' ms' L. apply K; [exact L|]. intros e o j E J. left. exists e, o. split; assumption. }
  assert (PUT : forall h' (ms' : list (option (mom A))) d o', (length ms <= length ms')%nat ->
    (forall j, In j (rd_ms o') -> (exists o, nth_error ds d = Some (Some o) /\ In j (rd_ms o)) \/ (j < length ms')%nat) -> sound (mkWorld h' ms' (put_at ds d (Some o')))).
  { intros h' ms' d o' L Q. apply K; [exact L|]. intros e o j E J. apply dist_put in E. destruct E as [[-> ->]|E].
    - destruct (Q j J) as [(o1 & E1 & J1)|B]; [left; exists d, o1; split; assumption|right; exact B].
    - left. exists e, o. split; assumption. }
  destruct c; cbn [step w_heap w_moms w_dists] in H.
  - injection H as <- _. apply SAME. lia.
  - destruct (nth_error h b) as [[l0|]|]; try discriminate. destruct (length l =? length l0)%nat; [|discriminate]. injection H as <- _. apply SAME. lia.
  - destruct (nth_error h b) as [[l0|]|]; try discriminate. injection H as <- _. apply SAME. lia.
  - injection H as <- _. apply SAME. rewrite app_length. lia.
  - apply obind_ok in H. destruct H as (m & M & H). apply obind_ok in H. destruct H as ([m' b] & C & H). injection H as <- _. apply SAME. rewrite put_at_length. lia.
  - apply obind_ok in H. destruct H as (m & M & H). apply obind_ok in H. destruct H as ([[h' m'] b] & C & H). injection H as <- _. apply SAME. rewrite put_at_length. lia.
  - apply obind_ok in H. destruct H as (m & M & H). apply obind_ok in H. destruct H as ([m' b] & C & H). cbn [fst snd] in H.
    destruct b; injection H as <- _; apply SAME; [rewrite app_length|]; lia.
  - apply obind_ok in H. destruct H as (m & M & H). injection H as <- _. apply SAME. rewrite put_at_length. lia.
  - apply obind_ok in H. destruct H as (m & M & H). injection H as <- _. apply SAME. rewrite put_at_length. lia.
  - apply obind_ok in H. destruct H as (m & M & H). injection H as <- _. apply SAME. rewrite put_at_length. lia.
  - apply obind_ok in H. destruct H as (v & VV & H). injection H as <- _. exact V.
  - injection H as <- _. apply K; [lia|]. intros e o j E J. destruct (lt_dec e (length ds)) as [L|L].
    + rewrite nth_error_app1 in E by exact L. left. exists e, o. split; assumption.
    + rewrite nth_error_app2 in E by lia. destruct (e - length ds)%nat as [|[|n]]; try discriminate. injection E as <-. destruct J.
  - apply obind_ok in H. destruct H as (o & O & H). apply dist_at_ok in O. cbn [w_dists] in O. apply obind_ok in H. destruct H as ([[ms' o'] b] & C & H). injection H as <- _. cbn [fst snd].
    destruct (init_dist_spec _ _ _ _ _ _ _ _ _ C) as (n & _ & LN & JS & _ & _). apply PUT; [lia|]. intros j J. rewrite JS in J. apply in_app_iff in J.
    destruct J as [J|J]; [left; exists o; split; assumption|]. apply in_seq in J. right. lia.
  - apply obind_ok in H. destruct H as (o & O & H). apply dist_at_ok in O. cbn [w_dists] in O. apply obind_ok in H. destruct H as (f & F & H).
    apply obind_ok in H. destruct H as ([[ms' o'] b] & C & H). cbn [fst snd] in H.
    destruct (init_dist_spec _ _ _ _ _ _ _ _ _ C) as (n & _ & LN & JS & _ & _).
    assert (Q : forall ms2 : list (option (mom A)), length ms2 = length ms' -> sound (mkWorld (write h (g_f g) (map slog f)) ms2 (put_at ds d (Some o')))).
    { intros ms2 L2. apply PUT; [lia|]. intros j J. rewrite JS in J. apply in_app_iff in J.
      destruct J as [J|J]; [left; exists o; split; assumption|]. apply in_seq in J. right. lia. }
    destruct b; [apply obind_ok in H; destruct H as (ms2 & LA & H)|]; injection H as <- _; apply Q; [|reflexivity].
    destruct (log_all_spec _ _ _ LA) as (L2 & _). exact L2.
  - apply obind_ok in H. destruct H as (o & O & H). apply dist_at_ok in O. cbn [w_dists] in O. apply obind_ok in H. destruct H as (m & M & H). apply mom_at_ok in M.
    apply obind_ok in H. destruct H as ([o' i] & Q & H). injection H as <- _. cbn [fst]. apply PUT; [lia|]. intros k J. apply (insert_in _ _ _ _ _ _ Q) in J.
    destruct J as [->|J]; [right; apply (some_lt _ _ _ _ M)|left; exists o; split; assumption].
  - apply obind_ok in H. destruct H as (o & O & H). apply dist_at_ok in O. cbn [w_dists] in O. apply obind_ok in H. destruct H as ([w1 z] & C & H). injection H as <- _.
    destruct (insert_table_spec _ _ _ _ _ _ _ _ C) as (c & ok & r1 & i & -> & _ & Q & _). cbn [w_moms w_heap w_dists fst] in *.
    apply PUT; rewrite app_length; cbn [length]; [lia|]. intros k J. apply (insert_in _ _ _ _ _ _ Q) in J. destruct J as [->|J]; [right; lia|left; exists o; split; assumption].
  - apply obind_ok in H. destruct H as (o & O & H). apply dist_at_ok in O. cbn [w_dists] in O. apply obind_ok in H. destruct H as (f & F & H). apply obind_ok in H. destruct H as ([w1 z] & C & H). cbn [fst snd] in H.
    destruct (insert_table_spec _ _ _ _ _ _ _ _ C) as (c & ok & r1 & i & -> & _ & Q & _). cbn [w_moms w_heap w_dists] in *.
    assert (X : forall h' (ms2 : list (option (mom A))), length ms2 = S (length ms) -> sound (mkWorld h' ms2 (put_at ds d (Some r1)))).
    { intros h' ms2 L2. apply PUT; [lia|]. intros k J. apply (insert_in _ _ _ _ _ _ Q) in J. destruct J as [->|J]; [right; lia|left; exists o; split; assumption]. }
    destruct z as [z|].
    + apply obind_ok in H. destruct H as (m & M & H). injection H as <- _. apply X. rewrite put_at_length, app_length. cbn [length]. lia.
    + injection H as <- _. apply X. rewrite app_length. cbn [length]. lia.
  - apply obind_ok in H. destruct H as (o & O & H). apply obind_ok in H. destruct H as ([[ms' o']|] & C & H); injection H as <- _; [|exact V].
    destruct (clone_all_spec _ _ _ _ _ _ _ _ C) as (new & -> & LN & _ & IN & _). apply K; [rewrite app_length; lia|].
    intros e o1 j E J. destruct (lt_dec e (length ds)) as [L|L].
    + rewrite nth_error_app1 in E by exact L. left. exists e, o1. split; assumption.
    + rewrite nth_error_app2 in E by lia. destruct (e - length ds)%nat as [|[|n]]; try discriminate. injection E as <-.
      right. apply IN in J. rewrite app_length, map_length. destruct J as [[]|J]. lia.
  - apply obind_ok in H. destruct H as (o & O & H). apply obind_ok in H. destruct H as (ms' & F & H). injection H as <- _.
    destruct (flip_all_spec _ _ _ _ F) as (L & _). apply SAME. lia.
  - apply obind_ok in H. destruct H as (o & O & H). injection H as <- _. apply K; [lia|]. intros e o1 j E J. left. exists e, o1. split; [|exact J].
    destruct (Nat.eq_dec d e) as [->|N]; [|rewrite put_at_other in E by exact N; exact E].
    pose proof (some_lt _ _ _ _ E) as L. rewrite put_at_length in L. rewrite put_at_same in E by exact L. discriminate.
  - apply obind_ok in H. destruct H as (o & O & H). apply obind_ok in H. destruct H as (v & VV & H). injection H as <- _. exact V.
Qed.

Lemma run_sound : forall cs w w', sound w -> rn w cs = Ok w' -> sound w'.
Proof.
  induction cs as [|c cs IH]; intros w w' V H; [injection H as <-; exact V|].
  destruct (run_cons _ _ _ _ H) as (w1 & r & S1 & H1). apply (IH w1 w' (step_sound _ _ _ _ V S1) H1).
Qed.
Lemma start_sound : sound (start (A := A)).
Proof. intros d js j (o & E & _). destruct d; discriminate. Qed.

(** Initialising a distribution again: the old functions are used, the new ones stay as made. *)
Lemma init_all_again : forall h g it k B n ms js i ms' js' ok, init_all gt fit h ms js g it k i = Ok (ms', js', ok) ->
  (n <= length js)%nat -> (forall q x, (q < n)%nat -> nth_error js q = Some x -> (x < B)%nat) -> (B <= length ms)%nat -> (i + k <= n)%nat ->
  (forall j, (B <= j < length ms)%nat -> nth_error ms' j = nth_error ms j) /\
  (forall j, (length ms <= j < length ms')%nat -> nth_error ms' j = Some (Some new_mom)).
Proof.
  intros h g it. induction k as [|k IH]; intros B n ms js i ms' js' ok H LN LT BM IK; cbn [init_all] in H.
  - injection H as <- _ _. split; [reflexivity|]. intros j J. lia.
  - apply obind_ok in H. destruct H as (j0 & J0 & H). apply obind_ok in H. destruct H as (m & M & H).
    apply obind_ok in H. destruct H as ([m' b] & C & H). cbn [fst snd] in H.
    assert (JB : (j0 < B)%nat).
    { unfold dget in J0. rewrite nth_error_app1 in J0 by lia. destruct (nth_error js i) eqn:Q; [|discriminate]. injection J0 as ->. apply (LT i); [lia|exact Q]. }
    assert (LL : length (put_at (ms ++ [Some new_mom]) j0 (Some m')) = S (length ms)) by (rewrite put_at_length, app_length; cbn; lia).
    assert (K1 : forall j, (B <= j < length ms)%nat -> nth_error (put_at (ms ++ [Some new_mom]) j0 (Some m')) j = nth_error ms j).
    { intros j J. rewrite put_at_other, nth_error_app1 by lia. reflexivity. }
    assert (K2 : nth_error (put_at (ms ++ [Some new_mom]) j0 (Some m')) (length ms) = Some (Some new_mom)).
    { rewrite put_at_other, nth_error_app2, Nat.sub_diag by lia. reflexivity. }
    destruct b.
    + destruct (IH B n _ _ _ _ _ _ H) as [I1 I2].
      * rewrite app_length. lia.
      * intros q x Q E. rewrite nth_error_app1 in E by lia. apply (LT q x Q E).
      * lia.
      * lia.
      * rewrite LL in I1, I2. split; [intros j J; rewrite I1 by lia; apply K1; exact J|].
        intros j J. destruct (Nat.eq_dec j (length ms)) as [->|N]; [rewrite I1 by lia; exact K2|apply I2; lia].
    + injection H as <- _ _. split; [exact K1|]. intros j J. replace j with (length ms) by lia. exact K2.
Qed.

(** Initialising a distribution that has no functions. *)
Lemma init_all_fresh : forall h g it k ms js i ms' js', init_all gt fit h ms js g it k i = Ok (ms', js', true) -> length js = i ->
  js' = js ++ seq (length ms) k /\ length ms' = (length ms + k)%nat /\ (forall j, (j < length ms)%nat -> nth_error ms' j = nth_error ms j) /\
  forall q, (q < k)%nat -> exists m, initialize gt fit h new_mom (part g (i + q)) it = Ok (m, true) /\ nth_error ms' (length ms + q) = Some (Some m).
Proof.
  intros h g it. induction k as [|k IH]; intros ms js i ms' js' H L; cbn [init_all] in H.
  - injection H as <- <-. rewrite app_nil_r, Nat.add_0_r. repeat (split; [reflexivity|]). intros q Q. lia.
  - unfold dget in H. rewrite <- L, nth_error_app2, Nat.sub_diag in H by lia. cbn [nth_error obind] in H.
    unfold mom_at in H. rewrite nth_error_app2, Nat.sub_diag in H by lia. cbn [nth_error obind] in H. rewrite L in H.
    apply obind_ok in H. destruct H as ([m b] & C & H). cbn [fst snd] in H. destruct b; [|discriminate]. rewrite put_at_last in H.
    destruct (IH _ _ _ _ _ H) as (E1 & E2 & E3 & E4); [rewrite app_length; cbn [length]; lia|].
    rewrite app_length in E1, E2, E3, E4. cbn [length] in E1, E2, E3, E4. replace (length ms + 1)%nat with (S (length ms)) in * by lia.
    split; [rewrite E1, <- app_assoc; reflexivity|]. split; [lia|]. split.
    + intros j J. rewrite E3 by lia. apply nth_error_app1. exact J.
    + intros [|q] Q.
      * exists m. rewrite !Nat.add_0_r. split; [exact C|]. rewrite E3 by lia. rewrite nth_error_app2, Nat.sub_diag by lia. reflexivity.
      * destruct (E4 q) as (m' & M1 & M2); [lia|]. exists m'. replace (i + S q)%nat with (S i + q)%nat by lia. split; [exact M1|].
        replace (length ms + S q)%nat with (S (length ms) + q)%nat by lia. exact M2.
Qed.

Lemma init_dist_fresh : forall h ms rs g it ms' o', init_dist gt fit h ms rd_new rs g it = Ok (ms', o', true) ->
  rs <> [] /\ rd_r o' = tl rs /\ rd_ms o' = seq (length ms) (length rs) /\ length ms' = (length ms + length rs)%nat /\
  (forall j, (j < length ms)%nat -> nth_error ms' j = nth_error ms j) /\
  forall q, (q < length rs)%nat -> exists m, initialize gt fit h new_mom (part g q) it = Ok (m, true) /\ nth_error ms' (length ms + q) = Some (Some m).
Proof.
  intros h ms rs g it ms' o' H. unfold init_dist in H. destruct rs as [|x rs].
  { cbn [dget nth_error obind] in H. discriminate. }
  set (asc := match rs with b :: _ :: _ => Rleb x b | _ => true end) in H.
  assert (G : forall l a new ok, push_radii asc a l = (new, ok) -> ok = true -> new = l).
  { induction l as [|b l IH]; intros a new ok P T; cbn [push_radii] in P; [injection P as <- _; reflexivity|].
    destruct (if asc then Rleb b a else Rleb a b); [congruence|]. destruct (push_radii asc b l) as [l' ok'] eqn:Q. injection P as <- <-. rewrite (IH _ _ _ Q T). reflexivity. }
  assert (A1 : match x :: rs with a :: b :: _ :: _ => Rleb a b | _ => true end = asc) by (unfold asc; destruct rs as [|? [|? ?]]; reflexivity).
  try rewrite A1 in H. destruct (push_radii asc x rs) as [new ok] eqn:P. destruct ok; [|discriminate].
  apply obind_ok in H. destruct H as (lo & _ & H). apply obind_ok in H. destruct H as (hi & _ & H).
  apply obind_ok in H. destruct H as ([[ms1 js1] b] & IA & H). cbn [fst snd] in H. injection H as <- <- ->. cbn [rd_r rd_ms].
  destruct (init_all_fresh _ _ _ _ _ _ _ _ _ IA eq_refl) as (E1 & E2 & E3 & E4). cbn [rd_new rd_r rd_ms app] in *.
  split; [discriminate|]. split; [cbn [tl]; apply (G _ _ _ _ P eq_refl)|]. split; [exact E1|]. split; [exact E2|]. split; [exact E3|exact E4].
Qed.

(** Tables one after the other. *)
Lemma skipn_more : forall (l : list A) a b, skipn (a + b) l = skipn b (skipn a l).
Proof. induction l as [|x l IH]; intros [|a] b; try reflexivity; [cbn; destruct b; reflexivity|]. cbn [Nat.add skipn]. apply IH. Qed.
Lemma concat_part : forall (n : nat) fs (r : list A) q f, Forall (fun f => length f = n) fs -> nth_error fs q = Some f -> exists r', skipn (q * n) (concat fs ++ r) = f ++ r'.
Proof.
  intros n. induction fs as [|f0 fs IH]; intros r q f F E; [destruct q; discriminate|]. apply Forall_cons_iff in F. destruct F as [F0 F].
  destruct q as [|q]; cbn [nth_error] in E.
  - injection E as ->. exists (concat fs ++ r). cbn [concat Nat.mul skipn]. rewrite <- app_assoc. reflexivity.
  - cbn [Nat.mul concat]. destruct (IH r q f F E) as (r' & R'). exists r'. rewrite <- R'.
    rewrite <- app_assoc, skipn_app, F0. rewrite skipn_all2 by lia. replace (n + q * n - n)%nat with (q * n)%nat by lia. reflexivity.
Qed.
Lemma tables_part : forall (w : world A) g p xi fs q f, tables w g p xi fs -> nth_error fs q = Some f -> contents w (part g q) p xi f.
Proof.
  intros w g p xi fs q f (T1 & T2 & T3 & T4 & T5 & (r & T6)) E. unfold contents, part. cbn [g_np g_nxi g_p g_xi g_f].
  pose proof (proj1 (Forall_forall _ _) T3 f (nth_error_In _ _ E)) as LF.
  repeat (split; [assumption|]). destruct (concat_part _ _ r _ _ T3 E) as (r' & Q). exists r'. rewrite <- Q, <- T6.
  unfold cells. cbn [fst snd]. destruct (nth_error (w_heap w) (fst (g_f g))) as [[l|]|]; [|rewrite skipn_nil; reflexivity|rewrite skipn_nil; reflexivity].
  apply skipn_more.
Qed.
Lemma initialize_interpolates : forall (w : world A) j m m' g it p xi f, contents w g p xi f -> initialize gt fit (w_heap w) m g it = Ok (m', true) ->
  nth_error (w_moms w) j = Some (Some m') -> interpolates w j (negb (it =? 0)%Z) (m_flip m) (m_log m) p xi f.
Proof.
  intros w j m m' g it p xi f C H E. apply contents_read in C. destruct C as (C1 & C2 & C3).
  destruct (initialize_ok _ _ _ _ _ _ H) as (p' & xi' & a & b & cc & d & P & X & E1 & E2 & E3 & E4 & _ & _ & T).
  rewrite C1 in P. injection P as <-. rewrite C2 in X. injection X as <-. destruct (T eq_refl) as (f' & F & -> & _). rewrite C3 in F. injection F as <-.
  exists a, b, cc, d. eexists. repeat (split; [eassumption|]). reflexivity.
Qed.

(** Initialisation that succeeds. *)
Lemma init_all_do : forall h g it k ms js i, length js = i -> (forall q, (i <= q < i + k)%nat -> exists m, initialize gt fit h new_mom (part g q) it = Ok (m, true)) ->
  exists ms' js', init_all gt fit h ms js g it k i = Ok (ms', js', true).
Proof.
  intros h g it. induction k as [|k IH]; intros ms js i L H; cbn [init_all]; [eexists; eexists; reflexivity|].
  unfold dget. rewrite <- L, nth_error_app2, Nat.sub_diag by lia. cbn [nth_error obind]. unfold mom_at. rewrite nth_error_app2, Nat.sub_diag by lia. cbn [nth_error obind].
  rewrite L. destruct (H i) as (m & M); [lia|]. rewrite M. cbn [obind fst snd]. apply IH; [rewrite app_length; cbn [length]; lia|].
  intros q Q. apply H. lia.
Qed.
Lemma push_all : forall asc l a, monotone asc (a :: l) = true -> push_radii asc a l = (l, true).
Proof.
  intros asc. induction l as [|b l IH]; intros a P; [reflexivity|].
  change (monotone asc (a :: b :: l)) with ((if asc then negb (Rleb b a) else negb (Rleb a b)) && monotone asc (b :: l))%bool in P.
  apply andb_true_iff in P. destruct P as [P1 P2]. cbn [push_radii]. rewrite (IH b P2). destruct asc; apply negb_true_iff in P1; rewrite P1; reflexivity.
Qed.

(** Radii out of order. *)
Lemma push_ok : forall asc l a new, push_radii asc a l = (new, true) -> monotone asc (a :: l) = true.
Proof.
  intros asc. induction l as [|b l IH]; intros a new P; [reflexivity|]. cbn [push_radii] in P.
  change (monotone asc (a :: b :: l)) with ((if asc then negb (Rleb b a) else negb (Rleb a b)) && monotone asc (b :: l))%bool.
  replace (if asc then negb (Rleb b a) else negb (Rleb a b)) with (negb (if asc then Rleb b a else Rleb a b)) by (destruct asc; reflexivity).
  destruct (if asc then Rleb b a else Rleb a b); [discriminate|]. destruct (push_radii asc b l) as [l' ok] eqn:Q. injection P as _ ->. cbn [negb andb]. apply (IH b l' Q).
Qed.
Lemma push_prefix : forall asc l a new ok, push_radii asc a l = (new, ok) -> exists r, l = new ++ r.
Proof.
  intros asc. induction l as [|b l IH]; intros a new ok P; cbn [push_radii] in P; [injection P as <- _; exists []; reflexivity|].
  destruct (if asc then Rleb b a else Rleb a b); [injection P as <- _; exists (b :: l); reflexivity|]. destruct (push_radii asc b l) as [l' ok'] eqn:Q. injection P as <- _.
  destruct (IH _ _ _ Q) as (r & ->). exists r. reflexivity.
Qed.

End Proofs.
