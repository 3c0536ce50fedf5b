(** Readers and type checks of settings that hold a vector: proofs. *)
From Verif Require Import Base SettingsModel SdtModel ScalarModel SetObjModel SetObjSpec SetObjProofs SetObjProofs2.
From Coq Require Import ZArith QArith Lia.
Local Open Scope Z_scope.

(** * Integer parts and folding *)

Lemma int_part_Z : forall z, int_part (inject_Z z) z.
Proof.
  intro z. unfold int_part. split; intros _; split; try apply Qle_refl; rewrite <- Zlt_Qlt; lia.
Qed.

Lemma int_part_quot : forall q, int_part q (Z.quot (Qnum q) (Zpos (Qden q))).
Proof.
  intros [n d]. unfold int_part. cbn [Qnum Qden]. 
  pose proof (Z.quot_rem' n (Zpos d)) as E. set (k := Z.quot n (Z.pos d)) in *. set (r := Z.rem n (Z.pos d)) in *.
  split; intro H; unfold Qle, Qlt in *; cbn [Qnum Qden inject_Z] in *; rewrite ?Z.mul_1_r in *; cbn in H.
  - assert (0 <= n) by lia. pose proof (Z.rem_bound_pos n (Zpos d) H0 eq_refl) as B. fold r in B. nia.
  - assert (n <= 0) by lia. pose proof (Z.rem_bound_neg_pos n (Zpos d)) as B.
    assert (- Zpos d < r <= 0) as B'.
    { pose proof (Z.rem_nonpos n (Zpos d)) as B1. pose proof (Z.rem_bound_abs n (Zpos d)) as B2.
      assert (r <= 0) by (apply B1; [discriminate|lia]). assert (Z.abs r < Z.abs (Zpos d)) by (apply B2; discriminate). lia. }
    nia.
Qed.

Lemma int_part_fun : forall q a b, int_part q a -> int_part q b -> a = b.
Proof.
  intros q a b [A1 A2] [B1 B2]. destruct (Qlt_le_dec q 0) as [L|L].
  - apply Qlt_le_weak in L. destruct (A2 L) as [X1 X2]. destruct (B2 L) as [Y1 Y2].
    pose proof (Qlt_le_trans _ _ _ X2 Y1) as P. pose proof (Qlt_le_trans _ _ _ Y2 X1) as R.
    rewrite <- Zlt_Qlt in P, R. lia.
  - destruct (A1 L) as [X1 X2]. destruct (B1 L) as [Y1 Y2].
    pose proof (Qle_lt_trans _ _ _ X1 Y2) as P. pose proof (Qle_lt_trans _ _ _ Y1 X2) as R.
    rewrite <- Zlt_Qlt in P, R. lia.
Qed.

Lemma folded_fun : forall bits lo t a b, 0 <= bits -> folded bits lo (lo + 2 ^ bits) t a ->
  folded bits lo (lo + 2 ^ bits) t b -> a = b.
Proof.
  intros bits lo t a b P [A1 [x A2]] [B1 [y B2]].
  assert (0 < 2 ^ bits) by (apply Z.pow_pos_nonneg; lia).
  assert (a - b = (x - y) * 2 ^ bits) as E by lia.
  assert (x - y = 0) by nia. nia.
Qed.

Lemma folded_self : forall bits lo hi t, lo <= t < hi -> folded bits lo hi t t.
Proof. intros bits lo hi t H. split; [exact H|]. exists 0. lia. Qed.

Lemma wrap_folded : forall bits z, 0 < bits -> folded bits (- 2 ^ (bits - 1)) (2 ^ (bits - 1)) z (wrap_signed bits z).
Proof.
  intros bits z P. unfold wrap_signed, folded.
  assert (2 ^ bits = 2 * 2 ^ (bits - 1)) as E.
  { replace bits with (Z.succ (bits - 1)) at 1 by lia. apply Z.pow_succ_r. lia. }
  assert (0 < 2 ^ (bits - 1)) as Q by (apply Z.pow_pos_nonneg; lia).
  pose proof (Z.mod_pos_bound z (2 ^ bits) ltac:(lia)) as B.
  pose proof (Z.div_mod z (2 ^ bits) ltac:(lia)) as D.
  destruct (Z.ltb_spec (z mod 2 ^ bits) (2 ^ (bits - 1))).
  - split; [lia|]. exists (- (z / 2 ^ bits)). lia.
  - split; [lia|]. exists (- (z / 2 ^ bits) - 1). lia.
Qed.

Lemma mod_folded : forall bits z, 0 <= bits -> folded bits 0 (2 ^ bits) z (z mod 2 ^ bits).
Proof.
  intros bits z P. assert (0 < 2 ^ bits) as Q by (apply Z.pow_pos_nonneg; lia).
  split; [apply Z.mod_pos_bound; exact Q|]. exists (- (z / 2 ^ bits)).
  pose proof (Z.div_mod z (2 ^ bits) ltac:(lia)). lia.
Qed.

(** Folding twice: first to 64 bits, then to fewer. *)
Lemma folded_trans : forall b1 b2 lo1 hi1 lo2 hi2 t u z, 0 <= b2 <= b1 ->
  folded b1 lo1 hi1 t u -> folded b2 lo2 hi2 u z -> folded b2 lo2 hi2 t z.
Proof.
  intros b1 b2 lo1 hi1 lo2 hi2 t u z B [_ D1] [R D2]. split; [exact R|].
  replace (z - t) with ((z - u) + (u - t)) by lia. apply Z.divide_add_r; [exact D2|].
  apply (Z.divide_trans _ (2 ^ b1)); [|exact D1]. exists (2 ^ (b1 - b2)). rewrite <- Z.pow_add_r by lia. f_equal. lia.
Qed.

(** * Values *)

Lemma nth_at : forall {A B} (f : A -> B) l i,
  nth_error (map f l) i = match at_index l i with Ok x => Some (f x) | _ => None end.
Proof. intros A B f l i. rewrite nth_error_map. unfold at_index. destruct (nth_error l i); reflexivity. Qed.

Lemma at_cases : forall {A} (l : list A) i, (exists x, at_index l i = Ok x /\ In x l) \/ at_index l i = Throw.
Proof.
  intros A l i. unfold at_index. destruct (nth_error l i) eqn:E; [left|right; reflexivity].
  exists a. split; [reflexivity|]. apply (nth_error_In l i E).
Qed.

Lemma count_values : forall d, v_count d = length (values_of d).
Proof. intros [l|l|l|l|l|l|l]; cbn; rewrite map_length; reflexivity. Qed.

Theorem read_values : forall rnd d t i,
  view rnd (Vec (Some d) t) QCount = Ok (ANum (length (values_of d))) /\
  view rnd (Vec (Some d) t) (QBool i) =
    Ok (match nth_error (values_of d) i with Some (XBool b) => ABool b | _ => AThrow end) /\
  view rnd (Vec (Some d) t) (QScalar i) =
    Ok (match nth_error (values_of d) i with Some (XNum x) => AReal x | _ => AThrow end) /\
  view rnd (Vec (Some d) t) (QString i) =
    Ok (match nth_error (values_of d) i with Some (XText s) => AStr s | _ => AThrow end).
Proof.
  intros rnd d t i. cbn [view ask_common ask_vector]. split; [rewrite count_values; reflexivity|].
  destruct d as [l|l|l|l|l|l|l]; cbn [v_get_bool v_get_scalar v_get_string values_of];
    rewrite !nth_at; destruct (at_cases l i) as [(x & -> & _)| ->]; cbn; auto.
Qed.

(** The 64-bit reader everything else is derived from. *)
Lemma integer_spec : forall d i, wf_data d ->
  match nth_error (values_of d) i with
  | Some (XNum (DFin x)) =>
      exists k, int_part x k /\
      (if (is_real d && negb ((- 2 ^ 63 <=? k) && (k <? 2 ^ 63)))%bool then v_get_integer d i = UB
       else exists z, v_get_integer d i = Ok z /\ folded 64 (- 2 ^ 63) (2 ^ 63) k z)
  | Some (XNum _) => v_get_integer d i = UB
  | _ => v_get_integer d i = Throw
  end.
Proof.
  intros d i W. destruct d as [l|l|l|l|l|l|l]; cbn [v_get_integer values_of is_real andb]; rewrite nth_at;
    destruct (at_cases l i) as [(x & -> & I)| ->]; cbn [obind]; try reflexivity.
  - exists x. split; [apply int_part_Z|]. exists x. split; [reflexivity|]. apply folded_self.
    cbn in W. rewrite Forall_forall in W. specialize (W x I). cbn in W. lia.
  - exists x. split; [apply int_part_Z|]. exists x. split; [reflexivity|]. apply folded_self.
    cbn in W. rewrite Forall_forall in W. specialize (W x I). cbn in W. lia.
  - exists x. split; [apply int_part_Z|]. exists x. split; [reflexivity|]. apply folded_self.
    cbn in W. rewrite Forall_forall in W. specialize (W x I). cbn in W. lia.
  - exists x. split; [apply int_part_Z|]. eexists. split; [reflexivity|]. apply (wrap_folded 64). lia.
  - destruct x as [q|n|]; cbn [dbl_to_int64]; try reflexivity.
    exists (Z.quot (Qnum q) (Zpos (Qden q))). split; [apply int_part_quot|]. unfold real_to_int64.
    destruct ((- 2 ^ 63 <=? Z.quot (Qnum q) (Zpos (Qden q))) && (Z.quot (Qnum q) (Zpos (Qden q)) <? 2 ^ 63))%bool eqn:E; cbn [negb].
    + eexists. split; [reflexivity|]. apply folded_self. apply andb_true_iff in E as [E1 E2].
      apply Z.leb_le in E1. apply Z.ltb_lt in E2. lia.
    + reflexivity.
Qed.

Theorem read_integer : forall rnd d t q i bits lo hi, wf_data d -> int_reader q i bits lo hi ->
  match nth_error (values_of d) i with
  | Some (XNum (DFin x)) =>
      exists k, int_part x k /\
      (is_real d = true -> ~ (- 2 ^ 63 <= k < 2 ^ 63) -> view rnd (Vec (Some d) t) q = UB) /\
      (is_real d = false \/ - 2 ^ 63 <= k < 2 ^ 63 ->
         exists z, view rnd (Vec (Some d) t) q = Ok (AInt z) /\ folded bits lo hi k z)
  | Some (XNum _) => view rnd (Vec (Some d) t) q = UB
  | _ => view rnd (Vec (Some d) t) q = Ok AThrow
  end.
Proof.
  intros rnd d t q i bits lo hi W Rd.
  assert (exists f, view rnd (Vec (Some d) t) q = give AInt (obind (v_get_integer d i) (fun z => Ok (f z))) /\
    (forall k z, folded 64 (- 2 ^ 63) (2 ^ 63) k z -> folded bits lo hi k (f z))) as (f & EV & EF).
  { destruct Rd as [i|i|i|i|i].
    - exists (fun z => z). split; [cbn; destruct (v_get_integer d i); reflexivity|auto].
    - exists (fun z => z). split; [cbn; unfold v_get_int64; destruct (v_get_integer d i); reflexivity|auto].
    - exists (fun z => z mod 2 ^ 64). split; [reflexivity|]. intros k z F.
      apply (folded_trans 64 64 _ _ _ _ k z) with (2 := F); [lia|]. apply mod_folded. lia.
    - exists (wrap_signed 32). split; [reflexivity|]. intros k z F.
      apply (folded_trans 64 32 _ _ _ _ k z) with (2 := F); [lia|]. apply (wrap_folded 32). lia.
    - exists (fun z => z mod 2 ^ 32). split; [reflexivity|]. intros k z F.
      apply (folded_trans 64 32 _ _ _ _ k z) with (2 := F); [lia|]. apply mod_folded. lia. }
  rewrite EV. pose proof (integer_spec d i W) as S.
  destruct (nth_error (values_of d) i) as [[b|[x|n|]|s]|]; try (rewrite S; reflexivity).
  destruct S as (k & P & S). exists k. split; [exact P|].
  destruct (is_real d) eqn:ER; cbn [andb] in S.
  - destruct ((- 2 ^ 63 <=? k) && (k <? 2 ^ 63))%bool eqn:EB; cbn [negb] in S.
    + apply andb_true_iff in EB as [E1 E2]. apply Z.leb_le in E1. apply Z.ltb_lt in E2.
      destruct S as (z & -> & F). cbn [obind give]. split; [intros _ N; exfalso; apply N; lia|].
      intros _. eexists. split; [reflexivity|]. apply EF. exact F.
    + rewrite S. split; [reflexivity|]. intros [N|N]; [discriminate|].
      apply andb_false_iff in EB as [E|E]; [apply Z.leb_gt in E|apply Z.ltb_ge in E]; lia.
  - destruct S as (z & -> & F). cbn [obind give]. split; [discriminate|].
    intros _. eexists. split; [reflexivity|]. apply EF. exact F.
Qed.

Theorem read_exact : forall rnd d t q i bits lo hi x k, wf_data d -> int_reader q i bits lo hi ->
  nth_error (values_of d) i = Some (XNum (DFin x)) -> int_part x k -> lo <= k < hi ->
  is_real d = false \/ k < 2 ^ 63 ->
  view rnd (Vec (Some d) t) q = Ok (AInt k).
Proof.
  intros rnd d t q i bits lo hi x k W Rd E P B Rl.
  pose proof (read_integer rnd d t q i bits lo hi W Rd) as S. rewrite E in S.
  destruct S as (k' & P' & _ & S). rewrite (int_part_fun _ _ _ P' P) in S.
  assert (is_real d = false \/ - 2 ^ 63 <= k < 2 ^ 63) as C.
  { destruct Rl as [Rl|Rl]; [left; exact Rl|right]. destruct Rd; lia. }
  destruct (S C) as (z & -> & F). do 2 f_equal.
  assert (0 <= bits /\ hi = lo + 2 ^ bits) as [B0 EH] by (destruct Rd; split; lia). subst hi.
  apply (folded_fun bits lo k z k B0 F). apply folded_self. exact B.
Qed.

Theorem read_vector : forall rnd d t,
  view rnd (Vec (Some d) t) QTextVec =
    (match d with VStr l => Ok (AStrs l) | _ => Ok AThrow end) /\
  (sort_of d <> Numbers -> view rnd (Vec (Some d) t) QNumVec = Ok AThrow) /\
  (sort_of d = Numbers -> exists l, view rnd (Vec (Some d) t) QNumVec = Ok (AReals (repeat (DFin 0) (length (values_of d)) ++ l)) /\
     map XNum l = values_of d).
Proof.
  intros rnd d t. cbn [view ask_common ask_vector]. split; [destruct d; reflexivity|]. split.
  - destruct d; cbn; congruence.
  - intro S. destruct d as [l|l|l|l|l|l|l]; try discriminate S; cbn [v_numeric_vector v_count values_of give];
      rewrite ?map_length; eexists; (split; [reflexivity|]); rewrite ?map_map; reflexivity.
Qed.

(** * Type checks *)

Theorem checks_by_type : forall rnd d t i,
  view rnd (Vec (Some d) t) (QIsBool i) = Ok (ABool (match sort_of d with Truths => true | _ => false end)) /\
  view rnd (Vec (Some d) t) (QIsInt i) = Ok (ABool (match sort_of d with Numbers => true | _ => false end)) /\
  view rnd (Vec (Some d) t) (QIsNumVec i) = Ok (ABool (match sort_of d with Numbers => true | _ => false end)) /\
  view rnd (Vec (Some d) t) (QIsScalar i) =
    Ok (ABool (match sort_of d, values_of d with Numbers, [_] => true | _, _ => false end)) /\
  view rnd (Vec (Some d) t) (QIsInt64 i) = Ok (ABool (match d with VI64 _ => true | _ => false end)).
Proof.
  intros rnd d t i. cbn [view ask_common ask_vector]. unfold v_is_scalar. rewrite count_values.
  destruct d as [l|l|l|l|l|l|l]; cbn; repeat split; destruct l as [|? [|? ?]]; reflexivity.
Qed.

Theorem check_int32 : forall rnd d t i, wf_data d ->
  match sort_of d, nth_error (values_of d) 0 with
  | Numbers, Some (XNum (DFin x)) =>
      exists k, int_part x k /\
      (is_real d = true -> ~ (- 2 ^ 63 <= k < 2 ^ 63) -> view rnd (Vec (Some d) t) (QIsInt32 i) = UB) /\
      (is_real d = false \/ - 2 ^ 63 <= k < 2 ^ 63 ->
         exists b, view rnd (Vec (Some d) t) (QIsInt32 i) = Ok (ABool b) /\
           (b = true <-> exists z, folded 64 (- 2 ^ 31) (2 ^ 31) k z))
  | Numbers, Some (XNum _) => view rnd (Vec (Some d) t) (QIsInt32 i) = UB
  | Numbers, _ => view rnd (Vec (Some d) t) (QIsInt32 i) = Ok AThrow
  | _, _ => view rnd (Vec (Some d) t) (QIsInt32 i) = Ok (ABool false)
  end.
Proof.
  intros rnd d t i W. cbn [view ask_common ask_vector]. unfold v_is_int32.
  pose proof (integer_spec d 0 W) as S.
  destruct (sort_of d) eqn:ES.
  - replace (v_is_integer d) with false by (destruct d; try discriminate ES; reflexivity). reflexivity.
  - replace (v_is_integer d) with true by (destruct d; try discriminate ES; reflexivity).
    destruct (nth_error (values_of d) 0) as [[b|[x|n|]|s]|]; try (rewrite S; reflexivity).
    destruct S as (k & P & S). exists k. split; [exact P|].
    assert (forall z, folded 64 (- 2 ^ 63) (2 ^ 63) k z ->
      ((z <=? 2 ^ 31 - 1) && (- 2 ^ 31 <=? z) = true)%bool <-> exists y, folded 64 (- 2 ^ 31) (2 ^ 31) k y) as G.
    { intros z F. rewrite andb_true_iff, !Z.leb_le. split.
      - intros [A B]. exists z. destruct F as [F1 F2]. split; [lia|exact F2].
      - intros (y & A & B). assert (y = z) as ->; [|lia].
        apply (folded_fun 64 (- 2 ^ 63) k); [lia| |exact F]. split; [lia|exact B]. }
    destruct (is_real d) eqn:ER; cbn [andb] in S.
    + destruct ((- 2 ^ 63 <=? k) && (k <? 2 ^ 63))%bool eqn:EB; cbn [negb] in S.
      * apply andb_true_iff in EB as [E1 E2]. apply Z.leb_le in E1. apply Z.ltb_lt in E2.
        destruct S as (z & -> & F). cbn [obind give]. split; [intros _ N; exfalso; apply N; lia|].
        intros _. eexists. split; [reflexivity|]. apply G. exact F.
      * rewrite S. split; [reflexivity|]. intros [N|N]; [discriminate|].
        apply andb_false_iff in EB as [E|E]; [apply Z.leb_gt in E|apply Z.ltb_ge in E]; lia.
    + destruct S as (z & -> & F). cbn [obind give]. split; [discriminate|].
      intros _. eexists. split; [reflexivity|]. apply G. exact F.
  - replace (v_is_integer d) with false by (destruct d; try discriminate ES; reflexivity). reflexivity.
Qed.

Lemma inject_nonneg : forall z, (0 <=? z) = true <-> (0 <= inject_Z z)%Q.
Proof. intro z. rewrite Z.leb_le, (Zle_Qle 0 z). reflexivity. Qed.

Theorem check_uint64 : forall rnd d t i,
  match sort_of d with
  | Numbers =>
      if unsigned d then view rnd (Vec (Some d) t) (QIsUInt64 i) = Ok (ABool true)
      else match nth_error (values_of d) (or_zero i) with
           | Some (XNum x) => exists b, view rnd (Vec (Some d) t) (QIsUInt64 i) = Ok (ABool b) /\ (b = true <-> at_least_zero x)
           | _ => view rnd (Vec (Some d) t) (QIsUInt64 i) = Ok AThrow
           end
  | _ => view rnd (Vec (Some d) t) (QIsUInt64 i) = Ok (ABool false)
  end.
Proof.
  intros rnd d t i. cbn [view ask_common ask_vector].
  destruct d as [l|l|l|l|l|l|l]; cbn [sort_of unsigned v_is_uint64 values_of]; try reflexivity;
    rewrite nth_at; destruct (at_cases l (or_zero i)) as [(x & -> & _)| ->]; cbn [obind give]; try reflexivity;
    eexists; (split; [reflexivity|]); cbn [at_least_zero].
  - apply inject_nonneg.
  - apply inject_nonneg.
  - destruct x as [q|n|]; cbn [dbl_nonneg at_least_zero].
    + apply Qle_bool_iff.
    + destruct n; cbn; split; congruence.
    + split; [discriminate|contradiction].
Qed.

Theorem check_uint32 : forall rnd d t i, wf_data d ->
  match sort_of d with
  | Numbers =>
      match nth_error (values_of d) (or_zero i) with
      | Some (XNum (DFin x)) =>
          exists k, int_part x k /\
          ((x < 0)%Q -> view rnd (Vec (Some d) t) (QIsUInt32 i) = Ok (ABool false)) /\
          ((0 <= x)%Q -> is_real d = true -> 2 ^ 63 <= k -> view rnd (Vec (Some d) t) (QIsUInt32 i) = UB) /\
          ((0 <= x)%Q -> is_real d = false \/ k < 2 ^ 63 ->
             exists b, view rnd (Vec (Some d) t) (QIsUInt32 i) = Ok (ABool b) /\ (b = true <-> k < 2 ^ 32 \/ 2 ^ 63 <= k))
      | Some (XNum (DInfinity false)) => view rnd (Vec (Some d) t) (QIsUInt32 i) = UB
      | Some (XNum _) => view rnd (Vec (Some d) t) (QIsUInt32 i) = Ok (ABool false)
      | _ => view rnd (Vec (Some d) t) (QIsUInt32 i) = Ok AThrow
      end
  | _ => view rnd (Vec (Some d) t) (QIsUInt32 i) = Ok (ABool false)
  end.
Proof.
  intros rnd d t i W. cbn [view ask_common ask_vector].
  pose proof (check_uint64 rnd d t i) as U. cbn [view ask_common ask_vector] in U.
  pose proof (integer_spec d (or_zero i) W) as S.
  assert (forall b, give ABool (v_is_uint64 d (or_zero i)) = Ok (ABool b) -> v_is_uint64 d (or_zero i) = Ok b) as GB.
  { intros b. destruct (v_is_uint64 d (or_zero i)); cbn; congruence. }
  destruct (sort_of d) eqn:ES.
  - apply GB in U. unfold v_is_uint32. rewrite U. reflexivity.
  - destruct (nth_error (values_of d) (or_zero i)) as [[b|x|s]|] eqn:EN.
    + exfalso. destruct d as [l|l|l|l|l|l|l]; try discriminate ES; cbn [values_of] in EN; rewrite nth_at in EN;
        destruct (at_index l (or_zero i)); discriminate EN.
    + assert (exists b, v_is_uint64 d (or_zero i) = Ok b /\ (b = true <-> at_least_zero x)) as (b & EB & HB).
      { destruct (unsigned d) eqn:EU.
        - exists true. split; [apply GB; exact U|]. split; [intros _|reflexivity].
          destruct d as [l|l|l|l|l|l|l]; try discriminate EU; cbn [values_of] in EN; rewrite nth_at in EN;
            destruct (at_cases l (or_zero i)) as [(z & E & I)|E]; rewrite E in EN; try discriminate EN;
            injection EN as <-; cbn in W; rewrite Forall_forall in W; specialize (W z I); cbn beta in W;
            cbn [at_least_zero]; rewrite <- (Zle_Qle 0); lia.
        - destruct U as (b & E & HB). exists b. split; [apply GB; exact E|exact HB]. }
      unfold v_is_uint32. rewrite EB. cbn [obind].
      destruct x as [x|n|].
      * destruct S as (k & P & S). exists k. split; [exact P|]. cbn [at_least_zero] in HB.
        assert ((0 <= x)%Q -> 0 <= k) as K0.
        { intro H. destruct P as [P _]. destruct (P H) as [_ P2].
          pose proof (Qle_lt_trans _ _ _ H P2) as X. change 0%Q with (inject_Z 0) in X. rewrite <- Zlt_Qlt in X. lia. }
        split; [|split].
        -- intro H. destruct b; [|reflexivity]. exfalso. apply (Qlt_not_le _ _ H). apply HB. reflexivity.
        -- intros H ER HK. rewrite (proj2 HB H). rewrite ER in S. cbn [andb] in S.
           replace ((- 2 ^ 63 <=? k) && (k <? 2 ^ 63))%bool with false in S.
           2: { symmetry. apply andb_false_iff. right. apply Z.ltb_ge. lia. }
           cbn [negb] in S. rewrite S. reflexivity.
        -- intros H HC. rewrite (proj2 HB H). specialize (K0 H).
           assert (exists z, v_get_integer d (or_zero i) = Ok z /\ folded 64 (- 2 ^ 63) (2 ^ 63) k z) as (z & EZ & F).
           { destruct (is_real d); cbn [andb] in S; [|exact S]. destruct HC as [HC|HC]; [discriminate|].
             replace ((- 2 ^ 63 <=? k) && (k <? 2 ^ 63))%bool with true in S; [exact S|].
             symmetry. apply andb_true_iff. split; [apply Z.leb_le|apply Z.ltb_lt]; lia. }
           rewrite EZ. cbn [obind give]. eexists. split; [reflexivity|]. rewrite Z.leb_le.
           assert (k < 2 ^ 64) as KU.
           { destruct HC as [HC|HC]; [|lia].
             destruct d as [l|l|l|l|l|l|l]; try discriminate ES; try discriminate HC; cbn [values_of] in EN; rewrite nth_at in EN;
               destruct (at_cases l (or_zero i)) as [(y & E & I)|E]; rewrite E in EN; try discriminate EN;
               injection EN as <-; cbn in W; rewrite Forall_forall in W; specialize (W y I); cbn beta in W;
               rewrite (int_part_fun _ _ _ P (int_part_Z y)); lia. }
           destruct (Z.lt_ge_cases k (2 ^ 63)) as [L|L].
           ++ assert (z = k) as ->.
              { apply (folded_fun 64 (- 2 ^ 63) k); [lia|exact F|]. apply folded_self. lia. }
              split; intro X; lia.
           ++ assert (z = k - 2 ^ 64) as ->.
              { apply (folded_fun 64 (- 2 ^ 63) k); [lia|exact F|]. split; [lia|]. exists (-1). lia. }
              split; intro X; [right; exact L|lia].
      * cbn [at_least_zero] in HB. destruct n.
        -- destruct b; [|reflexivity]. exfalso. assert (true = false) by (apply HB; reflexivity). discriminate.
        -- rewrite (proj2 HB eq_refl), S. reflexivity.
      * cbn [at_least_zero] in HB. destruct b; [|reflexivity]. exfalso. apply HB. reflexivity.
    + exfalso. destruct d as [l|l|l|l|l|l|l]; try discriminate ES; cbn [values_of] in EN; rewrite nth_at in EN;
        destruct (at_index l (or_zero i)); discriminate EN.
    + unfold v_is_uint32. destruct (v_is_uint64 d (or_zero i)) as [b| |] eqn:EB; cbn [obind give].
      * destruct b; [rewrite S; reflexivity|]. exfalso.
        destruct d as [l|l|l|l|l|l|l]; try discriminate ES; cbn [v_is_uint64] in EB; try discriminate EB;
          cbn [values_of] in EN; rewrite nth_at in EN;
          destruct (at_cases l (or_zero i)) as [(y & E & _)|E]; rewrite E in EN, EB; discriminate.
      * reflexivity.
      * exfalso. destruct d as [l|l|l|l|l|l|l]; try discriminate ES; cbn [v_is_uint64] in EB; try discriminate EB;
          destruct (at_cases l (or_zero i)) as [(y & E & _)|E]; rewrite E in EB; discriminate.
  - apply GB in U. unfold v_is_uint32. rewrite U. reflexivity.
Qed.
