From Verif Require Import Base ConfigModel InterpSpec InterpProofs BlockSpec.

(** * Histories *)
Lemma run_snoc : forall ty n sec ops o, run_block ty n sec (ops ++ [o]) = block_op (run_block ty n sec ops) o.
Proof. intros. unfold run_block. rewrite fold_left_app. reflexivity. Qed.

Lemma first_occ_snoc : forall A (dec : forall a b : A, {a = b} + {a <> b}) l x,
  first_occ dec (l ++ [x]) = if in_dec dec x l then first_occ dec l else first_occ dec l ++ [x].
Proof.
  intros A dec l x. unfold first_occ. rewrite rev_app_distr. simpl.
  destruct (in_dec dec x (rev l)) as [H|H]; destruct (in_dec dec x l) as [H'|H']; try reflexivity.
  - exfalso. apply H'. apply in_rev. exact H.
  - exfalso. apply H. apply -> in_rev. exact H'.
Qed.

Lemma first_occ_In : forall A (dec : forall a b : A, {a = b} + {a <> b}) l x, In x (first_occ dec l) <-> In x l.
Proof.
  intros. unfold first_occ. rewrite <- in_rev. rewrite nodup_In. rewrite <- in_rev. reflexivity.
Qed.

Lemma first_occ_NoDup : forall A (dec : forall a b : A, {a = b} + {a <> b}) l, NoDup (first_occ dec l).
Proof. intros. unfold first_occ. apply NoDup_rev. apply NoDup_nodup. Qed.

Lemma get_setting_names : forall sets n, map sname (fst (get_setting sets n)) = map sname sets.
Proof.
  induction sets as [|s r IH]; intro n; simpl; [reflexivity|].
  destruct (str_eqb (sname s) n); [reflexivity|].
  specialize (IH n). destruct (get_setting r n). simpl in *. rewrite IH. reflexivity.
Qed.

Lemma overwrite_names : forall sets n v, map sname (overwrite_setting sets n v) = map sname sets.
Proof.
  induction sets as [|s r IH]; intros n v; simpl; [reflexivity|].
  destruct (str_eqb (sname s) n); simpl; [reflexivity|]. rewrite IH. reflexivity.
Qed.

Lemma add_setting_names : forall sets s, map sname (add_setting sets s) =
  if in_dec str_dec (sname s) (map sname sets) then map sname sets else map sname sets ++ [sname s].
Proof.
  intros sets s. unfold add_setting. destruct (has_setting sets (sname s)) eqn:E.
  - rewrite overwrite_names, get_setting_names. apply has_setting_In in E.
    destruct (in_dec str_dec (sname s) (map sname sets)); [reflexivity|contradiction].
  - rewrite map_app. simpl.
    destruct (in_dec str_dec (sname s) (map sname sets)) as [H|H]; [|reflexivity].
    apply has_setting_In in H. congruence.
Qed.

(** Element-wise description of the result of AddSetting/GetSetting. *)
Lemma get_setting_elem : forall sets n x, NoDup (map sname sets) ->
  (In x (fst (get_setting sets n)) <->
   exists y, In y sets /\ x = mkSet (sname y) (svals y) (if str_eqb (sname y) n then true else stouched y)).
Proof.
  induction sets as [|s r IH]; intros n x Hn; simpl.
  - split; [contradiction|]. intros [y [[] _]].
  - inversion Hn; subst. destruct (str_eqb_spec (sname s) n) as [E|E].
    + simpl. split.
      * intros [Hx|Hx].
        -- subst x. exists s. split; [left; reflexivity|]. rewrite E, str_eqb_refl. reflexivity.
        -- exists x. split; [right; exact Hx|]. destruct (str_eqb_spec (sname x) n) as [E2|E2].
           ++ exfalso. apply H1. rewrite E, <- E2. apply in_map. exact Hx.
           ++ destruct x; reflexivity.
      * intros [y [[Hy|Hy] Ex]].
        -- subst y x. left. rewrite E, str_eqb_refl. reflexivity.
        -- right. destruct (str_eqb_spec (sname y) n) as [E2|E2].
           ++ exfalso. apply H1. rewrite E, <- E2. apply in_map. exact Hy.
           ++ subst x. destruct y; exact Hy.
    + specialize (IH n x H2). destruct (get_setting r n) as [r' o]. simpl in *. rewrite IH. split.
      * intros [Hx|[y [Hy Ex]]].
        -- subst x. exists s. split; [left; reflexivity|].
           destruct (str_eqb_spec (sname s) n) as [E2|E2]; [contradiction|destruct s; reflexivity].
        -- exists y. auto.
      * intros [y [[Hy|Hy] Ex]].
        -- subst y. left. subst x. destruct (str_eqb_spec (sname s) n) as [E2|E2]; [contradiction|destruct s; reflexivity].
        -- right. exists y. auto.
Qed.

Lemma overwrite_elem : forall sets n v x, NoDup (map sname sets) ->
  (In x (overwrite_setting sets n v) <->
   exists y, In y sets /\ x = mkSet (sname y) (if str_eqb (sname y) n then v else svals y) (stouched y)).
Proof.
  induction sets as [|s r IH]; intros n v x Hn; simpl.
  - split; [contradiction|]. intros [y [[] _]].
  - inversion Hn; subst. destruct (str_eqb_spec (sname s) n) as [E|E].
    + simpl. split.
      * intros [Hx|Hx].
        -- subst x. exists s. split; [left; reflexivity|]. rewrite E, str_eqb_refl. reflexivity.
        -- exists x. split; [right; exact Hx|]. destruct (str_eqb_spec (sname x) n) as [E2|E2].
           ++ exfalso. apply H1. rewrite E, <- E2. apply in_map. exact Hx.
           ++ destruct x; reflexivity.
      * intros [y [[Hy|Hy] Ex]].
        -- subst y x. left. rewrite E, str_eqb_refl. reflexivity.
        -- right. destruct (str_eqb_spec (sname y) n) as [E2|E2].
           ++ exfalso. apply H1. rewrite E, <- E2. apply in_map. exact Hy.
           ++ subst x. destruct y; exact Hy.
    + simpl. rewrite (IH n v x H2). split.
      * intros [Hx|[y [Hy Ex]]].
        -- subst x. exists s. split; [left; reflexivity|].
           destruct (str_eqb_spec (sname s) n) as [E2|E2]; [contradiction|destruct s; reflexivity].
        -- exists y. auto.
      * intros [y [[Hy|Hy] Ex]].
        -- subst y. left. subst x. destruct (str_eqb_spec (sname s) n) as [E2|E2]; [contradiction|destruct s; reflexivity].
        -- right. exists y. auto.
Qed.

Lemma add_setting_elem : forall sets n v x, NoDup (map sname sets) ->
  (In x (add_setting sets (mkSet n v false)) <->
   (In n (map sname sets) /\ exists y, In y sets /\
      x = if str_eqb (sname y) n then mkSet n v true else y) \/
   (~ In n (map sname sets) /\ (In x sets \/ x = mkSet n v false))).
Proof.
  intros sets n v x Hn. unfold add_setting. cbn [sname svals].
  destruct (has_setting sets n) eqn:E.
  - apply has_setting_In in E.
    rewrite overwrite_elem by (rewrite get_setting_names; exact Hn). split.
    + intros [y [Hy Ex]]. apply get_setting_elem in Hy; [|exact Hn]. destruct Hy as [z [Hz Ey]].
      left. split; [exact E|]. exists z. split; [exact Hz|]. subst x y. cbn [sname svals stouched].
      destruct (str_eqb_spec (sname z) n) as [E2|E2]; [rewrite E2; reflexivity|destruct z; reflexivity].
    + intros [[_ [y [Hy Ex]]]|[Hc _]]; [|contradiction].
      exists (mkSet (sname y) (svals y) (if str_eqb (sname y) n then true else stouched y)). split.
      * apply get_setting_elem; [exact Hn|]. exists y. auto.
      * subst x. cbn [sname svals stouched].
        destruct (str_eqb_spec (sname y) n) as [E2|E2]; [rewrite E2; reflexivity|destruct y; reflexivity].
  - assert (Hni : ~ In n (map sname sets)) by (intro Hc; apply has_setting_In in Hc; congruence).
    rewrite in_app_iff. simpl. split.
    + intros [Hx|[Hx|[]]]; right; split; auto.
    + intros [[Hc _]|[_ [Hx|Hx]]]; [contradiction|left; exact Hx|right; left; congruence].
Qed.

Lemma block_op_sets : forall b o, cb_sets (block_op b o) =
  match o with
  | OpSet n v => add_setting (cb_sets b) (mkSet n v false)
  | OpGet n => fst (get_setting (cb_sets b) n)
  | OpSub _ _ _ => cb_sets b
  end.
Proof.
  intros [t bn s sets subs] [n v|n|ty n sec]; simpl; try reflexivity.
  destruct (find_sub subs ty n); reflexivity.
Qed.

Lemma run_set_names : forall ty n sec ops,
  map sname (cb_sets (run_block ty n sec ops)) = first_occ str_dec (set_names ops).
Proof.
  intros ty n sec ops. induction ops as [|o ops IH] using rev_ind; [reflexivity|].
  rewrite run_snoc, block_op_sets. unfold set_names. rewrite flat_map_app. fold (set_names ops).
  destruct o as [m v|m|t m s]; simpl.
  - rewrite add_setting_names, IH, first_occ_snoc. simpl.
    destruct (in_dec str_dec m (first_occ str_dec (set_names ops))) as [H|H];
      destruct (in_dec str_dec m (set_names ops)) as [H'|H']; try reflexivity.
    + exfalso. apply H'. apply first_occ_In in H. exact H.
    + exfalso. apply H. apply first_occ_In. exact H'.
  - rewrite get_setting_names, IH, app_nil_r. reflexivity.
  - rewrite IH, app_nil_r. reflexivity.
Qed.

Lemma run_names_NoDup : forall ty n sec ops, NoDup (map sname (cb_sets (run_block ty n sec ops))).
Proof. intros. rewrite run_set_names. apply first_occ_NoDup. Qed.

Lemma values_of_snoc : forall n ops o, values_of n (ops ++ [o]) =
  values_of n ops ++ match o with OpSet m v => if str_eqb m n then [v] else [] | _ => [] end.
Proof.
  intros. unfold values_of. rewrite flat_map_app. simpl. rewrite app_nil_r. reflexivity.
Qed.

Lemma run_values : forall ty n sec ops x, In x (cb_sets (run_block ty n sec ops)) ->
  values_of (sname x) ops <> [] /\ svals x = last (values_of (sname x) ops) [].
Proof.
  intros ty n sec ops. induction ops as [|o ops IH] using rev_ind; intros x Hx; [contradiction|].
  rewrite run_snoc, block_op_sets in Hx. rewrite values_of_snoc.
  assert (Hnd := run_names_NoDup ty n sec ops).
  destruct o as [m v|m|t m s].
  - apply add_setting_elem in Hx; [|exact Hnd].
    destruct Hx as [[_ [y [Hy Ex]]]|[Hni [Hx|Hx]]].
    + destruct (str_eqb_spec (sname y) m) as [E|E].
      * subst x. cbn [sname svals]. rewrite str_eqb_refl. split; [destruct (values_of m ops); discriminate|].
        rewrite last_last. reflexivity.
      * subst x. destruct (str_eqb_spec m (sname y)) as [E2|E2]; [congruence|].
        rewrite app_nil_r. apply IH. exact Hy.
    + destruct (str_eqb_spec m (sname x)) as [E2|E2].
      * exfalso. apply Hni. subst m. apply in_map. exact Hx.
      * rewrite app_nil_r. apply IH. exact Hx.
    + subst x. cbn [sname svals]. rewrite str_eqb_refl. split; [destruct (values_of m ops); discriminate|].
      rewrite last_last. reflexivity.
  - apply get_setting_elem in Hx; [|exact Hnd]. destruct Hx as [y [Hy Ex]]. subst x. cbn [sname svals].
    rewrite app_nil_r. apply IH. exact Hy.
  - rewrite app_nil_r. apply IH. exact Hx.
Qed.

Opaque key_dec str_dec.

(** Sub-blocks. *)
Definition skey (c : cblock) : nat * str := (cb_type c, cb_name c).

Lemma find_sub_None : forall subs ty n, find_sub subs ty n = None <-> ~ In (ty, n) (map skey subs).
Proof.
  intros subs ty n. assert (H := find_sub_spec subs ty n). destruct (find_sub subs ty n) as [i|].
  - split; [discriminate|]. intro Hc. exfalso. apply Hc. destruct H as [b [H1 [H2 H3]]].
    apply nth_error_In in H1. apply in_map_iff. exists b. split; [unfold skey; congruence|exact H1].
  - split; [|reflexivity]. intros _ Hc. apply in_map_iff in Hc. destruct Hc as [b [E Hb]].
    apply (H b Hb). unfold skey in E. inversion E. auto.
Qed.

Lemma block_op_subs : forall b o, cb_subs (block_op b o) =
  match o with
  | OpSub t n sec => if in_dec key_dec (t, n) (map skey (cb_subs b)) then cb_subs b
                     else cb_subs b ++ [CB t n sec [] []]
  | _ => cb_subs b
  end.
Proof.
  intros [t bn s sets subs] [n v|n|ty n sec]; simpl; try reflexivity.
  destruct (find_sub subs ty n) as [i|] eqn:E; simpl.
  - destruct (in_dec key_dec (ty, n) (map skey subs)) as [H|H]; [reflexivity|].
    exfalso. apply find_sub_None in H. congruence.
  - apply find_sub_None in E. destruct (in_dec key_dec (ty, n) (map skey subs)) as [H|H]; [contradiction|reflexivity].
Qed.

Lemma run_sub_keys : forall ty n sec ops,
  map skey (cb_subs (run_block ty n sec ops)) = first_occ key_dec (sub_keys ops).
Proof.
  intros ty n sec ops. induction ops as [|o ops IH] using rev_ind; [reflexivity|].
  rewrite run_snoc, block_op_subs. unfold sub_keys. rewrite flat_map_app. fold (sub_keys ops).
  destruct o as [m v|m|t m s]; simpl.
  - rewrite app_nil_r. exact IH.
  - rewrite app_nil_r. exact IH.
  - rewrite first_occ_snoc. rewrite IH.
    destruct (in_dec key_dec (t, m) (first_occ key_dec (sub_keys ops))) as [H|H];
      destruct (in_dec key_dec (t, m) (sub_keys ops)) as [H'|H'].
    + exact IH.
    + exfalso. apply H'. apply first_occ_In in H. exact H.
    + exfalso. apply H. apply first_occ_In. exact H'.
    + rewrite map_app, IH. reflexivity.
Qed.

Lemma secs_of_snoc : forall t n ops o, secs_of t n (ops ++ [o]) =
  secs_of t n ops ++ match o with
                     | OpSub t' n' s => if Nat.eqb t' t && str_eqb n' n then [s] else []
                     | _ => [] end.
Proof. intros. unfold secs_of. rewrite flat_map_app. simpl. rewrite app_nil_r. reflexivity. Qed.

Lemma secs_of_nil : forall t n ops, secs_of t n ops = [] <-> ~ In (t, n) (sub_keys ops).
Proof.
  intros t n ops. induction ops as [|o ops IH]; simpl; [tauto|].
  destruct o as [m v|m|t' m s]; try exact IH. simpl.
  destruct (Nat.eqb t' t && str_eqb m n) eqn:E.
  - apply andb_true_iff in E. destruct E as [E1 E2]. apply Nat.eqb_eq in E1. apply str_eqb_eq in E2. subst.
    split; [discriminate|]. intro H. exfalso. apply H. left. reflexivity.
  - rewrite app_nil_l. rewrite IH. split; intro H.
    + intros [Hc|Hc]; [|contradiction]. inversion Hc; subst. rewrite Nat.eqb_refl, str_eqb_refl in E. discriminate.
    + intro Hc. apply H. right. exact Hc.
Qed.

Lemma run_sub_sec : forall ty n sec ops c, In c (cb_subs (run_block ty n sec ops)) ->
  secs_of (cb_type c) (cb_name c) ops <> [] /\
  cb_sec c = hd [] (secs_of (cb_type c) (cb_name c) ops) /\ cb_sets c = [] /\ cb_subs c = [].
Proof.
  intros ty n sec ops. induction ops as [|o ops IH] using rev_ind; intros c Hc; [contradiction|].
  rewrite run_snoc, block_op_subs in Hc. rewrite secs_of_snoc.
  destruct o as [m v|m|t m s].
  - rewrite app_nil_r. apply IH. exact Hc.
  - rewrite app_nil_r. apply IH. exact Hc.
  - assert (HO : In c (cb_subs (run_block ty n sec ops)) ->
       secs_of (cb_type c) (cb_name c) ops ++ (if (t =? cb_type c) && str_eqb m (cb_name c) then [s] else []) <> [] /\
       cb_sec c = hd [] (secs_of (cb_type c) (cb_name c) ops ++ (if (t =? cb_type c) && str_eqb m (cb_name c) then [s] else [])) /\
       cb_sets c = [] /\ cb_subs c = []).
    { intro Hin. destruct (IH c Hin) as [A1 [A2 A3]].
      destruct (secs_of (cb_type c) (cb_name c) ops) as [|x l]; [contradiction|].
      split; [discriminate|]. split; [exact A2|exact A3]. }
    destruct (in_dec key_dec (t, m) (map skey (cb_subs (run_block ty n sec ops)))) as [H|H].
    + apply HO. exact Hc.
    + apply in_app_or in Hc. destruct Hc as [Hc|[Hc|[]]]; [apply HO; exact Hc|].
      subst c. cbn [cb_type cb_name cb_sec cb_sets cb_subs]. rewrite Nat.eqb_refl, str_eqb_refl. cbn [andb].
      assert (E : secs_of t m ops = []).
      { apply secs_of_nil. intro Hin. apply H. rewrite run_sub_keys. apply first_occ_In. exact Hin. }
      rewrite E. split; [discriminate|]. split; [reflexivity|]. split; reflexivity.
Qed.

(** * Untouched settings *)
Definition not_set (n : str) (ops : list bop) : Prop := forall v, ~ In (OpSet n v) ops.
Definition not_got (n : str) (ops : list bop) : Prop := ~ In (OpGet n) ops.

Lemma not_set_names : forall n ops, not_set n ops <-> ~ In n (set_names ops).
Proof.
  intros n ops. unfold not_set, set_names. split.
  - intros H Hin. apply in_flat_map in Hin. destruct Hin as [o [Ho Hn]].
    destruct o as [m v|m|t m s]; simpl in Hn; try contradiction.
    destruct Hn as [Hn|[]]. subst m. apply (H v). exact Ho.
  - intros H v Hin. apply H. apply in_flat_map. exists (OpSet n v). split; [exact Hin|left; reflexivity].
Qed.

Lemma run_untouched : forall ty bn sec ops n,
  (exists x, In x (cb_sets (run_block ty bn sec ops)) /\ sname x = n /\ stouched x = false) <->
  (exists pre v post, ops = pre ++ OpSet n v :: post /\ not_set n pre /\ not_set n post /\ not_got n post).
Proof.
  intros ty bn sec ops n. induction ops as [|o ops IH] using rev_ind.
  - split.
    + intros [x [[] _]].
    + intros (pre & v & post & E & _). destruct pre; discriminate.
  - assert (Hnd := run_names_NoDup ty bn sec ops).
    assert (Hnm := run_set_names ty bn sec ops).
    assert (Hkeep : (forall v, o <> OpSet n v) -> o <> OpGet n ->
       ((exists pre v post, ops = pre ++ OpSet n v :: post /\ not_set n pre /\ not_set n post /\ not_got n post) <->
        (exists pre v post, ops ++ [o] = pre ++ OpSet n v :: post /\ not_set n pre /\ not_set n post /\ not_got n post))).
    { intros N1 N2. split.
      - intros (pre & v & post & E & A & B & C). exists pre, v, (post ++ [o]). subst ops.
        split; [rewrite <- app_assoc; reflexivity|]. split; [exact A|]. split.
        + intros w Hw. apply in_app_or in Hw. destruct Hw as [Hw|[Hw|[]]]; [apply (B w Hw)|apply (N1 w Hw)].
        + intro Hw. apply in_app_or in Hw. destruct Hw as [Hw|[Hw|[]]]; [apply (C Hw)|apply (N2 Hw)].
      - intros (pre & v & post & E & A & B & C).
        destruct post as [|q post] using rev_ind.
        + apply app_inj_tail in E. destruct E as [_ E]. exfalso. apply (N1 v E).
        + clear IHpost. rewrite app_comm_cons, app_assoc in E. apply app_inj_tail in E. destruct E as [E1 E2]. subst.
          exists pre, v, post. split; [reflexivity|]. split; [exact A|]. split.
          * intros w Hw. apply (B w). apply in_or_app. left. exact Hw.
          * intro Hw. apply C. apply in_or_app. left. exact Hw. }
    rewrite run_snoc, block_op_sets. destruct o as [m v|m|t m s].
    + destruct (str_eqb_spec m n) as [Em|Em].
      * subst m. split.
        -- intros [x [Hx [Hs Ht]]]. apply add_setting_elem in Hx; [|exact Hnd].
           destruct Hx as [[_ [y [Hy Ex]]]|[Hni Hx]].
           ++ exfalso. destruct (str_eqb_spec (sname y) n) as [E|E].
              ** subst x. discriminate.
              ** subst x. contradiction.
           ++ exists ops, v, []. split; [reflexivity|]. split.
              ** apply not_set_names. rewrite Hnm in Hni. intro Hc. apply Hni. apply first_occ_In. exact Hc.
              ** split; [intros w []|intros []].
        -- intros (pre & w & post & E & A & B & C).
           destruct post as [|q post] using rev_ind.
           ++ apply app_inj_tail in E. destruct E as [E1 E2]. subst pre. inversion E2; subst w.
              exists (mkSet n v false). split; [|split; reflexivity].
              apply add_setting_elem; [exact Hnd|]. right. split; [|right; reflexivity].
              rewrite Hnm. intro Hc. apply first_occ_In in Hc. apply not_set_names in A. contradiction.
           ++ exfalso. rewrite app_comm_cons, app_assoc in E. apply app_inj_tail in E. destruct E as [_ E2]. subst q.
              apply (B v). apply in_or_app. right. left. reflexivity.
      * rewrite <- (Hkeep ltac:(intros w Hw; inversion Hw; contradiction) ltac:(discriminate)). rewrite <- IH. split.
        -- intros [x [Hx [Hs Ht]]]. apply add_setting_elem in Hx; [|exact Hnd].
           destruct Hx as [[_ [y [Hy Ex]]]|[Hni [Hx|Hx]]].
           ++ destruct (str_eqb_spec (sname y) m) as [E|E]; subst x.
              ** discriminate.
              ** exists y. auto.
           ++ exists x. auto.
           ++ exfalso. subst x. simpl in Hs. contradiction.
        -- intros [x [Hx [Hs Ht]]]. exists x. split; [|auto].
           apply add_setting_elem; [exact Hnd|].
           destruct (in_dec str_dec m (map sname (cb_sets (run_block ty bn sec ops)))) as [Hi|Hi].
           ++ left. split; [exact Hi|]. exists x. split; [exact Hx|].
              destruct (str_eqb_spec (sname x) m) as [E|E]; [congruence|reflexivity].
           ++ right. split; [exact Hi|left; exact Hx].
    + destruct (str_eqb_spec m n) as [Em|Em].
      * subst m. split.
        -- intros [x [Hx [Hs Ht]]]. exfalso. apply get_setting_elem in Hx; [|exact Hnd].
           destruct Hx as [y [Hy Ex]]. subst x. simpl in Hs, Ht. subst n. rewrite str_eqb_refl in Ht. discriminate.
        -- intros (pre & w & post & E & A & B & C).
           destruct post as [|q post] using rev_ind.
           ++ apply app_inj_tail in E. destruct E as [_ E2]. discriminate.
           ++ exfalso. rewrite app_comm_cons, app_assoc in E. apply app_inj_tail in E. destruct E as [_ E2]. subst q.
              apply C. apply in_or_app. right. left. reflexivity.
      * rewrite <- (Hkeep ltac:(discriminate) ltac:(intro Hc; inversion Hc; contradiction)). rewrite <- IH. split.
        -- intros [x [Hx [Hs Ht]]]. apply get_setting_elem in Hx; [|exact Hnd].
           destruct Hx as [y [Hy Ex]]. exists y. subst x. simpl in Hs, Ht. split; [exact Hy|]. split; [exact Hs|].
           destruct (str_eqb_spec (sname y) m) as [E|E]; [congruence|exact Ht].
        -- intros [x [Hx [Hs Ht]]]. exists x. split; [|auto]. apply get_setting_elem; [exact Hnd|].
           exists x. split; [exact Hx|]. destruct (str_eqb_spec (sname x) m) as [E|E]; [congruence|destruct x; reflexivity].
    + rewrite <- (Hkeep ltac:(discriminate) ltac:(discriminate)). exact IH.
Qed.

Lemma has_untouched_spec : forall sets, has_untouched sets = true <-> get_untouched sets <> [].
Proof.
  induction sets as [|s r IH]; simpl; [split; [discriminate|contradiction]|].
  destruct (stouched s); simpl; [exact IH|]. split; [discriminate|reflexivity].
Qed.

(** * Merging *)
Definition merge_subs (allow_new : bool) : list cblock -> list cblock -> list cblock * list str :=
  fix merge_subs (theirs : list cblock) (mine : list cblock) : list cblock * list str :=
    match theirs with
    | [] => (mine, [])
    | b :: r =>
        match find_sub mine (cb_type b) (cb_name b) with
        | Some i =>
            match nth_error mine i with
            | Some m =>
                let (m', u1) := merge b m allow_new in
                let (mine', u2) := merge_subs r (upd_nth i (fun _ => m') mine) in
                (mine', u1 ++ u2)
            | None => merge_subs r mine
            end
        | None =>
            if allow_new then merge_subs r (mine ++ [copy_block b])
            else let (mine', u2) := merge_subs r mine in (mine', cb_name b :: u2)
        end
    end.

Lemma merge_unfold : forall t0 n0 s0 csets csubs t n sec sets subs allow,
  merge (CB t0 n0 s0 csets csubs) (CB t n sec sets subs) allow =
  let (sets', unk) := merge_settings sets csets allow in
  let (subs', unk') := merge_subs allow csubs subs in
  (CB t n sec sets' subs', unk ++ unk').
Proof. reflexivity. Qed.

Fixpoint cblock_ind' (P : cblock -> Prop)
  (H : forall ty n sec sets subs, Forall P subs -> P (CB ty n sec sets subs)) (t : cblock) : P t :=
  match t with
  | CB ty n sec sets subs =>
      H ty n sec sets subs
        ((fix go (l : list cblock) : Forall P l :=
            match l with [] => Forall_nil P | b :: r => Forall_cons b (cblock_ind' P H b) (go r) end) subs)
  end.

Lemma values_in_overwrite : forall sets m v n,
  values_in (overwrite_setting sets m v) n =
  if str_eqb m n then (match values_in sets n with Some _ => Some v | None => None end) else values_in sets n.
Proof.
  induction sets as [|s r IH]; intros m v n.
  - simpl. destruct (str_eqb m n); reflexivity.
  - unfold values_in in *. simpl. destruct (str_eqb_spec (sname s) m) as [E|E].
    + simpl. subst m. destruct (str_eqb (sname s) n) eqn:E2; reflexivity.
    + simpl. destruct (str_eqb_spec (sname s) n) as [E2|E2].
      * destruct (str_eqb_spec m n); [congruence|reflexivity].
      * apply IH.
Qed.

Lemma values_in_None : forall sets n, values_in sets n = None <-> ~ In n (map sname sets).
Proof.
  induction sets as [|s r IH]; intro n; unfold values_in in *; simpl; [tauto|].
  destruct (str_eqb_spec (sname s) n) as [E|E]; simpl.
  - split; [discriminate|]. intro H. exfalso. apply H. left. exact E.
  - rewrite IH. tauto.
Qed.

Lemma values_in_snoc : forall sets s n, values_in (sets ++ [s]) n =
  match values_in sets n with Some v => Some v | None => if str_eqb (sname s) n then Some (svals s) else None end.
Proof.
  induction sets as [|x r IH]; intros s n; unfold values_in in *; simpl.
  - destruct (str_eqb (sname s) n); reflexivity.
  - destruct (str_eqb (sname x) n); [reflexivity|apply IH].
Qed.

Definition combine_values (allow : bool) (theirs mine : option (list str)) : option (list str) :=
  match theirs, mine with
  | Some v, Some _ => Some v
  | Some v, None => if allow then Some v else None
  | None, m => m
  end.

Lemma merge_settings_values : forall theirs mine allow n, NoDup (map sname theirs) ->
  values_in (fst (merge_settings mine theirs allow)) n =
  combine_values allow (values_in theirs n) (values_in mine n).
Proof.
  induction theirs as [|s r IH]; intros mine allow n Hn.
  - simpl. reflexivity.
  - inversion Hn; subst. cbn [merge_settings].
    assert (Hr : forall m, sname s = m -> values_in r m = None).
    { intros m Em. apply values_in_None. subst m. assumption. }
    assert (HC : values_in (s :: r) n = if str_eqb (sname s) n then Some (svals s) else values_in r n).
    { unfold values_in. simpl. destruct (str_eqb (sname s) n); reflexivity. }
    rewrite HC. clear HC.
    destruct (has_setting mine (sname s)) eqn:Eh.
    + rewrite IH by assumption. rewrite values_in_overwrite.
      destruct (str_eqb_spec (sname s) n) as [E|E]; [|reflexivity].
      rewrite (Hr n E). simpl. destruct (values_in mine n) as [w|] eqn:Ew; [reflexivity|].
      apply values_in_None in Ew. exfalso. apply Ew. rewrite <- E. apply has_setting_In. exact Eh.
    + assert (Hm : values_in mine (sname s) = None).
      { apply values_in_None. intro Hc. apply has_setting_In in Hc. congruence. }
      destruct allow.
      * unfold add_setting. rewrite Eh. rewrite IH by assumption. rewrite values_in_snoc.
        destruct (str_eqb_spec (sname s) n) as [E|E].
        -- rewrite (Hr n E). subst n. rewrite Hm. reflexivity.
        -- destruct (values_in mine n); reflexivity.
      * specialize (IH mine false n H2). destruct (merge_settings mine r false) as [m u]. simpl in *.
        rewrite IH. destruct (str_eqb_spec (sname s) n) as [E|E]; [|reflexivity].
        rewrite (Hr n E). subst n. rewrite Hm. reflexivity.
Qed.

Lemma merge_settings_unknown : forall theirs mine allow, NoDup (map sname theirs) ->
  snd (merge_settings mine theirs allow) =
  if allow then [] else filter (fun m => negb (has_setting mine m)) (map sname theirs).
Proof.
  induction theirs as [|s r IH]; intros mine allow Hn.
  - simpl. destruct allow; reflexivity.
  - inversion Hn; subst. cbn [merge_settings map filter].
    destruct (has_setting mine (sname s)) eqn:Eh.
    + rewrite IH by assumption. cbn [negb]. destruct allow; [reflexivity|].
      apply filter_ext. intro m. f_equal.
      assert (A : forall a b, (a = true <-> b = true) -> a = b) by (intros [|] [|] H; intuition).
      apply A. rewrite !has_setting_In, overwrite_names. reflexivity.
    + cbn [negb]. destruct allow.
      * apply (IH (add_setting mine s) true). assumption.
      * specialize (IH mine false H2). destruct (merge_settings mine r false) as [m u]. simpl in *. rewrite IH. reflexivity.
Qed.

(** Lookup of one sub-block. *)
Definition sub_at (subs : list cblock) (k : nat * str) : option cblock :=
  find (fun c => Nat.eqb (cb_type c) (fst k) && str_eqb (cb_name c) (snd k)) subs.

Lemma sub_at_None : forall subs k, sub_at subs k = None <-> ~ In k (map skey subs).
Proof.
  induction subs as [|c r IH]; intros [t n]; unfold sub_at in *; simpl; [tauto|].
  destruct (Nat.eqb (cb_type c) t && str_eqb (cb_name c) n) eqn:E.
  - apply andb_true_iff in E. destruct E as [E1 E2]. apply Nat.eqb_eq in E1. apply str_eqb_eq in E2.
    split; [discriminate|]. intro H. exfalso. apply H. left. unfold skey. congruence.
  - specialize (IH (t, n)). simpl in IH. rewrite IH. split; intro H.
    + intros [Hc|Hc]; [|contradiction]. unfold skey in Hc. inversion Hc; subst.
      rewrite Nat.eqb_refl, str_eqb_refl in E. discriminate.
    + intro Hc. apply H. right. exact Hc.
Qed.

Lemma find_sub_at : forall subs ty n i, find_sub subs ty n = Some i -> sub_at subs (ty, n) = nth_error subs i.
Proof.
  induction subs as [|c r IH]; intros ty n i H; simpl in H; [discriminate|].
  unfold sub_at. simpl. unfold has_type_and_name in H.
  destruct (Nat.eqb (cb_type c) ty && str_eqb (cb_name c) n); [inversion H; reflexivity|].
  destruct (find_sub r ty n) as [j|] eqn:E; [|discriminate]. inversion H; subst. simpl. apply (IH ty n j E).
Qed.

Lemma key_test : forall c k, (Nat.eqb (cb_type c) (fst k) && str_eqb (cb_name c) (snd k)) = true <-> skey c = k.
Proof.
  intros c [t n]. simpl. rewrite andb_true_iff, Nat.eqb_eq, str_eqb_eq. unfold skey. split.
  - intros [A B]. congruence.
  - intro H. inversion H. auto.
Qed.

Lemma sub_at_upd : forall subs i m m' k, nth_error subs i = Some m -> skey m' = skey m ->
  find_sub subs (fst (skey m)) (snd (skey m)) = Some i ->
  sub_at (upd_nth i (fun _ => m') subs) k = if key_dec (skey m) k then Some m' else sub_at subs k.
Proof.
  induction subs as [|c r IH]; intros i m m' k Hi Hk Hf; [destruct i; discriminate|].
  unfold sub_at in *. destruct i as [|i]; cbn [nth_error find upd_nth find_sub skey fst snd] in *.
  - inversion Hi; subst c. destruct (key_dec (skey m) k) as [E|E].
    + assert (T : (Nat.eqb (cb_type m') (fst k) && str_eqb (cb_name m') (snd k)) = true) by (apply key_test; congruence).
      rewrite T. reflexivity.
    + destruct (Nat.eqb (cb_type m') (fst k) && str_eqb (cb_name m') (snd k)) eqn:T; [apply key_test in T; congruence|].
      destruct (Nat.eqb (cb_type m) (fst k) && str_eqb (cb_name m) (snd k)) eqn:T2; [apply key_test in T2; congruence|].
      reflexivity.
  - unfold has_type_and_name in Hf. simpl in Hf.
    destruct (Nat.eqb (cb_type c) (cb_type m) && str_eqb (cb_name c) (cb_name m)) eqn:Ec; [discriminate|].
    destruct (find_sub r (cb_type m) (cb_name m)) as [j|] eqn:Ej; [|discriminate]. inversion Hf; subst j.
    destruct (Nat.eqb (cb_type c) (fst k) && str_eqb (cb_name c) (snd k)) eqn:T.
    + apply key_test in T. destruct (key_dec (skey m) k) as [E|E]; [|reflexivity].
      exfalso. assert (T2 : (Nat.eqb (cb_type c) (fst (skey m)) && str_eqb (cb_name c) (snd (skey m))) = true) by (apply key_test; congruence).
      simpl in T2. congruence.
    + apply (IH i m m' k Hi Hk Ej).
Qed.

Lemma merge_head : forall b m allow, skey (fst (merge b m allow)) = skey m /\ cb_sec (fst (merge b m allow)) = cb_sec m.
Proof.
  intros [t0 n0 s0 cs csb] [t n s sets subs] allow. rewrite merge_unfold.
  destruct (merge_settings sets cs allow). destruct (merge_subs allow csb subs). split; reflexivity.
Qed.

(** What happens to one sub-block when a list of sub-blocks is merged. *)
Lemma merge_subs_at : forall allow theirs mine k, NoDup (map skey theirs) ->
  sub_at (fst (merge_subs allow theirs mine)) k =
  match sub_at theirs k, sub_at mine k with
  | Some b, Some m => Some (fst (merge b m allow))
  | Some b, None => if allow then Some (copy_block b) else None
  | None, m => m
  end.
Proof.
  intros allow theirs. induction theirs as [|b r IH]; intros mine k Hn.
  - simpl. reflexivity.
  - inversion Hn; subst.
    assert (HC : sub_at (b :: r) k = if key_dec (skey b) k then Some b else sub_at r k).
    { unfold sub_at. simpl. destruct (Nat.eqb (cb_type b) (fst k) && str_eqb (cb_name b) (snd k)) eqn:T.
      - apply key_test in T. destruct (key_dec (skey b) k); [reflexivity|contradiction].
      - destruct (key_dec (skey b) k) as [E|E]; [|reflexivity]. apply key_test in E. congruence. }
    rewrite HC. clear HC.
    assert (Hr : skey b = k -> sub_at r k = None).
    { intro E. apply sub_at_None. rewrite <- E. assumption. }
    cbn [merge_subs].
    destruct (find_sub mine (cb_type b) (cb_name b)) as [i|] eqn:Ef.
    + assert (Ha := find_sub_at _ _ _ _ Ef). assert (Hs := find_sub_spec mine (cb_type b) (cb_name b)).
      rewrite Ef in Hs. destruct Hs as [m [Hm [Hm1 Hm2]]].
      rewrite Hm. destruct (merge b m allow) as [m' u1] eqn:Em.
      fold (merge_subs allow).
      specialize (IH (upd_nth i (fun _ => m') mine) k H2).
      destruct (merge_subs allow r (upd_nth i (fun _ : cblock => m') mine)) as [mine' u2]. simpl in IH. simpl.
      rewrite IH.
      assert (Hk : skey m = skey b) by (unfold skey; congruence).
      assert (Hm' : skey m' = skey m).
      { destruct (merge_head b m allow) as [A _]. rewrite Em in A. exact A. }
      rewrite (sub_at_upd mine i m m' k Hm Hm').
      2:{ simpl. rewrite Hm1, Hm2. exact Ef. }
      rewrite Hk. destruct (key_dec (skey b) k) as [E|E].
      * rewrite (Hr E). assert (Hmk : sub_at mine k = Some m).
        { rewrite <- E. change (skey b) with (cb_type b, cb_name b). rewrite Ha. exact Hm. }
        rewrite Hmk, Em. reflexivity.
      * reflexivity.
    + assert (Hnone : sub_at mine (skey b) = None).
      { apply sub_at_None. apply find_sub_None. exact Ef. }
      fold (merge_subs allow).
      destruct allow.
      * rewrite IH by assumption.
        assert (Hk : skey (copy_block b) = skey b) by (destruct b; reflexivity).
        assert (Hsn : sub_at (mine ++ [copy_block b]) k =
          match sub_at mine k with Some m => Some m | None => if key_dec (skey b) k then Some (copy_block b) else None end).
        { clear - Hk. induction mine as [|c mine IHm]; unfold sub_at in *; simpl.
          - destruct (Nat.eqb (cb_type (copy_block b)) (fst k) && str_eqb (cb_name (copy_block b)) (snd k)) eqn:T.
            + apply key_test in T. destruct (key_dec (skey b) k); [reflexivity|congruence].
            + destruct (key_dec (skey b) k) as [E|E]; [|reflexivity]. rewrite <- Hk in E. apply key_test in E. congruence.
          - destruct (Nat.eqb (cb_type c) (fst k) && str_eqb (cb_name c) (snd k)); [reflexivity|exact IHm]. }
        rewrite Hsn. destruct (key_dec (skey b) k) as [E|E].
        -- rewrite (Hr E). subst k. rewrite Hnone. reflexivity.
        -- destruct (sub_at r k), (sub_at mine k); reflexivity.
      * specialize (IH mine k H2). destruct (merge_subs false r mine) as [mine' u2]. simpl in *. rewrite IH.
        destruct (key_dec (skey b) k) as [E|E]; [|reflexivity].
        rewrite (Hr E). subst k. rewrite Hnone. reflexivity.
Qed.

Lemma copy_settings_values : forall sets n, values_in (map copy_setting sets) n = values_in sets n.
Proof.
  induction sets as [|s r IH]; intro n; unfold values_in in *; simpl; [reflexivity|].
  destruct (str_eqb (sname s) n); [reflexivity|apply IH].
Qed.

Lemma sub_at_copy : forall subs k, sub_at (map copy_block subs) k = option_map copy_block (sub_at subs k).
Proof.
  induction subs as [|c r IH]; intro k; unfold sub_at in *; simpl; [reflexivity|].
  assert (E : cb_type (copy_block c) = cb_type c /\ cb_name (copy_block c) = cb_name c) by (destruct c; split; reflexivity).
  destruct E as [E1 E2]. rewrite E1, E2.
  destruct (Nat.eqb (cb_type c) (fst k) && str_eqb (cb_name c) (snd k)); [reflexivity|apply IH].
Qed.

Lemma block_at_cons : forall k p b, block_at (k :: p) b =
  match sub_at (cb_subs b) k with Some c => block_at p c | None => None end.
Proof. intros [t n] p b. reflexivity. Qed.

Lemma setting_at_nil : forall n b, setting_at [] n b = values_in (cb_sets b) n.
Proof. reflexivity. Qed.

Lemma setting_at_cons : forall k p n b, setting_at (k :: p) n b =
  match sub_at (cb_subs b) k with Some c => setting_at p n c | None => None end.
Proof.
  intros k p n b. unfold setting_at. rewrite block_at_cons. destruct (sub_at (cb_subs b) k); reflexivity.
Qed.

Lemma copy_setting_at : forall p n b, setting_at p n (copy_block b) = setting_at p n b.
Proof.
  induction p as [|k p IH]; intros n [t bn s sets subs].
  - rewrite !setting_at_nil. cbn [copy_block cb_sets]. apply copy_settings_values.
  - rewrite !setting_at_cons. cbn [copy_block cb_subs]. rewrite sub_at_copy.
    destruct (sub_at subs k); [apply IH|reflexivity].
Qed.

Lemma sub_at_In : forall subs k c, sub_at subs k = Some c -> In c subs /\ skey c = k.
Proof.
  intros subs k c H. unfold sub_at in H. apply find_some in H. destruct H as [H1 H2].
  split; [exact H1|]. apply key_test. exact H2.
Qed.

Lemma uniq_sub : forall b k c, uniq b -> sub_at (cb_subs b) k = Some c -> uniq c.
Proof.
  intros b k c Hu H. inversion Hu; subst. apply sub_at_In in H. destruct H as [H _].
  rewrite Forall_forall in H2. apply H2. exact H.
Qed.

Lemma merge_setting_at : forall p b this allow n, uniq b ->
  setting_at p n (fst (merge b this allow)) = combine_values allow (setting_at p n b) (setting_at p n this).
Proof.
  induction p as [|k p IH]; intros b this allow n Hu.
  - inversion Hu; subst. destruct this as [t' n' s' sets' subs']. rewrite merge_unfold.
    assert (E := merge_settings_values sets sets' allow n H).
    destruct (merge_settings sets' sets allow) as [m1 u1]. destruct (merge_subs allow subs subs') as [m2 u2].
    exact E.
  - assert (Hsub := fun c => uniq_sub b k c Hu).
    inversion Hu; subst. destruct this as [t' n' s' sets' subs']. rewrite merge_unfold.
    assert (E := merge_subs_at allow subs subs' k H0).
    destruct (merge_settings sets' sets allow) as [m1 u1]. destruct (merge_subs allow subs subs') as [m2 u2].
    cbn [fst] in *. rewrite !setting_at_cons. cbn [cb_subs] in *. rewrite E.
    destruct (sub_at subs k) as [b'|] eqn:Eb.
    + destruct (sub_at subs' k) as [m|].
      * apply IH. apply Hsub. reflexivity.
      * destruct allow.
        -- rewrite copy_setting_at. destruct (setting_at p n b'); reflexivity.
        -- destruct (setting_at p n b'); reflexivity.
    + destruct (sub_at subs' k) as [m|]; simpl; reflexivity.
Qed.

(** Unknown names. *)
Lemma merge_unknown_allowed : forall b this, uniq b -> snd (merge b this true) = [].
Proof.
  intros b. induction b as [t n s sets subs IH] using cblock_ind'. intros [t' n' s' sets' subs'] Hu.
  inversion Hu as [? ? ? ? ? H3 H4 H5]; subst. rewrite merge_unfold.
  assert (E1 := merge_settings_unknown sets sets' true H3).
  destruct (merge_settings sets' sets true) as [m1 u1]. simpl in E1. subst u1.
  assert (E2 : forall mine, snd (merge_subs true subs mine) = []).
  { clear - IH H5. induction subs as [|b r IHr]; intro mine; [reflexivity|].
    apply Forall_cons_iff in IH. destruct IH as [I1 I2]. apply Forall_cons_iff in H5. destruct H5 as [U1 U2].
    cbn [merge_subs]. fold (merge_subs true).
    destruct (find_sub mine (cb_type b) (cb_name b)) as [i|].
    - destruct (nth_error mine i) as [m|]; [|apply IHr; assumption].
      specialize (I1 m U1). destruct (merge b m true) as [m' u1]. simpl in I1. subst u1.
      specialize (IHr I2 U2 (upd_nth i (fun _ => m') mine)).
      destruct (merge_subs true r (upd_nth i (fun _ : cblock => m') mine)). exact IHr.
    - apply IHr; assumption. }
  specialize (E2 subs'). destruct (merge_subs true subs subs') as [m2 u2]. simpl in *. exact E2.
Qed.

Lemma merge_unknown_In : forall b this x, uniq b ->
  (In x (snd (merge b this false)) <->
   exists p b' this', block_at p b = Some b' /\ block_at p this = Some this' /\
     ((In x (map sname (cb_sets b')) /\ ~ In x (map sname (cb_sets this'))) \/
      (exists ty, In (ty, x) (map skey (cb_subs b')) /\ ~ In (ty, x) (map skey (cb_subs this'))))).
Proof.
  intros b. induction b as [t n s sets subs IH] using cblock_ind'. intros [t' n' s' sets' subs'] x Hu.
  inversion Hu as [? ? ? ? ? H3 H4 H5]; subst. rewrite merge_unfold.
  assert (E1 := merge_settings_unknown sets sets' false H3).
  destruct (merge_settings sets' sets false) as [m1 u1]. simpl in E1. subst u1.
  (* the sub-block part *)
  assert (E2 : forall mine, In x (snd (merge_subs false subs mine)) <->
     (exists b0, In b0 subs /\ match sub_at mine (skey b0) with
                               | Some m => In x (snd (merge b0 m false))
                               | None => x = cb_name b0 end)).
  { clear H3 Hu. revert IH H4 H5. induction subs as [|b r IHr]; intros IH H4 H5 mine.
    - simpl. split; [contradiction|]. intros [b0 [[] _]].
    - apply Forall_cons_iff in IH. destruct IH as [I1 I2]. apply Forall_cons_iff in H5. destruct H5 as [U1 U2].
      inversion H4 as [|? ? N1 N2]; subst. change (map (fun c => (cb_type c, cb_name c)) r) with (map skey r) in *.
      cbn [merge_subs]. fold (merge_subs false).
      destruct (find_sub mine (cb_type b) (cb_name b)) as [i|] eqn:Ef.
      + assert (Ha := find_sub_at _ _ _ _ Ef). assert (Hs := find_sub_spec mine (cb_type b) (cb_name b)).
        rewrite Ef in Hs. destruct Hs as [m [Hm [Hm1 Hm2]]]. rewrite Hm.
        change (cb_type b, cb_name b) with (skey b) in Ha. rewrite Hm in Ha.
        destruct (merge b m false) as [m' u1] eqn:Em.
        specialize (IHr I2 N2 U2 (upd_nth i (fun _ => m') mine)).
        destruct (merge_subs false r (upd_nth i (fun _ : cblock => m') mine)) as [mine' u2]. simpl in IHr.
        cbn [snd]. rewrite in_app_iff, IHr.
        assert (Hk : skey m = skey b) by (unfold skey; congruence).
        assert (Hm' : skey m' = skey m).
        { destruct (merge_head b m false) as [A _]. rewrite Em in A. exact A. }
        assert (Hrest : forall b0, In b0 r -> sub_at (upd_nth i (fun _ => m') mine) (skey b0) = sub_at mine (skey b0)).
        { intros b0 Hb0. rewrite (sub_at_upd mine i m m' (skey b0) Hm Hm').
          - destruct (key_dec (skey m) (skey b0)) as [E|E]; [|reflexivity].
            exfalso. apply N1. change (cb_type b, cb_name b) with (skey b). rewrite <- Hk, E. apply in_map. exact Hb0.
          - simpl. rewrite Hm1, Hm2. exact Ef. }
        split.
        * intros [Hx|[b0 [Hb0 Hx]]].
          -- exists b. split; [left; reflexivity|]. rewrite Ha, Em. exact Hx.
          -- exists b0. split; [right; exact Hb0|]. rewrite Hrest in Hx by exact Hb0. exact Hx.
        * intros [b0 [[Hb0|Hb0] Hx]].
          -- subst b0. left. rewrite Ha, Em in Hx. exact Hx.
          -- right. exists b0. split; [exact Hb0|]. rewrite Hrest by exact Hb0. exact Hx.
      + assert (Hnone : sub_at mine (skey b) = None).
        { apply sub_at_None. apply find_sub_None. exact Ef. }
        specialize (IHr I2 N2 U2 mine). destruct (merge_subs false r mine) as [mine' u2]. simpl in IHr.
        cbn [snd In]. rewrite IHr. split.
        * intros [Hx|[b0 [Hb0 Hx]]].
          -- exists b. split; [left; reflexivity|]. rewrite Hnone. symmetry. exact Hx.
          -- exists b0. split; [right; exact Hb0|exact Hx].
        * intros [b0 [[Hb0|Hb0] Hx]].
          -- subst b0. rewrite Hnone in Hx. left. symmetry. exact Hx.
          -- right. exists b0. auto. }
  specialize (E2 subs'). destruct (merge_subs false subs subs') as [m2 u2]. cbn [snd] in *.
  rewrite in_app_iff, E2. rewrite filter_In. rewrite negb_true_iff.
  assert (Hhs : has_setting sets' x = false <-> ~ In x (map sname sets')).
  { destruct (has_setting sets' x) eqn:E.
    - apply has_setting_In in E. split; [discriminate|contradiction].
    - split; [|reflexivity]. intros _ Hc. apply has_setting_In in Hc. congruence. }
  rewrite Hhs. rewrite Forall_forall in IH, H5.
  assert (Hat : forall b0, In b0 subs -> sub_at subs (skey b0) = Some b0).
  { clear - H4. change (map (fun c => (cb_type c, cb_name c)) subs) with (map skey subs) in H4.
    induction subs as [|c r IHr]; [intros b0 []|]. intros b0 [Hb|Hb]; inversion H4; subst; unfold sub_at; simpl.
    - rewrite Nat.eqb_refl, str_eqb_refl. reflexivity.
    - destruct (Nat.eqb (cb_type c) (cb_type b0) && str_eqb (cb_name c) (cb_name b0)) eqn:T.
      + exfalso. apply (key_test c (skey b0)) in T. apply H1. rewrite T. apply in_map. exact Hb.
      + apply IHr; assumption. }
  split.
  - intros [[A B]|[b0 [Hb0 Hx]]].
    + exists [], (CB t n s sets subs), (CB t' n' s' sets' subs'). split; [reflexivity|]. split; [reflexivity|].
      left. auto.
    + destruct (sub_at subs' (skey b0)) as [m|] eqn:Em.
      * apply (IH b0 Hb0 m x (H5 b0 Hb0)) in Hx. destruct Hx as (p & b' & th & P1 & P2 & P3).
        exists (skey b0 :: p), b', th. rewrite !block_at_cons. cbn [cb_subs]. rewrite (Hat b0 Hb0), Em. auto.
      * exists [], (CB t n s sets subs), (CB t' n' s' sets' subs'). split; [reflexivity|]. split; [reflexivity|].
        right. exists (cb_type b0). subst x. split.
        -- apply (in_map skey) in Hb0. exact Hb0.
        -- apply sub_at_None. exact Em.
  - intros (p & b' & th & P1 & P2 & P3). destruct p as [|k p].
    + inversion P1; subst b'. inversion P2; subst th. cbn [cb_sets cb_subs] in P3.
      destruct P3 as [P3|[ty [P3 P4]]]; [left; exact P3|]. right.
      apply in_map_iff in P3. destruct P3 as [b0 [Eb Hb0]]. exists b0. split; [exact Hb0|].
      rewrite Eb. destruct (sub_at subs' (ty, x)) as [m|] eqn:Em.
      * exfalso. apply P4. apply sub_at_In in Em. destruct Em as [M1 M2]. rewrite <- M2. apply in_map. exact M1.
      * unfold skey in Eb. inversion Eb. reflexivity.
    + right. rewrite !block_at_cons in *. cbn [cb_subs] in *.
      destruct (sub_at subs k) as [b0|] eqn:Eb; [|discriminate].
      destruct (sub_at subs' k) as [m|] eqn:Em; [|discriminate].
      apply sub_at_In in Eb. destruct Eb as [Eb1 Eb2]. exists b0. split; [exact Eb1|]. rewrite Eb2, Em.
      apply (IH b0 Eb1 m x (H5 b0 Eb1)). exists p, b', th. auto.
Qed.

(** Merging keeps unique trees unique. *)
Lemma merge_settings_names_uniq : forall theirs mine allow, NoDup (map sname mine) ->
  NoDup (map sname (fst (merge_settings mine theirs allow))).
Proof.
  induction theirs as [|s r IH]; intros mine allow Hn; [exact Hn|]. cbn [merge_settings].
  destruct (has_setting mine (sname s)) eqn:Eh.
  - apply IH. rewrite overwrite_names. exact Hn.
  - destruct allow.
    + apply IH. unfold add_setting. rewrite Eh, map_app. simpl. 
      apply NoDup_rev in Hn. rewrite <- (rev_involutive (map sname mine ++ [sname s])). apply NoDup_rev.
      rewrite rev_app_distr. simpl. constructor; [|exact Hn].
      rewrite <- in_rev. intro Hc. apply has_setting_In in Hc. congruence.
    + specialize (IH mine false Hn). destruct (merge_settings mine r false). exact IH.
Qed.

(** * Registry *)
Definition reg_all (types : list str) (names : list str) : list str :=
  fold_left (fun ts n => match register_block_type ts n with Ok (ts', _) => ts' | _ => ts end) names types.

Lemma stbt_notin : forall types k n, ~ In n types -> string_to_block_type_from k types n = 0.
Proof.
  induction types as [|t r IH]; intros k n H; simpl; [reflexivity|].
  destruct (str_eqb_spec t n) as [E|E]; [exfalso; apply H; left; exact E|].
  apply IH. intro Hc. apply H. right. exact Hc.
Qed.

Lemma stbt_app : forall types more k n, In n types ->
  string_to_block_type_from k (types ++ more) n = string_to_block_type_from k types n.
Proof.
  induction types as [|t r IH]; intros more k n H; simpl; [contradiction|].
  destruct (str_eqb_spec t n) as [E|E]; [reflexivity|]. apply IH. destruct H as [H|H]; [contradiction|exact H].
Qed.

Lemma stbt_new : forall types k n, ~ In n types -> string_to_block_type_from k (types ++ [n]) n = k + length types.
Proof.
  induction types as [|t r IH]; intros k n H; simpl.
  - rewrite str_eqb_refl. lia.
  - destruct (str_eqb_spec t n) as [E|E]; [exfalso; apply H; left; exact E|].
    rewrite IH; [lia|]. intro Hc. apply H. right. exact Hc.
Qed.

Lemma is_block_type_iff : forall types s, is_block_type types s = true <-> In s types.
Proof.
  induction types as [|t ts IH]; intro s; simpl.
  - split; [discriminate|contradiction].
  - rewrite orb_true_iff, IH, str_eqb_eq. split; intros [H|H]; auto.
Qed.

Lemma register_cases : forall types n,
  (In n types /\ register_block_type types n = Throw) \/
  (~ In n types /\ register_block_type types n = Ok (types ++ [n], length types)).
Proof.
  intros types n. unfold register_block_type. destruct (is_block_type types n) eqn:E.
  - left. apply is_block_type_iff in E. auto.
  - right. split; [intro Hc; apply is_block_type_iff in Hc; congruence|].
    rewrite app_length. simpl. replace (length types + 1 - 1) with (length types) by lia. reflexivity.
Qed.

Lemma reg_all_snoc : forall types names n, reg_all types (names ++ [n]) =
  match register_block_type (reg_all types names) n with Ok (ts', _) => ts' | _ => reg_all types names end.
Proof. intros. unfold reg_all. rewrite fold_left_app. reflexivity. Qed.

Lemma reg_all_occ : forall names, reg_all initial_types names = first_occ str_dec (str_of "/root" :: names).
Proof.
  intro names. induction names as [|n names IH] using rev_ind; [reflexivity|].
  rewrite reg_all_snoc, app_comm_cons, first_occ_snoc, IH.
  destruct (register_cases (first_occ str_dec (str_of "/root" :: names)) n) as [[H E]|[H E]]; rewrite E;
    destruct (in_dec str_dec n (str_of "/root" :: names)) as [H'|H']; try reflexivity.
  - exfalso. apply H'. apply first_occ_In in H. exact H.
  - exfalso. apply H. apply first_occ_In. exact H'.
Qed.

Lemma reg_all_prefix : forall names types, exists more, reg_all types names = types ++ more.
Proof.
  induction names as [|n names IH]; intro types.
  - exists []. rewrite app_nil_r. reflexivity.
  - unfold reg_all. simpl. fold (reg_all (match register_block_type types n with Ok (ts', _) => ts' | _ => types end) names).
    destruct (register_cases types n) as [[H E]|[H E]]; rewrite E.
    + apply IH.
    + destruct (IH (types ++ [n])) as [more Hm]. exists (n :: more). rewrite Hm, <- app_assoc. reflexivity.
Qed.

(** * Every block tree the reader builds is unique *)
Lemma uniq_add_setting : forall b s, uniq b -> uniq (block_add_setting s b).
Proof.
  intros b s Hu. inversion Hu as [t n sec sets subs H1 H2 H3]; subst. simpl. constructor; [|exact H2|exact H3].
  rewrite add_setting_names. destruct (in_dec str_dec (sname s) (map sname sets)) as [Hi|Hi]; [exact H1|].
  apply NoDup_rev in H1. rewrite <- (rev_involutive (map sname sets ++ [sname s])). apply NoDup_rev.
  rewrite rev_app_distr. simpl. constructor; [|exact H1]. rewrite <- in_rev. exact Hi.
Qed.

Lemma uniq_add_sub : forall b ty n sec, uniq b -> uniq (fst (add_sub_block b ty n sec)).
Proof.
  intros b ty n sec Hu. inversion Hu as [t bn s sets subs H1 H2 H3]; subst. simpl.
  destruct (find_sub subs ty n) as [i|] eqn:Ef; [exact Hu|]. simpl. constructor; [exact H1| |].
  - rewrite map_app. simpl. apply NoDup_rev in H2.
    rewrite <- (rev_involutive (map (fun c => (cb_type c, cb_name c)) subs ++ [(ty, n)])). apply NoDup_rev.
    rewrite rev_app_distr. simpl. constructor; [|exact H2]. rewrite <- in_rev. apply find_sub_None. exact Ef.
  - apply Forall_app. split; [exact H3|]. constructor; [|constructor]. constructor; constructor.
Qed.

Lemma map_upd_nth_same : forall A B (g : A -> B) (f : A -> A) l i, (forall x, g (f x) = g x) ->
  map g (upd_nth i f l) = map g l.
Proof.
  intros A B g f l. induction l as [|x r IH]; intros i H; [destruct i; reflexivity|].
  destruct i; simpl; [rewrite H; reflexivity|rewrite IH by exact H; reflexivity].
Qed.

Lemma Forall_upd_nth : forall A (P : A -> Prop) (f : A -> A) l i, (forall x, P x -> P (f x)) -> Forall P l ->
  Forall P (upd_nth i f l).
Proof.
  intros A P f l. induction l as [|x r IH]; intros i H HF; [destruct i; constructor|].
  inversion HF; subst. destruct i; simpl; constructor; auto.
Qed.

Lemma upd_at_key : forall p f b, (forall x, skey (f x) = skey x) -> skey (upd_at p f b) = skey b.
Proof. intros [|i p] f b H; simpl; [apply H|]. destruct b. reflexivity. Qed.

Lemma uniq_upd_at : forall p f b, (forall x, skey (f x) = skey x) -> (forall x, uniq x -> uniq (f x)) ->
  uniq b -> uniq (upd_at p f b).
Proof.
  induction p as [|i p IH]; intros f b Hk Hf Hu; simpl; [apply Hf; exact Hu|].
  inversion Hu as [t n sec sets subs H1 H2 H3]; subst. constructor; [exact H1| |].
  - change (fun c => (cb_type c, cb_name c)) with skey in *.
    rewrite map_upd_nth_same; [exact H2|]. intro x. apply upd_at_key. exact Hk.
  - apply Forall_upd_nth; [|exact H3]. intros x Hx. apply IH; assumption.
Qed.

Lemma get_at_uniq : forall p b c, uniq b -> get_at p b = Some c -> uniq c.
Proof.
  induction p as [|i p IH]; intros b c Hu H; simpl in H; [inversion H; subst; exact Hu|].
  destruct (nth_error (cb_subs b) i) as [d|] eqn:E; [|discriminate].
  apply (IH d c); [|exact H]. inversion Hu as [t n sec sets subs H1 H2 H3]; subst.
  rewrite Forall_forall in H3. apply H3. apply nth_error_In in E. exact E.
Qed.

Lemma uniq_replace_at : forall p root b b', uniq root -> get_at p root = Some b -> uniq b' -> skey b' = skey b ->
  uniq (upd_at p (fun _ => b') root).
Proof.
  intros p root b b' Hu Hg Hb Hk.
  rewrite (upd_at_ext p (fun _ => b') (fun x => if key_dec (skey x) (skey b') then b' else x) root b Hg).
  - apply uniq_upd_at; [| |exact Hu]; intros x; destruct (key_dec (skey x) (skey b')); auto.
  - destruct (key_dec (skey b) (skey b')) as [E|E]; [reflexivity|]. exfalso. apply E. symmetry. exact Hk.
Qed.

Definition uniq_res (r : sres) : Prop :=
  match r with SOk _ root _ | SExn _ root _ => uniq root | SUB => True end.

Lemma expect_uniq : forall ty ts root path k, uniq root -> (forall ts', uniq_res (k ts')) ->
  uniq_res (expect ty ts root path k).
Proof.
  intros ty ts root path k Hu Hk. unfold expect. destruct (advance ts) as [[more ts']| |]; try exact I.
  destruct ts' as [|t r]; [exact I|]. destruct (more && ttype_eqb (ttyp t) ty); [apply Hk|exact Hu].
Qed.

Lemma stmt_uniq : forall types ts root path, uniq root -> uniq_res (stmt types ts root path).
Proof.
  intros types ts root path Hu. unfold stmt. destruct ts as [|t r]; [exact I|].
  assert (Hopen : forall bt n sec ts', uniq_res (open_block bt n sec ts' root path)).
  { intros bt n sec ts'. unfold open_block. apply expect_uniq; [exact Hu|]. intro ts2.
    destruct (get_at path root) as [b|] eqn:Eg; [|exact I].
    destruct (add_sub_block b bt n sec) as [b' i] eqn:Ea. simpl.
    assert (Hb := get_at_uniq _ _ _ Hu Eg). assert (Hb' := uniq_add_sub b bt n sec Hb). rewrite Ea in Hb'.
    apply (uniq_replace_at path root b b'); try assumption.
    destruct b as [bt0 bn bs bsets bsubs]. simpl in Ea. destruct (find_sub bsubs bt n); inversion Ea; reflexivity. }
  destruct (ttyp t); try exact Hu.
  - unfold stmt_setting. apply expect_uniq; [exact Hu|]. intro ts1. apply expect_uniq; [exact Hu|]. intro ts2.
    destruct (collect_values ts2 [cur_val ts2]) as [[ts3 vals]| |]; try exact I.
    assert (Hu' : uniq (upd_at path (block_add_setting (mkSet (cur_val (t :: r)) vals false)) root)).
    { apply uniq_upd_at; [intros [a b c d e]; reflexivity|intros x Hx; apply uniq_add_setting; exact Hx|exact Hu]. }
    apply expect_uniq; [exact Hu'|]. intro ts4. exact Hu'.
  - unfold stmt_block. apply expect_uniq; [exact Hu|]. intro ts1.
    destruct (tokent_n ts1) as [ty| |]; try exact I.
    destruct (ttype_eqb ty TLPar); [|apply Hopen].
    destruct (advance ts1) as [[m ts2]| |]; try exact I.
    apply expect_uniq; [exact Hu|]. intro ts3. apply expect_uniq; [exact Hu|]. intro ts4. apply Hopen.
  - unfold stmt_end. destruct path; exact Hu.
Qed.

Lemma interp_uniq : forall types f ts root path err r e, uniq root ->
  interp_loop types f ts root path err = IOk r e -> uniq r.
Proof.
  intros types f. induction f as [|f IH]; intros ts root path err r e Hu H; [discriminate|].
  rewrite interp_loop_S in H. assert (Hs := stmt_uniq types ts root path Hu).
  assert (Hnext : forall ts' root' path' err', uniq root' ->
     match advance ts' with
     | Ok (true, ts'') => interp_loop types f ts'' root' path' err'
     | Ok (false, _) => interp_finish root' path' err'
     | _ => IUB
     end = IOk r e -> uniq r).
  { intros ts' root' path' err' Hu' Hn. destruct (advance ts') as [[[|] ts'']| |]; try discriminate.
    - apply (IH _ _ _ _ _ _ Hu' Hn).
    - unfold interp_finish in Hn. destruct path'; inversion Hn; subst. exact Hu'. }
  destruct (stmt types ts root path) as [ts' root' path'|ts' root' path'|]; [| |discriminate].
  - apply (Hnext _ _ _ _ Hs H).
  - destruct (advance_to ts') as [ts''| |]; try discriminate. apply (Hnext _ _ _ _ Hs H).
Qed.

Lemma root_uniq : uniq root_block.
Proof. constructor; constructor. Qed.

Lemma from_string_uniq : forall types fs d text r e, from_string types fs d text = FOk r e -> uniq r.
Proof.
  intros types fs d text r e H. unfold from_string in H.
  destruct (lex types fs d text) as [tk a b c| |]; try discriminate.
  destruct (interpret types tk) as [r' e'| | |] eqn:E; inversion H; subst.
  apply (interp_uniq types _ _ _ _ _ _ _ root_uniq E).
Qed.

Lemma run_block_uniq : forall ops ty n sec, uniq (run_block ty n sec ops).
Proof.
  induction ops as [|o ops IH] using rev_ind; intros ty n sec; [constructor; constructor|].
  rewrite run_snoc. specialize (IH ty n sec). destruct o as [m v|m|t m s]; simpl.
  - apply uniq_add_setting. exact IH.
  - inversion IH as [t bn s sets subs H1 H2 H3]. constructor; try assumption. rewrite get_setting_names. exact H1.
  - apply uniq_add_sub. exact IH.
Qed.

Lemma copy_uniq : forall b, uniq b -> uniq (copy_block b).
Proof.
  intro b. induction b as [t n s sets subs IH] using cblock_ind'. intro Hu.
  inversion Hu as [? ? ? ? ? H1 H2 H3]; subst. cbn [copy_block]. constructor.
  - rewrite map_map. exact H1.
  - rewrite map_map. rewrite (map_ext _ (fun c => (cb_type c, cb_name c))); [exact H2|]. intros [a c d e f]. reflexivity.
  - rewrite Forall_map. rewrite Forall_forall in *. intros c Hc. apply IH; auto.
Qed.

Lemma merge_uniq : forall b this allow, uniq b -> uniq this -> uniq (fst (merge b this allow)).
Proof.
  intros b. induction b as [t n s sets subs IH] using cblock_ind'. intros [t' n' s' sets' subs'] allow Hu Hu'.
  inversion Hu as [? ? ? ? ? H1 H2 H3]; subst. inversion Hu' as [? ? ? ? ? H1' H2' H3']; subst. rewrite merge_unfold.
  assert (E1 := merge_settings_names_uniq sets sets' allow H1').
  destruct (merge_settings sets' sets allow) as [m1 u1].
  assert (E2 : forall mine, NoDup (map skey mine) -> Forall uniq mine ->
     NoDup (map skey (fst (merge_subs allow subs mine))) /\ Forall uniq (fst (merge_subs allow subs mine))).
  { clear - IH H3. induction subs as [|b r IHr]; intros mine N U; [split; assumption|].
    apply Forall_cons_iff in IH. destruct IH as [I1 I2]. apply Forall_cons_iff in H3. destruct H3 as [U1 U2].
    cbn [merge_subs]. fold (merge_subs allow).
    destruct (find_sub mine (cb_type b) (cb_name b)) as [i|] eqn:Ef.
    - destruct (nth_error mine i) as [m|] eqn:En; [|apply IHr; assumption].
      assert (Um : uniq m) by (apply nth_error_In in En; rewrite Forall_forall in U; apply U; exact En).
      specialize (I1 m allow U1 Um). destruct (merge_head b m allow) as [Hk _].
      destruct (merge b m allow) as [m' u]. simpl in I1, Hk.
      assert (X : map skey (upd_nth i (fun _ => m') mine) = map skey mine).
      { clear - En Hk. revert i En. induction mine as [|c l IHl]; intros i En; [destruct i; discriminate|].
        destruct i; simpl in *; [inversion En; subst; rewrite Hk; reflexivity|rewrite IHl by exact En; reflexivity]. }
      assert (Y : Forall uniq (upd_nth i (fun _ => m') mine)) by (apply Forall_upd_nth; [intros; exact I1|exact U]).
      specialize (IHr I2 U2 (upd_nth i (fun _ => m') mine)). rewrite X in IHr. specialize (IHr N Y).
      destruct (merge_subs allow r (upd_nth i (fun _ : cblock => m') mine)). exact IHr.
    - destruct allow.
      + apply IHr; try assumption.
        * rewrite map_app. simpl. apply NoDup_rev in N. rewrite <- (rev_involutive (map skey mine ++ [skey (copy_block b)])).
          apply NoDup_rev. rewrite rev_app_distr. simpl. constructor; [|exact N]. rewrite <- in_rev.
          assert (Hk : skey (copy_block b) = skey b) by (destruct b; reflexivity). rewrite Hk. apply find_sub_None. exact Ef.
        * apply Forall_app. split; [exact U|]. constructor; [apply copy_uniq; exact U1|constructor].
      + specialize (IHr I2 U2 mine N U). destruct (merge_subs false r mine). exact IHr. }
  destruct (E2 subs' H2' H3') as [A B]. destruct (merge_subs allow subs subs') as [m2 u2]. simpl in *.
  constructor; assumption.
Qed.
