(** Settings behave like plain values: calls and programs. *)
From Verif Require Import Base SettingsModel SdtModel ScalarModel SetObjModel SetObjSpec SetObjProofs.
From Coq Require Import ZArith QArith Permutation.
Local Open Scope nat_scope.

(** * Queries *)

Lemma ask_view : forall rnd h o s q, obj_ok h o s -> ask rnd h o q = view rnd s q.
Proof.
  intros rnd h o s q H. destruct s as [|n v t|[d|] t]; cbn in H.
  - subst. reflexivity.
  - subst. reflexivity.
  - destruct H as (p & -> & Q). unfold ask, view. unfold holds in Q. rewrite Q. cbn [c_data c_live negb].
    rewrite andb_false_r. reflexivity.
  - subst. reflexivity.
Qed.

(** * Overwriting never fails half-way *)

Definition no_throw {A} (x : outcome A) : Prop := x <> Throw.

Lemma obind_list_no_throw : forall {A B} (f : A -> outcome B) l, (forall x, In x l -> f x <> Throw) ->
  obind_list f l <> Throw.
Proof.
  intros A B f l. induction l as [|x l IH]; intro H; [discriminate|].
  cbn. destruct (f x) eqn:E; cbn; [|exfalso; apply (H x); [left; reflexivity|exact E]|discriminate].
  destruct (obind_list f l) eqn:E2; cbn; try discriminate. apply IH.
  intros y I. apply H. right. exact I.
Qed.

Lemma filled_no_throw : forall {A} (z : A) n f, (forall i, i < n -> f i <> Throw) -> filled z n f <> Throw.
Proof.
  intros A z n f H. unfold filled.
  destruct (obind_list f (seq 0 n)) eqn:E; cbn; try discriminate.
  exfalso. revert E. apply obind_list_no_throw. intros i I. apply H. apply in_seq in I. lia.
Qed.

Lemma at_index_ok : forall {A} (l : list A) i, i < length l -> exists x, at_index l i = Ok x.
Proof.
  intros A l i H. unfold at_index. destruct (nth_error l i) eqn:E; [eauto|]. apply nth_error_None in E. lia.
Qed.

Lemma dbl_no_throw : forall x, dbl_to_int64 x <> Throw.
Proof.
  intros [q|n|]; cbn; try discriminate. unfold real_to_int64.
  destruct (_ && _)%bool; discriminate.
Qed.

Lemma get_integer_no_throw : forall d i, v_is_integer d = true -> i < v_count d -> v_get_integer d i <> Throw.
Proof.
  intros d i H L. destruct d as [l|l|l|l|l|l|l]; try discriminate H; cbn [v_count v_get_integer] in *;
    destruct (at_index_ok l i L) as [x ->]; cbn [obind]; try discriminate. apply dbl_no_throw.
Qed.

Lemma take_int_no_throw : forall r, r <> Throw -> take_int (give AInt r) <> Throw.
Proof. intros [z| |] H; cbn; congruence. Qed.

Lemma obind_no_throw : forall {A B} (x : outcome A) (f : A -> outcome B), x <> Throw ->
  (forall y, f y <> Throw) -> obind x f <> Throw.
Proof. intros A B [a| |] f H G; cbn; [apply G|congruence|discriminate]. Qed.

Lemma obind_wrap : forall {A} (x : outcome A) (f : A -> vdata), x <> Throw -> obind x (fun l => Ok (f l)) <> Throw.
Proof. intros A [a| |] f H; cbn; congruence. Qed.

Ltac crush H :=
  repeat (cbn [obind] in H; try discriminate H;
          match type of H with
          | obind ?x _ = _ => destruct x as [[|]| |]
          | (if ?b then _ else _) = _ => destruct b
          end).

Lemma vec_fill_no_throw : forall rnd d t k, choose_kind (view rnd (Vec (Some d) t)) = Ok k ->
  fill_kind (view rnd (Vec (Some d) t)) (v_count d) k <> Throw.
Proof.
  intros rnd d t k H.
  assert (forall i, i < v_count d -> v_is_integer d = true -> v_get_integer d i <> Throw) as G
    by (intros i L I; apply get_integer_no_throw; assumption).
  assert (k = KBool -> v_is_bool d = true) as KB.
  { intro. subst k. unfold choose_kind in H. cbn [view ask_common ask_vector check obind give] in H.
    destruct (v_is_bool d) eqn:E; [reflexivity|]. exfalso. crush H. }
  assert (k = KStr -> d <> d \/ v_is_integer d = false /\ v_is_bool d = false) as KS.
  { intro. subst k. right. unfold choose_kind in H. cbn [view ask_common ask_vector check obind give] in H.
    destruct (v_is_bool d) eqn:E; [discriminate H|]. split; [|reflexivity].
    destruct (v_is_integer d) eqn:F; [|reflexivity]. exfalso. crush H. }
  assert (k <> KBool -> v_is_bool d = false) as NB.
  { intro N. unfold choose_kind in H. cbn [view ask_common ask_vector check obind give] in H.
    destruct (v_is_bool d) eqn:E; [congruence|reflexivity]. }
  assert (k <> KBool -> k <> KStr -> v_is_integer d = true) as NS.
  { intros N M. pose proof (NB N) as E. destruct (v_is_integer d) eqn:F; [reflexivity|].
    destruct d as [l|l|l|l|l|l|l]; try discriminate; try (exfalso; discriminate F).
    exfalso. apply M. cbn in H. congruence. }
  destruct k; cbn [fill_kind view ask_common ask_vector]; apply obind_wrap, filled_no_throw; intros i L.
  - specialize (KB eq_refl). destruct d as [l|l|l|l|l|l|l]; try discriminate KB. cbn [v_count v_get_bool] in *.
    destruct (at_index_ok l i L) as [x ->]. discriminate.
  - apply take_int_no_throw. unfold v_get_int32. apply obind_no_throw; [|discriminate].
    apply G; [exact L|]. apply NS; discriminate.
  - apply take_int_no_throw. apply G; [exact L|]. apply NS; discriminate.
  - apply take_int_no_throw. unfold v_get_uint32. apply obind_no_throw; [|discriminate].
    apply G; [exact L|]. apply NS; discriminate.
  - apply take_int_no_throw. unfold v_get_uint64. apply obind_no_throw; [|discriminate].
    apply G; [exact L|]. apply NS; discriminate.
  - assert (v_is_integer d = true) as I by (apply NS; discriminate).
    destruct d as [l|l|l|l|l|l|l]; try discriminate I; cbn [v_count v_get_scalar] in *;
      destruct (at_index_ok l i L) as [x ->]; discriminate.
  - destruct (KS eq_refl) as [N|[I B]]; [congruence|].
    destruct d as [l|l|l|l|l|l|l]; try discriminate I; try discriminate B. cbn [v_count v_get_string] in *.
    destruct (at_index_ok l 0) as [x ->]; [lia|]. discriminate.
Qed.

Lemma none_adopt : forall rnd t, adopt (view rnd (Vec None t)) = Throw.
Proof. reflexivity. Qed.

Lemma script_bool_word : forall v, script_is_bool_at [v] 0 = Ok true -> exists b, string_to_bool v = Ok b.
Proof.
  intros v H. unfold script_is_bool_at in H. cbn [at_index nth_error obind] in H.
  assert (forall x y : bool, Ok x = Ok y -> x = y) as INJ by (intros x y E; congruence).
  apply INJ in H. unfold string_to_bool.
  destruct (str_eqb v (str_of "yes")); [eexists; reflexivity|].
  destruct (str_eqb v (str_of "Yes")); [eexists; reflexivity|].
  destruct (str_eqb v (str_of "YES")); [eexists; reflexivity|].
  destruct (str_eqb v (str_of "true")); [eexists; reflexivity|].
  destruct (str_eqb v (str_of "True")); [eexists; reflexivity|].
  destruct (str_eqb v (str_of "TRUE")); [eexists; reflexivity|].
  cbn [orb] in *.
  destruct (str_eqb v (str_of "no")); [eexists; reflexivity|].
  destruct (str_eqb v (str_of "No")); [eexists; reflexivity|].
  destruct (str_eqb v (str_of "NO")); [eexists; reflexivity|].
  destruct (str_eqb v (str_of "false")); [eexists; reflexivity|].
  destruct (str_eqb v (str_of "False")); [eexists; reflexivity|].
  destruct (str_eqb v (str_of "FALSE")); [eexists; reflexivity|]. cbn [orb] in H. discriminate H.
Qed.

Lemma only_value_true : forall vals f, only_value vals f = Ok true -> exists v, vals = [v] /\ f [v] 0 = Ok true.
Proof.
  intros vals f H. unfold only_value in H. destruct vals as [|v [|? ?]]; cbn in H; try discriminate. eauto.
Qed.

Lemma check_give : forall r b, check (give ABool r) = Ok b -> r = Ok b.
Proof. intros [x| |] b H; cbn in H; congruence. Qed.

Lemma whole_ok : forall r, whole r = true -> exists z, r = Ok (z, []).
Proof. intros [[z [|c r]]| |] H; cbn in H; try discriminate. eauto. Qed.

Lemma numeric_all : forall rnd vals, is_numeric_vector rnd vals = Ok true ->
  forall i v, nth_error vals i = Some v -> exists x, stod rnd v = StOk x.
Proof.
  intros rnd vals. induction vals as [|s r IH]; intros H [|i] v E; cbn in *; try discriminate.
  - injection E as ->. destruct (stod rnd v); try discriminate. eauto.
  - destruct (stod rnd s); try discriminate. apply (IH H i v E).
Qed.

Lemma script_fill_no_throw : forall rnd n vals t k, choose_kind (view rnd (Script n vals t)) = Ok k ->
  fill_kind (view rnd (Script n vals t)) (length vals) k <> Throw.
Proof.
  intros rnd n vals t k H. unfold choose_kind in H.
  cbn [view ask_common ask_script] in H. unfold script_check in H.
  destruct (check (give ABool (only_value vals script_is_bool_at))) as [[|]| |] eqn:E1; cbn [obind] in H; try discriminate H.
  { injection H as <-. apply check_give, only_value_true in E1 as (v & -> & E). apply script_bool_word in E as [b E].
    cbn [fill_kind]. apply obind_wrap, filled_no_throw. intros [|i] L; cbn [length] in L; [|lia].
    cbn [view ask_common ask_script]. unfold script_get_bool. cbn [at_index nth_error obind]. rewrite E. discriminate. }
  destruct (check (give ABool (only_value vals is_int32_at))) as [[|]| |] eqn:E2; cbn [obind] in H; try discriminate H.
  { injection H as <-. apply check_give, only_value_true in E2 as (v & -> & E).
    unfold is_int32_at in E. cbn [at_index nth_error obind] in E. injection E as E. apply whole_ok in E as [z E].
    cbn [fill_kind]. apply obind_wrap, filled_no_throw. intros [|i] L; cbn [length] in L; [|lia].
    cbn [view ask_common ask_script]. unfold get_int32. cbn [at_index nth_error obind]. rewrite E. discriminate. }
  destruct (check (give ABool (only_value vals is_int64_at))) as [[|]| |] eqn:E3; cbn [obind] in H; try discriminate H.
  { injection H as <-. apply check_give, only_value_true in E3 as (v & -> & E).
    unfold is_int64_at in E. cbn [at_index nth_error obind] in E. injection E as E. apply whole_ok in E as [z E].
    cbn [fill_kind]. apply obind_wrap, filled_no_throw. intros [|i] L; cbn [length] in L; [|lia].
    cbn [view ask_common ask_script]. unfold get_int64. cbn [at_index nth_error obind]. rewrite E. discriminate. }
  destruct (check (give ABool (only_value vals is_uint32_at))) as [[|]| |] eqn:E4; cbn [obind] in H; try discriminate H.
  { injection H as <-. apply check_give, only_value_true in E4 as (v & -> & E).
    unfold is_uint32_at in E. cbn [at_index nth_error obind] in E. injection E as E. apply whole_ok in E as [z E].
    cbn [fill_kind]. apply obind_wrap, filled_no_throw. intros [|i] L; cbn [length] in L; [|lia].
    cbn [view ask_common ask_script]. unfold get_uint32. cbn [at_index nth_error obind]. rewrite E. discriminate. }
  destruct (check (give ABool (only_value vals is_uint64_at))) as [[|]| |] eqn:E5; cbn [obind] in H; try discriminate H.
  { injection H as <-. apply check_give, only_value_true in E5 as (v & -> & E).
    unfold is_uint64_at in E. cbn [at_index nth_error obind] in E. injection E as E. apply whole_ok in E as [z E].
    cbn [fill_kind]. apply obind_wrap, filled_no_throw. intros [|i] L; cbn [length] in L; [|lia].
    cbn [view ask_common ask_script]. unfold get_uint64. cbn [at_index nth_error obind]. rewrite E. discriminate. }
  destruct (check (give ABool (is_numeric_vector rnd vals))) as [[|]| |] eqn:E6; cbn [obind] in H; try discriminate H.
  - injection H as <-. apply check_give in E6. cbn [fill_kind]. apply obind_wrap, filled_no_throw. intros i L.
    cbn [view ask_common ask_script]. unfold get_scalar_at, at_index.
    destruct (nth_error vals i) as [v|] eqn:E; [|apply nth_error_None in E; lia].
    cbn [obind]. destruct (numeric_all rnd vals E6 i v E) as [x ->]. discriminate.
  - injection H as <-. cbn [fill_kind]. apply obind_wrap, filled_no_throw. intros i L.
    cbn [view ask_common ask_script]. destruct (at_index_ok vals 0) as [x ->]; [lia|]. discriminate.
Qed.

Lemma choose_ext : forall a b, (forall q, a q = b q) -> choose_kind a = choose_kind b.
Proof.
  intros a b H. unfold choose_kind. rewrite (H (QIsBool None)), (H (QIsInt32 None)), (H (QIsInt64 None)),
    (H (QIsUInt32 None)), (H (QIsUInt64 None)), (H (QIsNumVec None)). reflexivity.
Qed.
Lemma obind_list_ext : forall {A B} (f g : A -> outcome B) l, (forall x, f x = g x) -> obind_list f l = obind_list g l.
Proof. intros A B f g l H. induction l as [|x l IH]; [reflexivity|]. cbn. rewrite H, IH. reflexivity. Qed.
Lemma filled_ext : forall {A} (z : A) n f g, (forall i, f i = g i) -> filled z n f = filled z n g.
Proof. intros A z n f g H. unfold filled. rewrite (obind_list_ext f g) by exact H. reflexivity. Qed.
Lemma fill_ext : forall a b n k, (forall q, a q = b q) -> fill_kind a n k = fill_kind b n k.
Proof.
  intros a b n k H. destruct k; cbn [fill_kind]; f_equal; apply filled_ext; intro i; rewrite H; reflexivity.
Qed.

Lemma count_view : forall rnd s k, choose_kind (view rnd s) = Ok k ->
  (take_num (view rnd s QCount) = Throw /\ s <> Gone) \/
  exists n, take_num (view rnd s QCount) = Ok n /\ fill_kind (view rnd s) n k <> Throw.
Proof.
  intros rnd s k H. destruct s as [|n v t|[d|] t].
  - cbn in H. discriminate H.
  - right. exists (length v). split; [reflexivity|]. apply script_fill_no_throw. exact H.
  - right. exists (v_count d). split; [reflexivity|]. apply vec_fill_no_throw. exact H.
  - left. split; [reflexivity|discriminate].
Qed.

(** * One call *)

(** The model does what the plain values do. *)
Definition matches (x : option (outcome (plain * answer))) (y : outcome (world * answer)) : Prop :=
  match x with
  | None => True
  | Some (Ok (a, r)) => exists w, y = Ok (w, r) /\ rel w a
  | Some Throw => False
  | Some UB => y = UB
  end.

Lemma rel_eta : forall w a, rel w a -> rel (mkworld (w_heap w) (w_hand w) (w_objs w)) (mkplain (hand a) (objs a)).
Proof. intros [h hd os] [hs os'] H. exact H. Qed.

Lemma get_objs : forall w a i s, rel w a -> nth_error (objs a) i = Some s ->
  exists o, nth_error (w_objs w) i = Some o /\ get (w_objs w) i = Ok o /\ obj_ok (w_heap w) o s.
Proof.
  intros w a i s H E. destruct (Forall2_nth _ _ _ _ _ (r_objs w a H) E) as (o & X & Y).
  exists o. split; [exact X|]. split; [|exact Y]. unfold get. rewrite X. reflexivity.
Qed.
Lemma get_hand : forall w a v d, rel w a -> nth_error (hand a) v = Some (Some d) ->
  exists p, nth_error (w_hand w) v = Some p /\ get (w_hand w) v = Ok p /\ holds (w_heap w) p d.
Proof.
  intros w a i s H E. destruct (Forall2_nth _ _ _ _ _ (r_hand w a H) E) as (o & X & Y).
  exists o. split; [exact X|]. split; [|exact Y]. unfold get. rewrite X. reflexivity.
Qed.
Lemma objs_len : forall w a, rel w a -> length (w_objs w) = length (objs a).
Proof. intros w a H. apply (Forall2_len _ _ _ (r_objs w a H)). Qed.
Lemma hand_len : forall w a, rel w a -> length (w_hand w) = length (hand a).
Proof. intros w a H. apply (Forall2_len _ _ _ (r_hand w a H)). Qed.

Lemma step_new : forall w a name vals, rel w a ->
  matches (Some (Ok (mkplain (hand a) (objs a ++ [Script name vals false]), ANew (length (objs a)))))
    (add_obj (w_heap w) w (OScript name vals false)).
Proof.
  intros w a name vals H. eexists. split; [unfold add_obj; rewrite (objs_len w a H); reflexivity|].
  apply rel_new; [exact H|reflexivity|reflexivity].
Qed.

(** Giving an object [o] (with or without a vector) the last vector of the heap. *)
Lemma put_new : forall w a i o s ptr t d, rel w a -> nth_error (w_objs w) i = Some o -> nth_error (objs a) i = Some s ->
  o = OVec ptr t ->
  exists h, set_value (w_heap w ++ [mkcell d true]) ptr (length (w_heap w)) = Ok (h, Some (length (w_heap w))) /\
    rel (mkworld h (w_hand w) (set_nth (w_objs w) i (OVec (Some (length (w_heap w))) t)))
        (mkplain (hand a) (set_nth (objs a) i (Vec (Some d) t))).
Proof.
  intros w a i o s ptr t d H E E' ->.
  destruct ptr as [p|].
  - (* first drop on the old heap, then add; the two orders give the same heap *)
    destruct (rel_drop w a i _ s (OVec None t) (Vec None t) H E E' eq_refl (fun _ => eq_refl)) as (h & D & G).
    cbn [destroy delete_current] in D.
    assert (In p (own w a)) as IP.
    { unfold own. apply in_or_app. right. apply (Permutation_in p (Permutation_sym (ptrs_take _ _ _ E))).
      left. reflexivity. }
    destruct (own_live w a p H IP) as [d0 Q]. pose proof (own_lt w a p H IP) as LT.
    rewrite (free_ok _ _ _ Q) in D. injection D as <-.
    pose proof (rel_own _ _ i (OVec None t) (Vec None t) d t G) as X.
    cbn [w_heap w_hand w_objs hand objs] in X.
    rewrite (set_nth_same _ _ _ _ E), (set_nth_same _ _ _ _ E') in X.
    specialize (X eq_refl eq_refl eq_refl).
    rewrite set_nth_length in X.
    assert (forall {A} (l : list A) i x y, set_nth (set_nth l i x) i y = set_nth l i y) as SS.
    { clear. intros A l. induction l as [|z l IH]; intros [|i] x y; cbn; congruence. }
    rewrite !SS in X.
    exists (set_nth (w_heap w) p (mkcell d0 false) ++ [mkcell d true]). split; [|exact X].
    unfold set_value, delete_current. rewrite (free_ok _ _ d0) by (apply holds_app; exact Q).
    cbn [obind]. repeat f_equal. revert LT. generalize p. clear.
    induction (w_heap w) as [|x l IH]; intros [|p] L; cbn [length] in L; try lia; cbn.
    + reflexivity.
    + f_equal. apply IH. lia.
  - exists (w_heap w ++ [mkcell d true]). split; [reflexivity|]. apply (rel_own w a i (OVec None t) s); auto.
Qed.

Lemma step_matches : forall rnd w a c, rel w a -> matches (pstep rnd a c) (step rnd w c).
Proof.
  intros rnd w a c H. destruct c as [d|v|v|name vals|i|i x|i v|i|i j|i|i|i|i q]; unfold pstep, step.
  - (* NewVec *)
    eexists. split; [rewrite (hand_len w a H); reflexivity|]. apply rel_vec. exact H.
  - (* FreeVec *)
    destruct (nth_error (hand a) v) as [[d|]|] eqn:E; try exact Logic.I.
    destruct (get_hand w a v d H E) as (p & V & -> & Q). cbn [obind].
    destruct (rel_unvec w a v p d H V E) as (h & -> & G). cbn [obind]. eexists. split; [reflexivity|exact G].
  - (* NewSF *)
    destruct (nth_error (hand a) v) as [[d|]|] eqn:E; try exact Logic.I.
    destruct (get_hand w a v d H E) as (p & V & -> & Q). cbn [obind].
    eexists. split; [unfold add_obj; rewrite (objs_len w a H); reflexivity|]. apply rel_new_take; assumption.
  - (* NewScript *) apply step_new. exact H.
  - (* NewFrom *)
    destruct (nth_error (objs a) i) as [s|] eqn:E; [|exact Logic.I].
    destruct s as [|n vs t|[d|] t]; try exact Logic.I;
      destruct (get_objs w a i _ H E) as (o & X & -> & O); cbn [obind];
      rewrite !(ask_view rnd _ o _ _ O).
    + apply step_new. exact H.
    + destruct d; cbn [view ask_common ask_vector give v_text_vector];
        try (eexists; split; [reflexivity|apply rel_eta in H; exact H]);
        try (exists w; split; [reflexivity|destruct a; exact H]).
      apply step_new. exact H.
    + exists w. split; [reflexivity|destruct a; exact H].
  - (* Append *)
    destruct (nth_error (objs a) i) as [[|n vs t|d t]|] eqn:E; try exact Logic.I.
    destruct (get_objs w a i _ H E) as (o & X & -> & O); cbn [obind]. cbn in O. subst o.
    eexists. split; [reflexivity|]. eapply rel_same; eauto. reflexivity.
  - (* SetValue *)
    destruct (nth_error (objs a) i) as [[|n vs t|d0 t]|] eqn:E; try exact Logic.I.
    destruct (nth_error (hand a) v) as [[d|]|] eqn:V; try exact Logic.I.
    destruct (get_objs w a i _ H E) as (o & X & -> & O); cbn [obind].
    destruct (get_hand w a v d H V) as (p & VP & -> & Q). cbn [obind].
    assert (exists ptr, o = OVec ptr t) as [ptr ->].
    { destruct d0 as [d0|]; cbn in O; [destruct O as (p0 & -> & _)|subst o]; eexists; reflexivity. }
    destruct (rel_drop w a i _ _ (OVec None t) (Vec None t) H X E eq_refl (fun _ => eq_refl)) as (h & D & G).
    cbn [destroy] in D. unfold set_value. rewrite D. cbn [obind fst snd].
    eexists. split; [reflexivity|].
    pose proof (rel_take _ _ i (OVec None t) (Vec None t) v p d t G) as Y.
    cbn [w_heap w_hand w_objs hand objs] in Y.
    rewrite (set_nth_same _ _ _ _ X), (set_nth_same _ _ _ _ E) in Y.
    specialize (Y eq_refl eq_refl eq_refl VP V).
    assert (forall {A} (l : list A) i x y, set_nth (set_nth l i x) i y = set_nth l i y) as SS.
    { clear. intros A l. induction l as [|z l IH]; intros [|i] x y; cbn; congruence. }
    rewrite !SS in Y. exact Y.
  - (* DelCurrent *)
    destruct (nth_error (objs a) i) as [[|n vs t|d0 t]|] eqn:E; try exact Logic.I.
    destruct (get_objs w a i _ H E) as (o & X & -> & O); cbn [obind].
    assert (exists ptr, o = OVec ptr t) as [ptr ->].
    { destruct d0 as [d0|]; cbn in O; [destruct O as (p0 & -> & _)|subst o]; eexists; reflexivity. }
    destruct (rel_drop w a i _ _ (OVec None t) (Vec None t) H X E eq_refl (fun _ => eq_refl)) as (h & D & G).
    cbn [destroy] in D. rewrite D. cbn [obind]. eexists. split; [reflexivity|exact G].
  - (* Overwrite *)
    destruct (nth_error (objs a) i) as [s1|] eqn:E1; [|exact Logic.I].
    destruct (nth_error (objs a) j) as [s2|] eqn:E2; [|destruct s1; exact Logic.I].
    destruct (get_objs w a i _ H E1) as (o1 & X1 & -> & O1); cbn [obind].
    destruct (get_objs w a j _ H E2) as (o2 & X2 & -> & O2); cbn [obind].
    assert (forall q, ask rnd (w_heap w) o2 q = view rnd s2 q) as V by (intro q; apply ask_view; exact O2).
    destruct s1 as [|n1 v1 t1|d1 t1].
    + destruct s2; exact Logic.I.
    + cbn in O1. subst o1. unfold overwrite. rewrite V.
      destruct s2 as [|n2 v2 t2|[d2|] t2]; [exact Logic.I| | |].
      * cbn [view ask_common ask_script]. eexists. split; [reflexivity|]. eapply rel_same; eauto; reflexivity.
      * destruct d2; cbn [view ask_common ask_vector give v_text_vector];
          try (exists w; split; [reflexivity|destruct a; exact H]).
        eexists. split; [reflexivity|]. eapply rel_same; eauto; reflexivity.
      * exists w. split; [reflexivity|destruct a; exact H].
    + assert (exists ptr, o1 = OVec ptr t1) as [ptr EO].
      { destruct d1 as [d0|]; cbn in O1; [destruct O1 as (p0 & -> & _)|subst o1]; eexists; reflexivity. }
      assert (s2 <> Gone -> matches
        (match adopt (view rnd s2) with
         | Ok d => Some (Ok (mkplain (hand a) (set_nth (objs a) i (Vec (Some d) t1)), ADone))
         | Throw => Some (Ok (mkplain (hand a) (objs a), AThrow))
         | UB => Some UB
         end) (overwrite rnd w i o1 o2)) as G.
      { intros NG. rewrite EO in *. unfold overwrite, adopt.
        rewrite (choose_ext _ _ V). rewrite V.
        destruct (choose_kind (view rnd s2)) as [k| |] eqn:EK; cbn [obind].
        - destruct (count_view rnd s2 k EK) as [[EC _]|(n & EC & NT)]; rewrite EC; cbn [obind].
          + exists w. split; [reflexivity|destruct a; exact H].
          + rewrite (fill_ext _ _ n k V). destruct (fill_kind (view rnd s2) n k) as [d| |] eqn:EF.
            * destruct (put_new w a i _ _ ptr t1 d H X1 E1 eq_refl) as (h & -> & G). cbn [obind fst snd].
              eexists. split; [reflexivity|exact G].
            * congruence.
            * reflexivity.
        - exists w. split; [reflexivity|destruct a; exact H].
        - reflexivity. }
      destruct s2 as [|n2 v2 t2|d2 t2]; [exact Logic.I| |]; apply G; discriminate.
  - (* CopyOf *)
    destruct (nth_error (objs a) i) as [[|n vs t|[d|] t]|] eqn:E; try exact Logic.I.
    + destruct (get_objs w a i _ H E) as (o & X & -> & O); cbn [obind]. cbn in O. subst o. cbn [copy_obj obind].
      apply step_new. exact H.
    + destruct (get_objs w a i _ H E) as (o & X & -> & O); cbn [obind]. destruct O as (p & -> & Q).
      cbn [copy_obj]. unfold holds in Q. rewrite Q. cbn [c_data]. unfold deref. rewrite Q. cbn [c_live c_data].
      destruct d; cbn [obind]; try (exists w; split; [reflexivity|destruct a; exact H]);
        (eexists; split; [unfold add_obj; rewrite (objs_len w a H); reflexivity|]; apply rel_new_own; exact H).
    + destruct (get_objs w a i _ H E) as (o & X & -> & O); cbn [obind]. cbn in O. subst o. cbn [copy_obj obind].
      exists w. split; [reflexivity|destruct a; exact H].
  - (* Delete *)
    destruct (nth_error (objs a) i) as [s|] eqn:E; [|exact Logic.I].
    destruct (get_objs w a i _ H E) as (o & X & -> & O); cbn [obind].
    destruct (rel_drop w a i _ _ OGone Gone H X E eq_refl (fun _ => eq_refl)) as (h & D & G).
    destruct s as [|n vs t|[d|] t]; [exact Logic.I| | |].
    + cbn in O. subst o. rewrite D. cbn [obind]. eexists. split; [reflexivity|exact G].
    + destruct O as (p & -> & Q). rewrite D. cbn [obind]. eexists. split; [reflexivity|exact G].
    + cbn in O. subst o. rewrite D. cbn [obind]. eexists. split; [reflexivity|exact G].
  - (* TouchIt *)
    destruct (nth_error (objs a) i) as [[|n vs t|d t]|] eqn:E; try exact Logic.I;
      destruct (get_objs w a i _ H E) as (o & X & -> & O); cbn [obind].
    + cbn in O. subst o. eexists. split; [reflexivity|]. eapply rel_same; eauto; reflexivity.
    + destruct d as [d|]; cbn in O.
      * destruct O as (p & -> & Q). eexists. split; [reflexivity|]. eapply rel_same; eauto.
        exists p. split; [reflexivity|exact Q].
      * subst o. eexists. split; [reflexivity|]. eapply rel_same; eauto; reflexivity.
  - (* Ask *)
    destruct (nth_error (objs a) i) as [s|] eqn:E; [|exact Logic.I].
    destruct (get_objs w a i _ H E) as (o & X & -> & O); cbn [obind]. rewrite (ask_view rnd _ o s q O).
    destruct s as [|n vs t|d t]; [exact Logic.I| |];
      match goal with |- context [view ?r ?s ?q] => destruct (view r s q) as [r1| |] eqn:EV end;
      cbn [obind]; try (exists w; split; [reflexivity|destruct a; exact H]); try reflexivity.
    + exfalso. destruct q; cbn in EV; try discriminate;
        repeat match type of EV with
        | give _ ?x = _ => destruct x; discriminate EV
        | script_check _ _ _ = _ => unfold script_check in EV
        | (match ?n with Some _ => _ | None => _ end) = _ => destruct n
        end.
    + exfalso. destruct d as [d|]; destruct q; cbn in EV; try discriminate;
        repeat match type of EV with
        | give _ ?x = _ => destruct x; discriminate EV
        end.
Qed.

(** * Programs *)

Lemma run_matches : forall rnd p w a, rel w a ->
  match prun rnd a p with
  | None => True
  | Some (Ok (a', l)) => exists w', run rnd w p = Ok (w', l) /\ rel w' a'
  | Some Throw => False
  | Some UB => run rnd w p = UB
  end.
Proof.
  intros rnd p. induction p as [|c p IH]; intros w a H.
  - exists w. split; [reflexivity|exact H].
  - cbn [prun run]. pose proof (step_matches rnd w a c H) as M. unfold matches in M.
    destruct (pstep rnd a c) as [[[a1 x]| |]|]; [| contradiction | |exact Logic.I].
    + destruct M as (w1 & -> & H1). cbn [obind fst snd]. specialize (IH w1 a1 H1).
      destruct (prun rnd a1 p) as [[[a2 l]| |]|]; [| contradiction | |exact Logic.I].
      * destruct IH as (w2 & -> & H2). cbn [obind fst snd]. exists w2. split; [reflexivity|exact H2].
      * rewrite IH. reflexivity.
    + rewrite M. reflexivity.
Qed.

Lemma rel_start : rel start nothing.
Proof.
  constructor; cbn; try constructor.
  - intros [d X]. unfold holds in X. destruct p; discriminate.
  - intros [].
Qed.

(** * Memory *)

Lemma live_list : forall h l, NoDup l -> (forall p, (exists d, holds h p d) <-> In p l) ->
  length (filter c_live h) = length l.
Proof.
  intros h l D L.
  set (live := fun p => match nth_error h p with Some c => c_live c | None => false end).
  assert (forall g k, filter c_live g = filter c_live g -> length (filter c_live g) =
    length (filter (fun p => match nth_error g (p - k) with Some c => c_live c | None => false end) (seq k (length g)))) as G.
  { clear. induction g as [|c g IH]; intros k _; [reflexivity|].
    cbn [length seq filter]. rewrite Nat.sub_diag. cbn [nth_error].
    assert (length (filter c_live g) = length (filter (fun p : nat => match nth_error (c :: g) (p - k) with Some c0 => c_live c0 | None => false end) (seq (S k) (length g)))) as X.
    { rewrite (IH (S k) eq_refl). f_equal. apply filter_ext_in. intros p I. apply in_seq in I.
      replace (p - k) with (S (p - S k)) by lia. reflexivity. }
    destruct (c_live c); cbn [length]; rewrite X; reflexivity. }
  rewrite (G h 0 eq_refl). 
  assert (Permutation (filter (fun p => match nth_error h (p - 0) with Some c => c_live c | None => false end) (seq 0 (length h))) l) as P.
  { apply NoDup_Permutation; [apply NoDup_filter, seq_NoDup|exact D|].
    intro p. rewrite <- L, filter_In, in_seq, Nat.sub_0_r. split.
    - intros [_ X]. destruct (nth_error h p) as [[d b]|] eqn:E; [|discriminate]. cbn in X. subst b.
      exists d. exact E.
    - intros [d X]. unfold holds in X. rewrite X. split; [|reflexivity].
      assert (p < length h) by (apply nth_error_Some; congruence). lia. }
  rewrite (Permutation_length P). reflexivity.
Qed.

Lemma handed_count : forall h l l', Forall2 (hand_ok h) l l' ->
  length (handed l l') = length (filter (fun x : option vdata => match x with Some _ => true | None => false end) l').
Proof.
  intros h l l' F. induction F as [|p x l l' P F IH]; [reflexivity|].
  unfold handed in *. cbn [combine flat_map]. rewrite app_length, IH. destruct x; reflexivity.
Qed.
Lemma ptrs_count : forall h l l', Forall2 (obj_ok h) l l' ->
  length (ptrs l) = length (filter (fun s => match s with Vec (Some _) _ => true | _ => false end) l').
Proof.
  intros h l l' F. induction F as [|p x l l' P F IH]; [reflexivity|].
  unfold ptrs in *. cbn [flat_map]. rewrite app_length, IH. 
  destruct x as [|n v t|[d|] t]; cbn in P.
  - subst. reflexivity.
  - subst. reflexivity.
  - destruct P as (q & -> & _). reflexivity.
  - subst. reflexivity.
Qed.

Lemma rel_memory : forall w a, rel w a -> in_memory w = held a.
Proof.
  intros w a [A B C D]. unfold in_memory, held. rewrite (live_list _ _ C D). unfold own. rewrite app_length.
  rewrite (handed_count _ _ _ A), (ptrs_count _ _ _ B). reflexivity.
Qed.

Theorem programs : forall rnd p a l, prun rnd nothing p = Some (Ok (a, l)) ->
  exists w, run rnd start p = Ok (w, l) /\ in_memory w = held a /\
    length (w_objs w) = length (objs a) /\
    (forall i o s q, nth_error (w_objs w) i = Some o -> nth_error (objs a) i = Some s ->
       ask rnd (w_heap w) o q = view rnd s q).
Proof.
  intros rnd p a l H. pose proof (run_matches rnd p start nothing rel_start) as M. rewrite H in M.
  destruct M as (w & E & G). exists w. split; [exact E|]. split; [apply rel_memory; exact G|].
  split; [apply objs_len; exact G|].
  intros i o s q X Y. destruct (get_objs w a i s G Y) as (o' & X' & _ & O).
  rewrite X in X'. injection X' as <-. apply ask_view. exact O.
Qed.

Theorem programs_ub : forall rnd p, prun rnd nothing p = Some UB -> run rnd start p = UB.
Proof.
  intros rnd p H. pose proof (run_matches rnd p start nothing rel_start) as M. rewrite H in M. exact M.
Qed.
