(** Overwriting settings: proofs. *)
From Verif Require Import Base SettingsModel SdtModel ScalarModel SetObjModel SetObjSpec SetObjProofs SetObjProofs2 SetObjProofs3.
From Coq Require Import ZArith QArith Lia.
Local Open Scope nat_scope.

Lemma obind_list_nth : forall {A B} (f : A -> outcome B) l r, obind_list f l = Ok r ->
  length r = length l /\ forall i x, nth_error l i = Some x -> exists y, nth_error r i = Some y /\ f x = Ok y.
Proof.
  intros A B f l. induction l as [|x l IH]; intros r H.
  - cbn in H. injection H as <-. split; [reflexivity|]. intros [|i] y E; discriminate E.
  - cbn in H. destruct (f x) as [y| |] eqn:E; cbn [obind] in H; try discriminate H.
    destruct (obind_list f l) as [ys| |] eqn:E2; cbn [obind] in H; try discriminate H.
    injection H as <-. destruct (IH ys eq_refl) as [L N]. split; [cbn; congruence|].
    intros [|i] z EZ.
    + injection EZ as <-. exists y. split; [reflexivity|exact E].
    + apply N. exact EZ.
Qed.

Lemma filled_spec : forall {A} (z : A) n f l, filled z n f = Ok l ->
  length l = 2 * n /\ (forall i, i < n -> nth_error l i = Some z) /\
  (forall i, i < n -> exists y, nth_error l (n + i) = Some y /\ f i = Ok y).
Proof.
  intros A z n f l H. unfold filled in H. destruct (obind_list f (seq 0 n)) as [r| |] eqn:E; cbn [obind] in H; try discriminate H.
  injection H as <-. destruct (obind_list_nth _ _ _ E) as [L N]. rewrite seq_length in L.
  split; [rewrite app_length, repeat_length; lia|]. split.
  - intros i I. rewrite nth_error_app1 by (rewrite repeat_length; exact I).
    rewrite (nth_error_nth' _ z) by (rewrite repeat_length; exact I). rewrite nth_repeat. reflexivity.
  - intros i I. rewrite nth_error_app2 by (rewrite repeat_length; lia). rewrite repeat_length.
    replace (n + i - n) with i by lia. apply N.
    rewrite (nth_error_nth' _ 0) by (rewrite seq_length; exact I). rewrite seq_nth by exact I. reflexivity.
Qed.

Lemma fill_values : forall a n k d, fill_kind a n k = Ok d ->
  length (values_of d) = 2 * n /\
  (forall i, i < n -> nth_error (values_of d) i = Some (zero_of (sort_of d))) /\
  (forall i, i < n -> exists x, nth_error (values_of d) (n + i) = Some x /\ taken a d i x).
Proof.
  intros a n k d H.
  destruct k; cbn [fill_kind] in H;
    (match type of H with obind ?x _ = _ => destruct x as [l| |] eqn:E end; cbn [obind] in H; try discriminate H);
    injection H as <-; destruct (filled_spec _ _ _ _ E) as (L & Z & V); cbn [values_of sort_of zero_of taken];
    rewrite map_length; (split; [exact L|]); (split; [intros i I; rewrite nth_error_map; exact (f_equal (option_map _) (Z i I))|]);
    intros i I; destruct (V i I) as (y & N & F); rewrite nth_error_map;
    eexists; (split; [exact (f_equal (option_map _) N)|]); exists y; (split; [|reflexivity]).
  - unfold take_bool, check in F. destruct (a (QBool i)) as [[]| |]; congruence.
  - unfold take_int in F. destruct (a (QInt32 i)) as [[]| |]; congruence.
  - unfold take_int in F. destruct (a (QInt64 i)) as [[]| |]; congruence.
  - unfold take_int in F. destruct (a (QUInt32 i)) as [[]| |]; congruence.
  - unfold take_int in F. destruct (a (QUInt64 i)) as [[]| |]; congruence.
  - unfold take_real in F. destruct (a (QScalar i)) as [[]| |]; congruence.
  - unfold take_str in F. destruct (a (QString 0)) as [[]| |]; congruence.
Qed.

Lemma check_yes : forall x b, check x = Ok b -> x = Ok (ABool b).
Proof. intros x b0 H. destruct x as [[]| |]; cbn in H; congruence. Qed.

Lemma fill_type : forall a n k d, fill_kind a n k = Ok d ->
  match d with
  | VBool _ => k = KBool | VI32 _ => k = KI32 | VI64 _ => k = KI64 | VU32 _ => k = KU32
  | VU64 _ => k = KU64 | VReal _ => k = KReal | VStr _ => k = KStr
  end.
Proof.
  intros a n k d H. destruct k; cbn [fill_kind] in H;
    (match type of H with obind ?x _ = _ => destruct x as [l| |] end; cbn [obind] in H; try discriminate H);
    injection H as <-; reflexivity.
Qed.

Lemma choose_type : forall a k, choose_kind a = Ok k -> forall d,
  match d with
  | VBool _ => k = KBool | VI32 _ => k = KI32 | VI64 _ => k = KI64 | VU32 _ => k = KU32
  | VU64 _ => k = KU64 | VReal _ => k = KReal | VStr _ => k = KStr
  end -> type_taken a d.
Proof.
  intros a k H d T. unfold choose_kind in H.
  destruct (check (a (QIsBool None))) as [[|]| |] eqn:E1; cbn [obind] in H; try discriminate H; apply check_yes in E1.
  { injection H as <-. destruct d; try discriminate T. exact E1. }
  destruct (check (a (QIsInt32 None))) as [[|]| |] eqn:E2; cbn [obind] in H; try discriminate H; apply check_yes in E2.
  { injection H as <-. destruct d; try discriminate T. split; [exact E1|exact E2]. }
  destruct (check (a (QIsInt64 None))) as [[|]| |] eqn:E3; cbn [obind] in H; try discriminate H; apply check_yes in E3.
  { injection H as <-. destruct d; try discriminate T. split; [exact E1|]. split; [exact E2|exact E3]. }
  destruct (check (a (QIsUInt32 None))) as [[|]| |] eqn:E4; cbn [obind] in H; try discriminate H; apply check_yes in E4.
  { injection H as <-. destruct d; try discriminate T. repeat (split; [assumption|]). assumption. }
  destruct (check (a (QIsUInt64 None))) as [[|]| |] eqn:E5; cbn [obind] in H; try discriminate H; apply check_yes in E5.
  { injection H as <-. destruct d; try discriminate T. repeat (split; [assumption|]). assumption. }
  destruct (check (a (QIsNumVec None))) as [[|]| |] eqn:E6; cbn [obind] in H; try discriminate H; apply check_yes in E6;
    injection H as <-; destruct d; try discriminate T; repeat (split; [assumption|]); assumption.
Qed.

Theorem adopted : forall a d, adopt a = Ok d ->
  type_taken a d /\ exists n, a QCount = Ok (ANum n) /\ length (values_of d) = 2 * n /\
    (forall i, i < n -> nth_error (values_of d) i = Some (zero_of (sort_of d))) /\
    (forall i, i < n -> exists x, nth_error (values_of d) (n + i) = Some x /\ taken a d i x).
Proof.
  intros a d H. unfold adopt in H.
  destruct (choose_kind a) as [k| |] eqn:EK; cbn [obind] in H; try discriminate H.
  destruct (take_num (a QCount)) as [n| |] eqn:EN; cbn [obind] in H; try discriminate H.
  split; [apply (choose_type a k EK); apply (fill_type a n k d H)|].
  exists n. split; [unfold take_num in EN; destruct (a QCount) as [[]| |]; congruence|].
  apply (fill_values a n k d H).
Qed.

(** When nothing can be taken. *)
Theorem adopt_throws : forall rnd d t, adopt (view rnd (Vec (Some d) t)) = Throw <->
  sort_of d = Numbers /\ values_of d = [].
Proof.
  intros rnd d t. split.
  - intro H. unfold adopt in H.
    destruct (choose_kind (view rnd (Vec (Some d) t))) as [k| |] eqn:EK; cbn [obind] in H; try discriminate H.
    + exfalso. destruct (count_view rnd _ k EK) as [[C _]|(n & C & NT)].
      * cbn in C. discriminate C.
      * rewrite C in H. cbn [obind] in H. congruence.
    + clear H. unfold choose_kind in EK. cbn [view ask_common ask_vector check] in EK.
      assert (v_is_integer d = true -> v_count d <> 0 -> v_get_integer d 0 <> Throw) as G.
      { intros I C. apply get_integer_no_throw; [exact I|lia]. }
      destruct d as [l|l|l|l|l|l|l]; cbn [v_is_bool sort_of values_of obind] in *; try (split; [reflexivity|]);
        try discriminate EK; destruct l as [|z l]; try reflexivity; exfalso; revert EK; clear G;
        unfold v_is_int32, v_is_uint32; cbn [v_is_integer v_get_integer at_index nth_error obind v_is_int64 v_is_uint64 or_zero];
        try (destruct (dbl_to_int64 z) as [y| |] eqn:EZ; [| exfalso; exact (dbl_no_throw z EZ) |]);
        cbn [obind give check];
        repeat (match goal with |- context [if ?b then _ else _] => destruct b end; cbn [obind give check]; try discriminate); try discriminate.
  - intros [S E]. destruct d as [l|l|l|l|l|l|l]; try discriminate S; cbn [values_of] in E; destruct l; try discriminate E; reflexivity.
Qed.

(** A call touches one setting. *)
Definition target (c : op) : option nat :=
  match c with
  | Append i _ | SetValue i _ | DelCurrent i | Overwrite i _ | Delete i | TouchIt i => Some i
  | _ => None
  end.

Theorem others : forall rnd a c a' r j s, pstep rnd a c = Some (Ok (a', r)) -> target c <> Some j ->
  nth_error (objs a) j = Some s -> nth_error (objs a') j = Some s.
Proof.
  intros rnd a c a' r j s H T E.
  assert (forall s', nth_error (objs a ++ [s']) j = Some s) as AP.
  { intro s'. rewrite nth_error_app1; [exact E|]. apply nth_error_Some. congruence. }
  assert (forall i s', Some i <> Some j -> nth_error (set_nth (objs a) i s') j = Some s) as SE.
  { intros i s' N. rewrite set_nth_other; [exact E|congruence]. }
  destruct c as [d|v|v|name vals|i|i x|i v|i|i k|i|i|i|i q]; cbn [pstep target] in *;
    repeat match type of H with
    | match ?x with _ => _ end = _ => destruct x
    end; try discriminate H; try (injection H as <- <-; cbn [objs]; auto).
  - destruct (view rnd _ q) as [x| |]; cbn [obind] in H; try discriminate H. injection H as <- <-. exact E.
  - destruct (view rnd _ q) as [x| |]; cbn [obind] in H; try discriminate H. injection H as <- <-. exact E.
Qed.

Theorem throw_keeps : forall rnd a c a', pstep rnd a c = Some (Ok (a', AThrow)) -> a' = a.
Proof.
  intros rnd a c a' H.
  destruct c as [d|v|v|name vals|i|i x|i v|i|i k|i|i|i|i q]; cbn [pstep] in *;
    repeat match type of H with
    | match ?x with _ => _ end = _ => destruct x
    end; try discriminate H; try (injection H as <-; destruct a; reflexivity).
  - destruct (view rnd _ q) as [x| |]; cbn [obind] in H; try discriminate H. injection H as <- _. reflexivity.
  - destruct (view rnd _ q) as [x| |]; cbn [obind] in H; try discriminate H. injection H as <- _. reflexivity.
Qed.
