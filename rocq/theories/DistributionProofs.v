(** Lemmas on the numeric distribution functions. *)
From Coq Require Import Reals Lra Permutation.
From Verif Require Import Base DomainModel AnalyticalModel NumericModel NumericSpec NumericArrays DistributionModel DistributionSpec.
Local Open Scope R_scope.

Lemma Rltb_t : forall x y, Rltb x y = true <-> x < y.
Proof. intros x y. unfold Rltb. destruct (Rlt_dec x y); split; intro H; try discriminate; try reflexivity; lra. Qed.
Lemma Rltb_f : forall x y, Rltb x y = false <-> y <= x.
Proof. intros x y. unfold Rltb. destruct (Rlt_dec x y); split; intro H; try discriminate; try reflexivity; lra. Qed.
Lemma Rleb_t : forall x y, Rleb x y = true <-> x <= y.
Proof. intros x y. unfold Rleb. destruct (Rle_dec x y); split; intro H; try discriminate; try reflexivity; lra. Qed.
Lemma Rleb_f : forall x y, Rleb x y = false <-> y < x.
Proof. intros x y. unfold Rleb. destruct (Rle_dec x y); split; intro H; try discriminate; try reflexivity; lra. Qed.

(** * The search *)
Lemma bisect_unfold : forall grid x asc fuel il iu, bisect grid x asc fuel il iu =
  if (iu - il <=? 1)%nat then Some (Ok il) else
  match fuel with
  | O => None
  | S k =>
      match nth_error grid (Nat.div (iu + il) 2) with
      | None => Some UB
      | Some v => if Bool.eqb (Rleb v x) asc then bisect grid x asc k (Nat.div (iu + il) 2) iu
                  else bisect grid x asc k il (Nat.div (iu + il) 2)
      end
  end.
Proof. destruct fuel; reflexivity. Qed.

Lemma bisect_ends : forall grid x asc fuel il iu, (il < iu)%nat -> (iu < length grid)%nat -> (iu - il <= S fuel)%nat ->
  exists k, bisect grid x asc fuel il iu = Some (Ok k) /\ (il <= k < iu)%nat /\
    (k = il \/ exists v, nth_error grid k = Some v /\ Rleb v x = asc) /\
    (S k = iu \/ exists v, nth_error grid (S k) = Some v /\ Rleb v x = negb asc).
Proof.
  intros grid x asc. induction fuel as [|fuel IH]; intros il iu H1 H2 H3; rewrite bisect_unfold.
  - destruct (iu - il <=? 1)%nat eqn:E; [|apply Nat.leb_gt in E; lia].
    exists il. split; [reflexivity|]. split; [lia|]. split; [left; reflexivity|left; lia].
  - destruct (iu - il <=? 1)%nat eqn:E.
    + apply Nat.leb_le in E. exists il. split; [reflexivity|]. split; [lia|]. split; [left; reflexivity|left; lia].
    + apply Nat.leb_gt in E. set (im := Nat.div (iu + il) 2).
      assert (M : (il < im < iu)%nat).
      { unfold im. pose proof (Nat.div_mod (iu + il) 2 ltac:(lia)). pose proof (Nat.mod_upper_bound (iu + il) 2 ltac:(lia)). lia. }
      destruct (nth_error grid im) as [v|] eqn:N; [|apply nth_error_None in N; lia].
      destruct (Bool.eqb (Rleb v x) asc) eqn:B.
      * apply eqb_prop in B. destruct (IH im iu) as (k & K1 & K2 & K3 & K4); try lia.
        exists k. split; [exact K1|]. split; [lia|]. split; [|exact K4]. right.
        destruct K3 as [->|K3]; [exists v; split; assumption|exact K3].
      * apply eqb_false_iff in B. destruct (IH il im) as (k & K1 & K2 & K3 & K4); try lia.
        exists k. split; [exact K1|]. split; [lia|]. split; [exact K3|]. right.
        destruct K4 as [K4|K4]; [exists v; rewrite K4; split; [exact N|destruct (Rleb v x), asc; try reflexivity; exfalso; apply B; reflexivity]|exact K4].
Qed.

(** What the search returns, for any grid. *)
Lemma find_nearest_cases : forall grid x a c, (2 <= length grid)%nat ->
  nth_error grid 0 = Some a -> nth_error grid (length grid - 1) = Some c ->
  exists b k, nth_error grid 1 = Some b /\ (S k < length grid)%nat /\
    find_nearest grid x = Ok (if Rltb x a then (-1)%Z else if Rltb c x then Z.of_nat (length grid - 1) else Z.of_nat k) /\
    (k = 0%nat \/ exists v, nth_error grid k = Some v /\ Rleb v x = Rltb a b) /\
    (S k = (length grid - 1)%nat \/ exists v, nth_error grid (S k) = Some v /\ Rleb v x = negb (Rltb a b)).
Proof.
  intros grid x a c L A C. destruct grid as [|a' [|b t]]; [cbn in L; lia|cbn in L; lia|].
  change (nth_error (a' :: b :: t) 0) with (Some a') in A. injection A as ->.
  exists b. set (g := a :: b :: t) in *.
  destruct (bisect_ends g x (Rltb a b) (length g) 0 (length g - 1)) as (k & K1 & K2 & K3 & K4); try lia.
  exists k. split; [reflexivity|]. split; [lia|]. split; [|split; assumption].
  unfold find_nearest. fold g. unfold g at 1. cbv iota beta. rewrite K1.
  replace (length g - 1 <? k)%nat with false by (symmetry; apply Nat.ltb_ge; lia).
  destruct (Rltb x a); [reflexivity|]. unfold dget. rewrite C. cbn [obind].
  destruct (Rltb c x); reflexivity.
Qed.

Lemma ends_of : forall (A : Type) (l : list A), (1 <= length l)%nat ->
  exists a c, nth_error l 0 = Some a /\ nth_error l (length l - 1) = Some c.
Proof.
  intros A l L. destruct (nth_error l 0) as [a|] eqn:E1; [|apply nth_error_None in E1; lia].
  destruct (nth_error l (length l - 1)) as [c|] eqn:E2; [|apply nth_error_None in E2; lia].
  exists a, c. split; reflexivity.
Qed.

Lemma ascending_le : forall l i j a b, ascending l -> (i <= j)%nat -> nth_error l i = Some a -> nth_error l j = Some b -> a <= b.
Proof.
  intros l i j a b H L A B. destruct (Nat.eq_dec i j) as [->|N]; [rewrite A in B; injection B as ->; lra|].
  left. apply (H i j); [lia|assumption|assumption].
Qed.
Lemma ascending_index : forall l i j a b, ascending l -> nth_error l i = Some a -> nth_error l j = Some b -> a <= b -> (i <= j)%nat.
Proof.
  intros l i j a b H A B L. destruct (le_lt_dec i j) as [K|K]; [exact K|]. pose proof (H j i b a K B A). lra.
Qed.

Lemma find_below : forall grid x a, (2 <= length grid)%nat -> nth_error grid 0 = Some a -> x < a -> find_nearest grid x = Ok (-1)%Z.
Proof.
  intros grid x a L A H. destruct (ends_of _ grid ltac:(lia)) as (a' & c & A' & C). rewrite A in A'. injection A' as <-.
  destruct (find_nearest_cases grid x a c L A C) as (b & k & _ & _ & -> & _).
  replace (Rltb x a) with true by (symmetry; apply Rltb_t; exact H). reflexivity.
Qed.
Lemma find_above : forall grid x a c, (2 <= length grid)%nat -> nth_error grid 0 = Some a -> nth_error grid (length grid - 1) = Some c ->
  a <= x -> c < x -> find_nearest grid x = Ok (Z.of_nat (length grid - 1)).
Proof.
  intros grid x a c L A C H1 H2. destruct (find_nearest_cases grid x a c L A C) as (b & k & _ & _ & -> & _).
  replace (Rltb x a) with false by (symmetry; apply Rltb_f; exact H1).
  replace (Rltb c x) with true by (symmetry; apply Rltb_t; exact H2). reflexivity.
Qed.
Lemma find_inside : forall grid x a c, ascending grid -> (2 <= length grid)%nat ->
  nth_error grid 0 = Some a -> nth_error grid (length grid - 1) = Some c -> a <= x <= c ->
  exists k u v, find_nearest grid x = Ok (Z.of_nat k) /\ nth_error grid k = Some u /\ nth_error grid (S k) = Some v /\
    u <= x /\ (x < v \/ (x = v /\ (k + 2 = length grid)%nat)).
Proof.
  intros grid x a c G L A C [H1 H2]. destruct (find_nearest_cases grid x a c L A C) as (b & k & B & K & E & K1 & K2).
  assert (AB : Rltb a b = true) by (apply Rltb_t; apply (G 0%nat 1%nat); [lia|assumption|assumption]).
  rewrite AB in K1, K2. cbn [negb] in K2.
  destruct (nth_error grid k) as [u|] eqn:NU; [|apply nth_error_None in NU; lia].
  destruct (nth_error grid (S k)) as [v|] eqn:NV; [|apply nth_error_None in NV; lia].
  exists k, u, v.
  replace (Rltb x a) with false in E by (symmetry; apply Rltb_f; lra).
  replace (Rltb c x) with false in E by (symmetry; apply Rltb_f; lra).
  split; [exact E|]. split; [exact NU|]. split; [exact NV|]. split.
  - destruct K1 as [->|(v' & E1 & E2)]; [rewrite A in NU; injection NU as <-; lra|].
    injection E1 as <-. apply Rleb_t in E2. exact E2.
  - destruct K2 as [K2|(v' & E1 & E2)].
    + rewrite K2, C in NV. injection NV as <-. destruct H2 as [H2|H2]; [left; exact H2|right; split; [exact H2|lia]].
    + injection E1 as <-. apply Rleb_f in E2. left. exact E2.
Qed.
Lemma find_at : forall grid x k u v, ascending grid -> nth_error grid k = Some u -> nth_error grid (S k) = Some v ->
  u <= x -> (x < v \/ (x = v /\ (k + 2 = length grid)%nat)) -> find_nearest grid x = Ok (Z.of_nat k).
Proof.
  intros grid x k u v G U V H1 H2.
  assert (LK : (S k < length grid)%nat) by (apply nth_error_Some; rewrite V; discriminate).
  destruct (ends_of _ grid ltac:(lia)) as (a & c & A & C).
  pose proof (ascending_le grid 0 k a u G ltac:(lia) A U). pose proof (ascending_le grid (S k) (length grid - 1) v c G ltac:(lia) V C).
  destruct (find_inside grid x a c G ltac:(lia) A C ltac:(lra)) as (j & u' & v' & E & U' & V' & J1 & J2).
  rewrite E. f_equal. f_equal.
  assert (S1 : ~ (j < k)%nat).
  { intro Q. pose proof (ascending_le grid (S j) k v' u G ltac:(lia) V' U). destruct J2 as [J2|[J2 J3]]; [lra|lia]. }
  assert (S2 : ~ (k < j)%nat).
  { intro Q. pose proof (ascending_le grid (S k) j v u' G ltac:(lia) V U'). destruct H2 as [H2|[H2 H2']]; [lra|].
    assert ((S j < length grid)%nat) by (apply nth_error_Some; rewrite V'; discriminate). lia. }
  lia.
Qed.
(** The search never fails. *)
Lemma find_total : forall grid x, exists i, find_nearest grid x = Ok i /\ (-1 <= i < Z.of_nat (length grid))%Z.
Proof.
  intros grid x. destruct grid as [|a [|b t]].
  - exists (-1)%Z. split; [reflexivity|cbn; lia].
  - exists 0%Z. split; [reflexivity|cbn; lia].
  - set (g := a :: b :: t). assert (L : (2 <= length g)%nat) by (unfold g; cbn; lia).
    destruct (ends_of _ g ltac:(lia)) as (a' & c & A & C).
    destruct (find_nearest_cases g x a' c L A C) as (b' & k & _ & K & -> & _).
    eexists. split; [reflexivity|]. destruct (Rltb x a'); [lia|]. destruct (Rltb c x); lia.
Qed.
Lemma find_descending : forall grid x a, descending grid -> (2 <= length grid)%nat -> nth_error grid 0 = Some a ->
  find_nearest grid x = Ok (if Rltb x a then (-1)%Z else Z.of_nat (length grid - 1)).
Proof.
  intros grid x a G L A. destruct (ends_of _ grid ltac:(lia)) as (a' & c & A' & C). rewrite A in A'. injection A' as <-.
  destruct (find_nearest_cases grid x a c L A C) as (b & k & _ & _ & -> & _).
  destruct (Rltb x a) eqn:E; [reflexivity|]. apply Rltb_f in E.
  replace (Rltb c x) with true; [reflexivity|]. symmetry. apply Rltb_t.
  pose proof (G 0%nat (length grid - 1)%nat a c ltac:(lia) A C). lra.
Qed.

(** * Interpolation *)
Lemma line_ok : forall r0 r1 rho a b, r1 - r0 <> 0 -> line r0 r1 rho (Some a) (Some b) = Some (through r0 a r1 b rho).
Proof.
  intros r0 r1 rho a b N. unfold line, olift, ediv. destruct (Req_EM_T (r1 - r0) 0) as [E|_]; [contradiction|].
  f_equal. unfold through. field. exact N.
Qed.
Lemma through_l : forall r0 f0 r1 f1, through r0 f0 r1 f1 r0 = f0.
Proof. intros. unfold through. replace (r0 - r0) with 0 by ring. ring. Qed.
Lemma through_r : forall r0 f0 r1 f1, r1 - r0 <> 0 -> through r0 f0 r1 f1 r1 = f1.
Proof. intros. unfold through. field. exact H. Qed.

Lemma Forall2_len : forall (A B : Type) (P : A -> B -> Prop) l m, Forall2 P l m -> length l = length m.
Proof. intros A B P l m H. induction H; [reflexivity|cbn; rewrite IHForall2; reflexivity]. Qed.

Section Eval.
  Variable D : Type.
  Variable ev : D -> R -> R -> outcome (option R).
  Variables (o : radial D) (p xi : R) (vals : list R).
  Hypothesis V : values ev o p xi vals.

  Lemma get_value : forall i v, nth_error vals i = Some v -> obind (dget (rd_ms o) i) (fun d => ev d p xi) = Ok (Some v).
  Proof.
    intros i v N. revert i N. unfold values in V. unfold dget. induction V as [|d w ds ws E F IH]; intros i N; [destruct i; discriminate|].
    destruct i as [|i].
    - cbn in N. injection N as ->. cbn. exact E.
    - cbn in N. cbn [nth_error]. apply IH; [exact F|exact N].
  Qed.
  Lemma dget_ok : forall (A : Type) (l : list A) i v, nth_error l i = Some v -> dget l i = Ok v.
  Proof. intros A l i v H. unfold dget. rewrite H. reflexivity. Qed.

  (** The value in the [i]-th interval. *)
  Lemma at_index : forall i r0 r1 f0 f1 rho, (2 <= length (rd_r o))%nat -> find_nearest (rd_r o) rho = Ok (Z.of_nat i) ->
    (S i < length (rd_r o))%nat ->
    nth_error (rd_r o) i = Some r0 -> nth_error (rd_r o) (S i) = Some r1 -> nth_error vals i = Some f0 -> nth_error vals (S i) = Some f1 ->
    r0 < r1 -> (i = 0%nat -> r0 <> 0) ->
    rd_at ev o rho p xi = Ok (Some (through r0 f0 r1 f1 rho)).
  Proof.
    intros i r0 r1 f0 f1 rho L E LI R0 R1 F0 F1 LT NZ. unfold rd_at. rewrite E. cbn [obind].
    replace (length (rd_r o) =? 1)%nat with false by (symmetry; apply Nat.eqb_neq; lia).
    destruct i as [|i].
    - change (Z.of_nat 0 <=? 0)%Z with true. cbv iota. specialize (NZ eq_refl).
      rewrite (dget_ok _ _ _ _ R0), (dget_ok _ _ _ _ R1). cbn [obind].
      rewrite (get_value _ _ F0), (get_value _ _ F1). cbn [obind]. f_equal.
      unfold olift at 1. unfold ediv at 1. destruct (Req_EM_T (r1 - r0) 0) as [Q|_]; [lra|].
      rewrite line_ok by lra. f_equal. unfold through. field. lra.
    - replace (Z.of_nat (S i) <=? 0)%Z with false by (symmetry; apply Z.leb_gt; lia).
      replace (Z.of_nat (length (rd_r o) - 1) <=? Z.of_nat (S i))%Z with false by (symmetry; apply Z.leb_gt; lia).
      rewrite Nat2Z.id. replace (S i + 1)%nat with (S (S i)) by lia.
      rewrite (dget_ok _ _ _ _ R0), (dget_ok _ _ _ _ R1). cbn [obind].
      rewrite (get_value _ _ F0), (get_value _ _ F1). cbn [obind]. rewrite line_ok by lra. reflexivity.
  Qed.

  Lemma vals_at : forall i, (i < length (rd_r o))%nat -> (length (rd_r o) <= length (rd_ms o))%nat -> exists v, nth_error vals i = Some v.
  Proof.
    intros i L1 L2. unfold values in V. apply Forall2_len in V. destruct (nth_error vals i) as [v|] eqn:E; [exists v; reflexivity|].
    apply nth_error_None in E. lia.
  Qed.

  Lemma at_between : forall i r0 r1 f0 f1 rho, ascending (rd_r o) -> (length (rd_r o) <= length (rd_ms o))%nat ->
    nth_error (rd_r o) i = Some r0 -> nth_error (rd_r o) (S i) = Some r1 -> nth_error vals i = Some f0 -> nth_error vals (S i) = Some f1 ->
    r0 <= rho <= r1 -> (i = 0%nat -> r0 <> 0) ->
    rd_at ev o rho p xi = Ok (Some (through r0 f0 r1 f1 rho)).
  Proof.
    intros i r0 r1 f0 f1 rho G LM R0 R1 F0 F1 [H1 H2] NZ.
    assert (LI : (S i < length (rd_r o))%nat) by (apply nth_error_Some; rewrite R1; discriminate).
    assert (LT : r0 < r1) by (apply (G i (S i)); [lia|assumption|assumption]).
    destruct H2 as [H2|H2].
    - apply (at_index i); try assumption; [lia|]. apply (find_at (rd_r o) rho i r0 r1 G R0 R1 H1). left. exact H2.
    - destruct (Nat.eq_dec (i + 2) (length (rd_r o))) as [Q|Q].
      + apply (at_index i); try assumption; [lia|]. apply (find_at (rd_r o) rho i r0 r1 G R0 R1 H1). right. split; [exact H2|exact Q].
      + destruct (nth_error (rd_r o) (S (S i))) as [r2|] eqn:R2; [|apply nth_error_None in R2; lia].
        destruct (vals_at (S (S i)) ltac:(lia) LM) as [f2 F2].
        assert (LT2 : r1 < r2) by (apply (G (S i) (S (S i))); [lia|assumption|assumption]).
        rewrite (at_index (S i) r1 r2 f1 f2 rho); try assumption; try lia.
        * subst rho. rewrite through_l. rewrite through_r by lra. reflexivity.
        * apply (find_at (rd_r o) rho (S i) r1 r2 G R1 R2); [lra|left; lra].
  Qed.

  Lemma at_below : forall r0 r1 f0 f1 rho, (2 <= length (rd_r o))%nat ->
    nth_error (rd_r o) 0 = Some r0 -> nth_error (rd_r o) 1 = Some r1 -> nth_error vals 0 = Some f0 -> nth_error vals 1 = Some f1 ->
    r0 < r1 -> r0 <> 0 -> rho < r0 ->
    rd_at ev o rho p xi = Ok (Some (through r0 f0 r1 f1 rho)).
  Proof.
    intros r0 r1 f0 f1 rho L R0 R1 F0 F1 LT NZ B. unfold rd_at. rewrite (find_below _ rho r0 L R0 B). cbn [obind].
    replace (length (rd_r o) =? 1)%nat with false by (symmetry; apply Nat.eqb_neq; lia).
    change (-1 <=? 0)%Z with true. cbv iota.
    rewrite (dget_ok _ _ _ _ R0), (dget_ok _ _ _ _ R1). cbn [obind].
    rewrite (get_value _ _ F0), (get_value _ _ F1). cbn [obind]. f_equal.
    unfold olift at 1. unfold ediv at 1. destruct (Req_EM_T (r1 - r0) 0) as [Q|_]; [lra|].
    rewrite line_ok by lra. f_equal. unfold through. field. lra.
  Qed.

  Lemma at_zero : forall r1 f0 f1 rho, ascending (rd_r o) ->
    nth_error (rd_r o) 0 = Some 0 -> nth_error (rd_r o) 1 = Some r1 -> nth_error vals 0 = Some f0 -> nth_error vals 1 = Some f1 ->
    (rho < r1 \/ (rho = r1 /\ length (rd_r o) = 2%nat)) ->
    rd_at ev o rho p xi = Ok None.
  Proof.
    intros r1 f0 f1 rho G R0 R1 F0 F1 B.
    assert (L : (2 <= length (rd_r o))%nat) by (assert (1 < length (rd_r o))%nat by (apply nth_error_Some; rewrite R1; discriminate); lia).
    assert (LT : 0 < r1) by (apply (G 0%nat 1%nat); [lia|assumption|assumption]).
    assert (E : exists i, find_nearest (rd_r o) rho = Ok i /\ (i <= 0)%Z).
    { destruct (Rlt_le_dec rho 0) as [N|N].
      - exists (-1)%Z. split; [apply (find_below _ rho 0 L R0 N)|lia].
      - exists 0%Z. split; [|lia]. apply (find_at (rd_r o) rho 0 0 r1 G R0 R1 N). destruct B as [B|[B1 B2]]; [left; exact B|right; split; [exact B1|lia]]. }
    destruct E as (i & E & LE). unfold rd_at. rewrite E. cbn [obind].
    replace (length (rd_r o) =? 1)%nat with false by (symmetry; apply Nat.eqb_neq; lia).
    replace (i <=? 0)%Z with true by (symmetry; apply Z.leb_le; exact LE).
    rewrite (dget_ok _ _ _ _ R0), (dget_ok _ _ _ _ R1). cbn [obind].
    rewrite (get_value _ _ F0), (get_value _ _ F1). cbn [obind]. f_equal.
    unfold olift. unfold ediv at 1. destruct (Req_EM_T (r1 - 0) 0) as [Q|_]; [lra|].
    unfold line, olift, ediv. destruct (Req_EM_T (0 - 0) 0) as [Q|Q]; [reflexivity|lra].
  Qed.

  Lemma at_above : forall r0 rb f0 fb rho a, (2 <= length (rd_r o))%nat ->
    nth_error (rd_r o) 0 = Some a -> a <= rho ->
    nth_error (rd_r o) (length (rd_r o) - 1) = Some r0 -> nth_error (rd_r o) (length (rd_r o) - 2) = Some rb ->
    nth_error vals (length (rd_r o) - 1) = Some f0 -> nth_error vals (length (rd_r o) - 2) = Some fb ->
    r0 < rho ->
    rd_at ev o rho p xi = Ok (if Req_EM_T (2 * r0 - rb) 0 then None else Some (f0 + (rho - r0) * ((f0 - fb) / (2 * r0 - rb)))).
  Proof.
    intros r0 rb f0 fb rho a L A HA R0 RB F0 FB H. unfold rd_at. rewrite (find_above _ rho a r0 L A R0 HA H). cbn [obind].
    replace (length (rd_r o) =? 1)%nat with false by (symmetry; apply Nat.eqb_neq; lia).
    replace (Z.of_nat (length (rd_r o) - 1) <=? 0)%Z with false by (symmetry; apply Z.leb_gt; lia).
    rewrite Z.leb_refl.
    rewrite (dget_ok _ _ _ _ R0), (dget_ok _ _ _ _ RB). cbn [obind].
    rewrite (get_value _ _ F0), (get_value _ _ FB). cbn [obind]. f_equal.
    unfold line, olift, ediv. destruct (Req_EM_T (r0 + (2 * r0 - rb) - r0) 0) as [Q|Q]; destruct (Req_EM_T (2 * r0 - rb) 0) as [Q'|Q'];
      try lra; try reflexivity. f_equal. field. lra.
  Qed.

  Lemma at_single : forall rr v rho, rd_r o = [rr] -> nth_error vals 0 = Some v ->
    rd_at ev o rho p xi = Ok (if Req_EM_T rho 0 then None else Some v).
  Proof.
    intros rr v rho R0 F0. unfold rd_at. rewrite R0. cbn [find_nearest obind length Nat.eqb].
    rewrite (get_value _ _ F0). cbn [obind]. f_equal. unfold line, olift, ediv.
    destruct (Req_EM_T rho 0) as [Q|Q]; destruct (Req_EM_T (0 - rho) 0) as [Q'|Q']; try lra; try reflexivity.
    f_equal. field. lra.
  Qed.
End Eval.
