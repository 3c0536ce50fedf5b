(** Proofs about colormaps and image files. *)
From Coq Require Import QArith Qround Lqa.
From Verif Require Import Base SettingsModel SettingsProofs SdtModel NumText ImageModel ImageSpec.
Local Open Scope Z_scope.

Lemma u32_id : forall z, 0 <= z < 2 ^ 32 -> u32 z = z.
Proof. intros z H. unfold u32. apply Z.mod_small. exact H. Qed.

(** * Colormaps *)
Definition position (n : nat) (a b v : Q) : Q := (v - a) / b * inject_Z (Z.of_nat n - 1).
Lemma Qeq_bool_false : forall x, ~ x == 0 -> Qeq_bool x 0 = false.
Proof. intros x H. destruct (Qeq_bool x 0) eqn:E; [|reflexivity]. apply Qeq_bool_iff in E. contradiction. Qed.

Lemma color_at_nth : forall t i c, nth_error t i = Some c -> color_at t (Z.of_nat i) = Ok c.
Proof. intros t i c H. unfold color_at. destruct (Z.ltb_spec (Z.of_nat i) 0); [lia|]. rewrite Nat2Z.id, H. reflexivity. Qed.

Section Eval.
Variables (t : list color) (a b v : Q).
Hypothesis Hlen : (1 <= length t)%nat.
Hypothesis Hmax : Z.of_nat (length t) < 2 ^ 31.
Hypothesis Hb : ~ b == 0.
Let x := position (length t) a b v.

Lemma eval_unfold : eval (Colormap t a b) (Some v) =
  obind (double_to_int (Qfloor x)) (fun l =>
   if Z.of_nat (length t) - 1 <=? l then color_at t (Z.of_nat (length t) - 1)
   else if l <? 0 then color_at t 0
   else obind (color_at t l) (fun p => obind (color_at t (l + 1)) (fun q =>
        Ok (Color (mix (x - inject_Z l) (red p) (red q)) (mix (x - inject_Z l) (green p) (green q)) (mix (x - inject_Z l) (blue p) (blue q)))))).
Proof.
  unfold eval. cbn [cm_max cm_colors cm_min]. rewrite (Qeq_bool_false b Hb).
  rewrite (u32_id (Z.of_nat (length t))) by lia. rewrite (u32_id (Z.of_nat (length t) - 1)) by lia.
  unfold to_int. destruct (Z.ltb_spec (Z.of_nat (length t)) (2 ^ 31)); [|lia]. reflexivity.
Qed.

Lemma eval_ub : ~ (- 2 ^ 31 <= Qfloor x < 2 ^ 31) -> eval (Colormap t a b) (Some v) = UB.
Proof.
  intro H. rewrite eval_unfold. unfold double_to_int.
  destruct (Z.leb_spec (- 2 ^ 31) (Qfloor x)); destruct (Z.ltb_spec (Qfloor x) (2 ^ 31)); cbn [andb obind]; try reflexivity. lia.
Qed.

Lemma fits : - 2 ^ 31 <= Qfloor x < 2 ^ 31 -> double_to_int (Qfloor x) = Ok (Qfloor x).
Proof.
  intro H. unfold double_to_int. destruct (Z.leb_spec (- 2 ^ 31) (Qfloor x)); [|lia].
  destruct (Z.ltb_spec (Qfloor x) (2 ^ 31)); [|lia]. reflexivity.
Qed.

Lemma eval_last : - 2 ^ 31 <= Qfloor x < 2 ^ 31 -> Z.of_nat (length t) - 1 <= Qfloor x ->
  exists c, nth_error t (length t - 1) = Some c /\ eval (Colormap t a b) (Some v) = Ok c.
Proof.
  intros H1 H2. rewrite eval_unfold, (fits H1). cbn [obind]. destruct (Z.leb_spec (Z.of_nat (length t) - 1) (Qfloor x)); [|lia].
  destruct (nth_error t (length t - 1)) as [c|] eqn:E.
  - exists c. split; [reflexivity|]. replace (Z.of_nat (length t) - 1) with (Z.of_nat (length t - 1)) by lia.
    apply color_at_nth. exact E.
  - apply nth_error_None in E. lia.
Qed.

Lemma eval_first : - 2 ^ 31 <= Qfloor x < 2 ^ 31 -> Qfloor x < 0 ->
  exists c, nth_error t 0 = Some c /\ eval (Colormap t a b) (Some v) = Ok c.
Proof.
  intros H1 H2. rewrite eval_unfold, (fits H1). cbn [obind]. destruct (Z.leb_spec (Z.of_nat (length t) - 1) (Qfloor x)); [lia|].
  destruct (Z.ltb_spec (Qfloor x) 0); [|lia]. destruct (nth_error t 0) as [c|] eqn:E.
  - exists c. split; [reflexivity|]. apply (color_at_nth t 0 c E).
  - apply nth_error_None in E. lia.
Qed.

Lemma eval_between : forall k p q, Qfloor x = Z.of_nat k -> nth_error t k = Some p -> nth_error t (S k) = Some q ->
  eval (Colormap t a b) (Some v) =
  Ok (Color (mix (x - inject_Z (Z.of_nat k)) (red p) (red q)) (mix (x - inject_Z (Z.of_nat k)) (green p) (green q))
            (mix (x - inject_Z (Z.of_nat k)) (blue p) (blue q))).
Proof.
  intros k p q Hk Hp Hq. assert (L : (S k < length t)%nat) by (apply nth_error_Some; rewrite Hq; discriminate).
  rewrite eval_unfold, fits by lia. cbn [obind]. rewrite Hk.
  destruct (Z.leb_spec (Z.of_nat (length t) - 1) (Z.of_nat k)); [lia|]. destruct (Z.ltb_spec (Z.of_nat k) 0); [lia|].
  rewrite (color_at_nth t k p Hp). cbn [obind]. replace (Z.of_nat k + 1) with (Z.of_nat (S k)) by lia.
  rewrite (color_at_nth t (S k) q Hq). reflexivity.
Qed.
End Eval.

Lemma Qfloor_unique : forall q z, (inject_Z z <= q)%Q -> (q < inject_Z (z + 1))%Q -> Qfloor q = z.
Proof.
  intros q z H1 H2. assert (A := Qfloor_le q). assert (B := Qlt_floor q).
  assert (C : (inject_Z z < inject_Z (Qfloor q + 1))%Q) by lra. assert (D : (inject_Z (Qfloor q) < inject_Z (z + 1))%Q) by lra.
  rewrite <- Zlt_Qlt in C, D. lia.
Qed.
Lemma mix_compat : forall f g a b, (f == g)%Q -> mix f a b = mix g a b.
Proof. intros f g a b H. unfold mix. apply Qfloor_comp. rewrite H. reflexivity. Qed.
Lemma mix_in : forall f a b lo hi, (0 <= f <= 1)%Q -> lo <= a <= hi -> lo <= b <= hi -> lo <= mix f a b <= hi.
Proof.
  intros f a b lo hi [F0 F1] [A0 A1] [B0 B1]. unfold mix.
  rewrite Zle_Qle in A0, A1, B0, B1.
  assert (L : (inject_Z lo <= (1 - f) * inject_Z a + f * inject_Z b)%Q) by nra.
  assert (U : ((1 - f) * inject_Z a + f * inject_Z b <= inject_Z hi)%Q) by nra.
  apply Qfloor_resp_le in L. apply Qfloor_resp_le in U. rewrite Qfloor_Z in L, U. lia.
Qed.

(** Every result is an entry of the table, or between two neighbouring ones. *)
Lemma eval_cases : forall t a b v c, (1 <= length t)%nat -> Z.of_nat (length t) < 2 ^ 31 ->
  eval (Colormap t a b) v = Ok c ->
  In c t \/ exists k p q f, nth_error t k = Some p /\ nth_error t (S k) = Some q /\ (0 <= f < 1)%Q /\
    c = Color (mix f (red p) (red q)) (mix f (green p) (green q)) (mix f (blue p) (blue q)).
Proof.
  intros t a b [v|] c Hl Hm H; [|discriminate H].
  destruct (Qeq_dec b 0) as [Z0|Hb].
  { exfalso. unfold eval in H. cbn [cm_max] in H. assert (E : Qeq_bool b 0 = true) by (apply Qeq_bool_iff; exact Z0).
    rewrite E in H. discriminate H. }
  set (x := position (length t) a b v) in *.
  destruct (Z_le_gt_dec (- 2 ^ 31) (Qfloor x)) as [R1|R1]; [|rewrite (eval_ub t a b v Hl Hm Hb) in H; [discriminate H|fold x; lia]].
  destruct (Z_lt_ge_dec (Qfloor x) (2 ^ 31)) as [R2|R2]; [|rewrite (eval_ub t a b v Hl Hm Hb) in H; [discriminate H|fold x; lia]].
  destruct (Z_le_gt_dec (Z.of_nat (length t) - 1) (Qfloor x)) as [C|C].
  - destruct (eval_last t a b v Hl Hm Hb (conj R1 R2) C) as (d & E1 & E2). rewrite E2 in H. injection H as <-. left.
    apply nth_error_In in E1. exact E1.
  - destruct (Z_lt_ge_dec (Qfloor x) 0) as [D|D].
    + destruct (eval_first t a b v Hl Hm Hb (conj R1 R2) D) as (d & E1 & E2). rewrite E2 in H. injection H as <-. left.
      apply nth_error_In in E1. exact E1.
    + right. set (k := Z.to_nat (Qfloor x)). assert (Hk : Qfloor x = Z.of_nat k) by (unfold k; lia).
      destruct (nth_error t k) as [p|] eqn:Ep; [|apply nth_error_None in Ep; lia].
      destruct (nth_error t (S k)) as [q|] eqn:Eq; [|apply nth_error_None in Eq; lia].
      rewrite (eval_between t a b v Hl Hm Hb k p q Hk Ep Eq) in H. injection H as <-.
      exists k, p, q, (x - inject_Z (Z.of_nat k))%Q. split; [exact Ep|]. split; [exact Eq|]. split; [|reflexivity].
      assert (L := Qfloor_le x). assert (U := Qlt_floor x). rewrite Hk in L, U. rewrite inject_Z_plus in U. change (inject_Z 1) with 1%Q in U. lra.
Qed.

Lemma eval_components : forall t a b v c lo hi, (1 <= length t)%nat -> Z.of_nat (length t) < 2 ^ 31 ->
  (forall p, In p t -> components_in lo hi p) -> eval (Colormap t a b) v = Ok c -> components_in lo hi c.
Proof.
  intros t a b v c lo hi Hl Hm Ht H.
  destruct (eval_cases t a b v c Hl Hm H) as [I|(k & p & q & f & Ep & Eq & [F0 F1] & ->)]; [exact (Ht c I)|].
  apply nth_error_In in Ep. apply nth_error_In in Eq. destruct (Ht p Ep) as (P1 & P2 & P3). destruct (Ht q Eq) as (Q1 & Q2 & Q3).
  assert (F : (0 <= f <= 1)%Q) by lra. unfold components_in. cbn [red green blue].
  split; [apply mix_in; assumption|]. split; apply mix_in; assumption.
Qed.

(** The position in the table for a positive scale [b]. *)
Lemma position_le : forall n a b v w, (1 <= n)%nat -> (0 < b)%Q -> (v <= w)%Q -> (position n a b v <= position n a b w)%Q.
Proof.
  intros n a b v w Hn Hb H. unfold position. assert (N0 : (0 <= inject_Z (Z.of_nat n - 1))%Q).
  { change 0%Q with (inject_Z 0). rewrite <- Zle_Qle. lia. }
  apply Qmult_le_compat_r; [|exact N0]. unfold Qdiv. apply Qmult_le_compat_r; [lra|]. apply Qinv_le_0_compat. lra.
Qed.
Lemma position_start : forall n a b, (position n a b a == 0)%Q.
Proof. intros n a b. unfold position. setoid_replace (a - a)%Q with 0%Q by ring. unfold Qdiv. ring. Qed.
Lemma position_end : forall n a b, ~ b == 0 -> (position n a b (a + b) == inject_Z (Z.of_nat n - 1))%Q.
Proof. intros n a b Hb. unfold position. setoid_replace (a + b - a)%Q with b by ring. field. exact Hb. Qed.
Lemma position_node : forall n a b v y, (2 <= n)%nat -> ~ b == 0 ->
  (v == a + b * (y / inject_Z (Z.of_nat n - 1)))%Q -> (position n a b v == y)%Q.
Proof.
  intros n a b v y Hn Hb H. unfold position. rewrite H. field. split; [|exact Hb].
  change 0%Q with (inject_Z 0). rewrite inject_Z_injective. lia.
Qed.
Lemma gray_monotone : forall v w c d, (v <= w)%Q -> eval gray (Some v) = Ok c -> eval gray (Some w) = Ok d ->
  red c <= red d /\ red c = green c /\ red c = blue c.
Proof.
  intros v w c d Hvw Hc Hd. unfold gray in *. set (t := [Color 0 0 0; Color 255 255 255]) in *.
  assert (Hl : (1 <= length t)%nat) by (cbn; lia). assert (Hm : Z.of_nat (length t) < 2 ^ 31) by (cbn; lia).
  assert (Hb : ~ 1 == 0) by (intro E; discriminate E).
  assert (V : forall u e, eval (Colormap t 0 1) (Some u) = Ok e ->
     (position (length t) 0 1 u < 0 /\ e = Color 0 0 0)%Q \/ (1 <= position (length t) 0 1 u /\ e = Color 255 255 255)%Q \/
     (0 <= position (length t) 0 1 u < 1 /\ e = let m := mix (position (length t) 0 1 u - 0) 0 255 in Color m m m)%Q).
  { intros u e H. set (x := position (length t) 0 1 u) in *.
    assert (L := Qfloor_le x). assert (U := Qlt_floor x).
    destruct (Z_le_gt_dec (- 2 ^ 31) (Qfloor x)) as [R1|R1]; [|rewrite (eval_ub t 0 1 u Hl Hm Hb) in H; [discriminate H|fold x; lia]].
    destruct (Z_lt_ge_dec (Qfloor x) (2 ^ 31)) as [R2|R2]; [|rewrite (eval_ub t 0 1 u Hl Hm Hb) in H; [discriminate H|fold x; lia]].
    destruct (Z_le_gt_dec 1 (Qfloor x)) as [C|C].
    - destruct (eval_last t 0 1 u Hl Hm Hb (conj R1 R2) C) as (g & E1 & E2). rewrite E2 in H. injection H as <-. right. left.
      rewrite Zle_Qle in C. change (inject_Z 1) with 1%Q in C. split; [lra|]. cbn in E1. injection E1 as <-. reflexivity.
    - destruct (Z_lt_ge_dec (Qfloor x) 0) as [D|D].
      + destruct (eval_first t 0 1 u Hl Hm Hb (conj R1 R2) D) as (g & E1 & E2). rewrite E2 in H. injection H as <-. left.
        assert (D' : Qfloor x + 1 <= 0) by lia. rewrite Zle_Qle in D'. change (inject_Z 0) with 0%Q in D'. split; [lra|]. cbn in E1. injection E1 as <-. reflexivity.
      + right. right. assert (Z0 : Qfloor x = Z.of_nat 0) by lia. rewrite Z0 in L, U. change (inject_Z (Z.of_nat 0)) with 0%Q in L. change (inject_Z (Z.of_nat 0 + 1)) with 1%Q in U.
        split; [lra|]. rewrite (eval_between t 0 1 u Hl Hm Hb 0 _ _ Z0 eq_refl eq_refl) in H. injection H as <-. reflexivity. }
  assert (P := position_le (length t) 0 1 v w Hl ltac:(lra) Hvw).
  assert (M : forall f, (0 <= f < 1)%Q -> 0 <= mix f 0 255 <= 255). { intros f F. apply mix_in; [lra|lia|lia]. }
  destruct (V v c Hc) as [[A1 ->]|[[A1 ->]|[A1 ->]]]; destruct (V w d Hd) as [[B1 ->]|[[B1 ->]|[B1 ->]]]; cbn [red green blue];
    (split; [|split; reflexivity]); try lia; try lra.
  - assert (MM := M (position (length t) 0 1 w - 0)%Q ltac:(lra)). cbv zeta. cbn [red]. lia.
  - assert (MM := M (position (length t) 0 1 v - 0)%Q ltac:(lra)). cbv zeta. cbn [red]. lia.
  - cbv zeta. cbn [red]. unfold mix. apply Qfloor_resp_le. change (inject_Z 0) with 0%Q. change (inject_Z 255) with 255%Q. nra.
Qed.

(** * Text of a PPM file *)
Lemma blank_white : forall c, blank c = true <-> white c.
Proof.
  intro c. unfold blank, white. rewrite Bool.orb_true_iff, Bool.andb_true_iff, Nat.eqb_eq, !Nat.leb_le. reflexivity.
Qed.
Lemma digit_not_blank : forall c, digit c -> blank c = false.
Proof.
  intros c H. destruct (blank c) eqn:E; [|reflexivity]. apply blank_white in E. unfold digit in H. unfold white in E. lia.
Qed.
Lemma tokens_word : forall w cur s r, (forall c, In c w -> blank c = false) -> blank s = true -> (cur <> [] \/ w <> []) ->
  tokens cur (w ++ s :: r) = (rev cur ++ w) :: tokens [] r.
Proof.
  induction w as [|c w IH]; intros cur s r Hw Hs Hne.
  - cbn [app tokens]. rewrite Hs. destruct cur as [|x cur]; [destruct Hne as [E|E]; contradiction|]. rewrite app_nil_r. reflexivity.
  - cbn [app tokens]. rewrite (Hw c (or_introl eq_refl)). rewrite IH; [|intros d Hd; apply Hw; right; exact Hd|exact Hs|left; discriminate].
    cbn [rev]. rewrite <- app_assoc. reflexivity.
Qed.
Lemma show_int_pos : forall z, 0 <= z -> show_int z = show_nat z.
Proof. intros z H. unfold show_int. destruct (Z.ltb_spec z 0); [lia|reflexivity]. Qed.
Lemma tokens_int : forall z s r, 0 <= z -> blank s = true -> tokens [] (show_int z ++ s :: r) = show_int z :: tokens [] r.
Proof.
  intros z s r Hz Hs. rewrite show_int_pos by exact Hz. destruct (show_nat_spec z Hz) as (D & _ & Ne & _ & _).
  apply (tokens_word (show_nat z) [] s r); [intros c Hc; apply digit_not_blank, D, Hc|exact Hs|right; exact Ne].
Qed.
Lemma number_int : forall z, 0 <= z -> number (show_int z) = Some z.
Proof.
  intros z Hz. rewrite show_int_pos by exact Hz. destruct (show_nat_spec z Hz) as (D & V & Ne & _ & _).
  unfold number. destruct (show_nat z) as [|c r] eqn:E; [contradiction|].
  assert (F : forallb is_digit (c :: r) = true).
  { apply forallb_forall. intros d Hd. specialize (D d Hd). unfold digit in D. unfold is_digit.
    apply Bool.andb_true_iff. rewrite !Nat.leb_le. exact D. }
  rewrite F, V. reflexivity.
Qed.

Definition nonneg (c : color) : Prop := 0 <= red c /\ 0 <= green c /\ 0 <= blue c.
Lemma blank_sp : blank cSP = true. Proof. reflexivity. Qed.
Lemma blank_nl : blank cNL = true. Proof. reflexivity. Qed.
Lemma tokens_nl : forall r, tokens [] (cNL :: r) = tokens [] r.
Proof. intro r. cbn [tokens]. rewrite blank_nl. reflexivity. Qed.

Definition color_words (c : color) : list str := [show_int (red c); show_int (green c); show_int (blue c)].
Lemma tokens_color : forall c r, nonneg c -> tokens [] (show_color c ++ r) = color_words c ++ tokens [] r.
Proof.
  intros c r (H1 & H2 & H3). unfold show_color, color_words. rewrite <- !app_assoc. cbn [app].
  rewrite tokens_int by (assumption || reflexivity). rewrite tokens_int by (assumption || reflexivity).
  rewrite tokens_int by (assumption || reflexivity). reflexivity.
Qed.
Lemma tokens_colors : forall l r, (forall c, In c l -> nonneg c) ->
  tokens [] (flat_map show_color l ++ r) = flat_map color_words l ++ tokens [] r.
Proof.
  induction l as [|c l IH]; intros r H; [reflexivity|]. cbn [flat_map]. rewrite <- !app_assoc.
  rewrite tokens_color by (apply H; left; reflexivity). rewrite IH by (intros d Hd; apply H; right; exact Hd). reflexivity.
Qed.
Lemma tokens_lines : forall ls, (forall l c, In l ls -> In c l -> nonneg c) ->
  tokens [] (flat_map (fun l => flat_map show_color l ++ [cNL]) ls) = flat_map color_words (concat ls).
Proof.
  induction ls as [|l ls IH]; intro H; [reflexivity|]. cbn [flat_map concat]. rewrite <- app_assoc.
  rewrite tokens_colors by (intros c Hc; apply (H l c); [left; reflexivity|exact Hc]).
  cbn [app]. rewrite tokens_nl, IH by (intros l' c Hl Hc; apply (H l' c); [right; exact Hl|exact Hc]).
  rewrite flat_map_app. reflexivity.
Qed.
Definition color_numbers (c : color) : list Z := [red c; green c; blue c].
Lemma numbers_colors : forall l, (forall c, In c l -> nonneg c) -> numbers (flat_map color_words l) = Some (flat_map color_numbers l).
Proof.
  induction l as [|c l IH]; intro H; [reflexivity|]. destruct (H c (or_introl eq_refl)) as (H1 & H2 & H3).
  cbn [flat_map color_words color_numbers app numbers]. rewrite !number_int by assumption.
  rewrite IH by (intros d Hd; apply H; right; exact Hd). reflexivity.
Qed.
Lemma triples_colors : forall l, triples (flat_map color_numbers l) = Some l.
Proof. induction l as [|c l IH]; [reflexivity|]. cbn [flat_map color_numbers app triples]. rewrite IH. destruct c; reflexivity. Qed.

(** Reading a file that consists of the header and lines of colours. *)
Lemma read_ppm_lines : forall w h ls, 0 <= w -> 0 <= h -> Z.of_nat (length (concat ls)) = w * h ->
  (forall l c, In l ls -> In c l -> components_in 0 255 c) ->
  read_ppm (ppm_header w h ++ flat_map (fun l => flat_map show_color l ++ [cNL]) ls) = Some (w, h, 255, concat ls).
Proof.
  intros w h ls Hw Hh Hlen Hc.
  assert (NN : forall l c, In l ls -> In c l -> nonneg c).
  { intros l c Hl Hcl. destruct (Hc l c Hl Hcl) as (A & B & C). unfold nonneg. lia. }
  unfold read_ppm, ppm_header. rewrite <- !app_assoc.
  change (str_of "P3" ++ [cNL] ++ ?x) with (str_of "P3" ++ cNL :: x).
  rewrite (tokens_word (str_of "P3") [] cNL); [|intros c Hin|reflexivity|right; discriminate].
  2:{ cbn in Hin. destruct Hin as [<-|[<-|[]]]; reflexivity. }
  change (rev [] ++ str_of "P3") with (str_of "P3"). rewrite str_eqb_refl.
  cbn [app]. rewrite tokens_int by (assumption || reflexivity). rewrite tokens_int by (assumption || reflexivity).
  change (str_of "255" ++ cNL :: ?x) with (show_int 255 ++ cNL :: x).
  rewrite tokens_int by (lia || reflexivity).
  rewrite (tokens_lines ls NN).
  cbn [numbers]. rewrite !number_int by (assumption || lia).
  assert (NC : forall c, In c (concat ls) -> nonneg c).
  { intros c Hin. apply in_concat in Hin. destruct Hin as (l & Hl & Hcl). exact (NN l c Hl Hcl). }
  rewrite (numbers_colors (concat ls) NC), triples_colors. rewrite Hlen, Z.eqb_refl.
  assert (V : forallb (valid_color 255) (concat ls) = true).
  { apply forallb_forall. intros c Hin. apply in_concat in Hin. destruct Hin as (l & Hl & Hcl).
    destruct (Hc l c Hl Hcl) as (A & B & C). unfold valid_color. rewrite !Bool.andb_true_iff, !Z.leb_le. lia. }
  rewrite V. reflexivity.
Qed.

(** The colours that are written. *)
Fixpoint zseq (n : nat) (j : Z) : list Z := match n with O => [] | S n' => j :: zseq n' (j + 1) end.
Lemma zseq_length : forall n j, length (zseq n j) = n.
Proof. induction n as [|n IH]; intro j; [reflexivity|]. cbn [zseq length]. rewrite IH. reflexivity. Qed.
Lemma zseq_in : forall n j x, In x (zseq n j) -> j <= x < j + Z.of_nat n.
Proof. induction n as [|n IH]; intros j x H; [destruct H|]. destruct H as [<-|H]; [lia|]. apply IH in H. lia. Qed.
Lemma zseq_nth : forall n j k, (k < n)%nat -> nth_error (zseq n j) k = Some (j + Z.of_nat k).
Proof.
  induction n as [|n IH]; intros j k H; [lia|]. destruct k as [|k]; cbn [zseq nth_error].
  - f_equal. lia.
  - rewrite IH by lia. f_equal. lia.
Qed.
Lemma shade_some : forall m img k v, img k = Some v -> shade (Some m) img k = eval m v.
Proof. intros m img k v H. cbn [shade]. unfold pixel_at. rewrite H. reflexivity. Qed.

Lemma ppm_line_eq : forall m img ncols i col n j,
  (forall x, j <= x < j + Z.of_nat n -> shade (Some m) img (u32 (u32 (x * ncols) + i)) = Ok (col x)) ->
  ppm_line (Some m) img ncols i n j = Ok (flat_map show_color (map col (zseq n j))).
Proof.
  intros m img ncols i col. induction n as [|n IH]; intros j H; [reflexivity|].
  cbn [ppm_line]. rewrite (H j) by lia. cbn [obind]. rewrite IH by (intros x Hx; apply H; lia). reflexivity.
Qed.
Lemma ppm_lines_eq : forall m img nrows ncols col n i, 0 <= nrows ->
  (forall x y, 0 <= x < nrows -> i <= y < i + Z.of_nat n -> shade (Some m) img (u32 (u32 (x * ncols) + y)) = Ok (col x y)) ->
  ppm_lines (Some m) img nrows ncols n i =
  Ok (flat_map (fun l => flat_map show_color l ++ [cNL]) (map (fun y => map (fun x => col x y) (zseq (Z.to_nat nrows) 0)) (zseq n i))).
Proof.
  intros m img nrows ncols col. induction n as [|n IH]; intros i Hr H; [reflexivity|].
  cbn [ppm_lines]. rewrite (ppm_line_eq m img ncols i (fun x => col x i)) by (intros x Hx; apply H; lia). cbn [obind].
  rewrite IH by (exact Hr || (intros x y Hx Hy; apply H; lia)). cbn [obind zseq map flat_map]. rewrite <- app_assoc. reflexivity.
Qed.
Lemma concat_length_const : forall {A} (ls : list (list A)) k, (forall l, In l ls -> length l = k) -> length (concat ls) = (length ls * k)%nat.
Proof.
  intros A ls k H. induction ls as [|l ls IH]; [reflexivity|]. cbn [concat length]. rewrite app_length, IH.
  - rewrite (H l (or_introl eq_refl)). reflexivity.
  - intros l' Hl. apply H. right. exact Hl.
Qed.
Lemma concat_nth : forall {A} (ls : list (list A)) k y x l, (forall l, In l ls -> length l = k) ->
  nth_error ls y = Some l -> (x < k)%nat -> nth_error (concat ls) (y * k + x) = nth_error l x.
Proof.
  intros A. induction ls as [|l0 ls IH]; intros k y x l H Hy Hx; [destruct y; discriminate Hy|].
  assert (L0 := H l0 (or_introl eq_refl)). destruct y as [|y]; cbn [concat].
  - cbn in Hy. injection Hy as <-. cbn [Nat.mul Nat.add]. apply nth_error_app1. lia.
  - rewrite nth_error_app2 by (cbn; lia). rewrite L0. replace (S y * k + x - k)%nat with (y * k + x)%nat by (cbn; lia).
    apply IH; [intros l' Hl; apply H; right; exact Hl|exact Hy|exact Hx].
Qed.
Definition lines (nrows ncols : Z) (col : Z -> Z -> color) : list (list color) :=
  map (fun y => map (fun x => col x y) (zseq (Z.to_nat nrows) 0)) (zseq (Z.to_nat ncols) 0).
Lemma lines_len : forall nrows ncols col l, In l (lines nrows ncols col) -> length l = Z.to_nat nrows.
Proof.
  intros nrows ncols col l H. unfold lines in H. apply in_map_iff in H. destruct H as (y & <- & _). rewrite map_length, zseq_length. reflexivity.
Qed.
Lemma lines_nth : forall nrows ncols col y, 0 <= y < ncols ->
  nth_error (lines nrows ncols col) (Z.to_nat y) = Some (map (fun x => col x y) (zseq (Z.to_nat nrows) 0)).
Proof.
  intros nrows ncols col y H. unfold lines.
  assert (E : nth_error (zseq (Z.to_nat ncols) 0) (Z.to_nat y) = Some y) by (rewrite zseq_nth by lia; f_equal; lia).
  rewrite (map_nth_error _ _ _ E). reflexivity.
Qed.
Lemma line_nth : forall nrows (f : Z -> color) x, 0 <= x < nrows ->
  nth_error (map f (zseq (Z.to_nat nrows) 0)) (Z.to_nat x) = Some (f x).
Proof.
  intros nrows f x H. assert (E : nth_error (zseq (Z.to_nat nrows) 0) (Z.to_nat x) = Some x) by (rewrite zseq_nth by lia; f_equal; lia).
  exact (map_nth_error f _ _ E).
Qed.

Lemma save_ppm_ok : forall nrows ncols img m col, 0 <= nrows -> 0 <= ncols ->
  (forall x y, 0 <= x < nrows -> 0 <= y < ncols ->
     (exists v, img ((x * ncols + y) mod 2 ^ 32) = Some v /\ eval m v = Ok (col x y)) /\ components_in 0 255 (col x y)) ->
  exists text cs, save_ppm nrows ncols img (Some m) = Ok text /\ read_ppm text = Some (nrows, ncols, 255, cs) /\
    Z.of_nat (length cs) = nrows * ncols /\
    forall x y, 0 <= x < nrows -> 0 <= y < ncols -> at_position nrows cs x y (col x y).
Proof.
  intros nrows ncols img m col Hr Hc H.
  assert (LL : Z.of_nat (length (concat (lines nrows ncols col))) = nrows * ncols).
  { rewrite (concat_length_const _ (Z.to_nat nrows)) by (intros l Hl; exact (lines_len nrows ncols col l Hl)).
    unfold lines. rewrite map_length, zseq_length. nia. }
  exists (ppm_header nrows ncols ++ flat_map (fun l => flat_map show_color l ++ [cNL]) (lines nrows ncols col)), (concat (lines nrows ncols col)).
  split; [|split; [|split; [exact LL|]]].
  - unfold save_ppm. rewrite (ppm_lines_eq m img nrows ncols col); [reflexivity|exact Hr|].
    intros x y Hx Hy. destruct (H x y Hx ltac:(lia)) as ((v & Hv & He) & _).
    assert (E : u32 (u32 (x * ncols) + y) = (x * ncols + y) mod 2 ^ 32).
    { unfold u32. rewrite Zplus_mod_idemp_l. reflexivity. }
    rewrite E, (shade_some m img _ v Hv). exact He.
  - apply read_ppm_lines; [exact Hr|exact Hc|exact LL|].
    intros l c Hl Hcl. unfold lines in Hl. apply in_map_iff in Hl. destruct Hl as (y & <- & Hy). apply in_map_iff in Hcl.
    destruct Hcl as (x & <- & Hx). apply zseq_in in Hy. apply zseq_in in Hx. apply (H x y); lia.
  - intros x y Hx Hy. unfold at_position.
    replace (Z.to_nat (y * nrows + x)) with (Z.to_nat y * Z.to_nat nrows + Z.to_nat x)%nat by nia.
    rewrite (concat_nth _ (Z.to_nat nrows) _ _ _ (lines_len nrows ncols col) (lines_nth nrows ncols col y Hy)) by lia.
    exact (line_nth nrows (fun x => col x y) x Hx).
Qed.

(** * Rows of a PNG image *)
Lemma bm_write_read : forall b k c b', bm_write b k c = Ok b' ->
  bm_size b' = bm_size b /\ 0 <= k < bm_size b /\ (forall x, bm_cell b' x = if x =? k then Some c else bm_cell b x).
Proof.
  intros b k c b' H. unfold bm_write in H. destruct (Z.leb_spec 0 k); destruct (Z.ltb_spec k (bm_size b)); cbn [andb] in H; try discriminate H.
  injection H as <-. cbn [bm_size bm_cell]. repeat split; lia || reflexivity.
Qed.
Lemma png_line_ok : forall m img ncols i col n j index b,
  (forall x, j <= x < j + Z.of_nat n -> shade (Some m) img (x * ncols + i) = Ok (col x)) ->
  0 <= index -> index + Z.of_nat n <= bm_size b ->
  exists b', png_line (Some m) img ncols i n j index b = Ok b' /\ bm_size b' = bm_size b /\
    forall k, bm_cell b' k = if ((index <=? k) && (k <? index + Z.of_nat n))%bool then Some (byte_color (col (j + (k - index)))) else bm_cell b k.
Proof.
  intros m img ncols i col. induction n as [|n IH]; intros j index b H Hi Hs.
  - exists b. split; [reflexivity|]. split; [reflexivity|]. intro k.
    destruct (Z.leb_spec index k); destruct (Z.ltb_spec k (index + Z.of_nat 0)); cbn [andb]; try reflexivity. lia.
  - cbn [png_line]. rewrite (H j) by lia. cbn [obind].
    destruct (bm_write b index (byte_color (col j))) as [b1| |] eqn:E.
    + destruct (bm_write_read _ _ _ _ E) as (S1 & _ & C1). cbn [obind].
      destruct (IH (j + 1) (index + 1) b1) as (b' & E' & S' & C'); [intros x Hx; apply H; lia|lia|lia|].
      exists b'. split; [exact E'|]. split; [lia|]. intro k. rewrite C', C1.
      destruct (Z.leb_spec (index + 1) k); destruct (Z.ltb_spec k (index + 1 + Z.of_nat n)); destruct (Z.leb_spec index k);
        destruct (Z.ltb_spec k (index + Z.of_nat (S n))); destruct (Z.eqb_spec k index); cbn [andb]; try lia; try reflexivity;
        try (do 3 f_equal; lia).
    + unfold bm_write in E. destruct (Z.leb_spec 0 index); [|lia]. destruct (Z.ltb_spec index (bm_size b)); [|lia]. discriminate E.
    + unfold bm_write in E. destruct (Z.leb_spec 0 index); [|lia]. destruct (Z.ltb_spec index (bm_size b)); [|lia]. discriminate E.
Qed.
(** Once the index passes the end of the array the behaviour is undefined. *)
Lemma png_line_ub : forall m img ncols i col n j index b,
  (forall x, j <= x < j + Z.of_nat n -> shade (Some m) img (x * ncols + i) = Ok (col x)) ->
  0 <= index -> bm_size b < index + Z.of_nat n -> (0 < n)%nat -> png_line (Some m) img ncols i n j index b = UB.
Proof.
  intros m img ncols i col. induction n as [|n IH]; intros j index b H Hi Hs Hn; [lia|].
  cbn [png_line]. rewrite (H j) by lia. cbn [obind].
  destruct (bm_write b index (byte_color (col j))) as [b1| |] eqn:E.
  - destruct (bm_write_read _ _ _ _ E) as (S1 & S2 & C1). cbn [obind]. apply IH; [intros x Hx; apply H; lia|lia|lia|lia].
  - unfold bm_write in E. destruct (_ && _)%bool in E; discriminate E.
  - reflexivity.
Qed.
Lemma png_lines_ok : forall m img nrows ncols col n i b, 0 <= nrows -> 0 <= i ->
  (forall x y, 0 <= x < nrows -> i <= y < i + Z.of_nat n -> shade (Some m) img (x * ncols + y) = Ok (col x y)) ->
  (i + Z.of_nat n) * nrows <= bm_size b ->
  exists b', png_lines (Some m) img nrows ncols n i (i * nrows) b = Ok b' /\ bm_size b' = bm_size b /\
    (forall x y, 0 <= x < nrows -> i <= y < i + Z.of_nat n -> bm_cell b' (y * nrows + x) = Some (byte_color (col x y))) /\
    (forall k, k < i * nrows -> bm_cell b' k = bm_cell b k).
Proof.
  intros m img nrows ncols col. induction n as [|n IH]; intros i b Hr Hi H Hs.
  - exists b. split; [reflexivity|]. split; [reflexivity|]. split; [intros; lia|reflexivity].
  - cbn [png_lines].
    destruct (png_line_ok m img ncols i (fun x => col x i) (Z.to_nat nrows) 0 (i * nrows) b) as (b1 & E1 & S1 & C1);
      [intros x Hx; apply H; lia|nia|nia|].
    rewrite E1. cbn [obind]. replace (i * nrows + nrows) with ((i + 1) * nrows) by ring.
    destruct (IH (i + 1) b1) as (b' & E' & S' & C' & K'); [exact Hr|lia|intros x y Hx Hy; apply H; lia|nia|].
    exists b'. split; [exact E'|]. split; [lia|]. split.
    + intros x y Hx Hy. destruct (Z.eq_dec y i) as [->|Ne]; [|apply C'; lia].
      rewrite K' by nia. rewrite C1.
      destruct (Z.leb_spec (i * nrows) (i * nrows + x)); [|lia]. destruct (Z.ltb_spec (i * nrows + x) (i * nrows + Z.of_nat (Z.to_nat nrows))); [|lia].
      cbn [andb]. replace (0 + (i * nrows + x - i * nrows)) with x by ring. reflexivity.
    + intros k Hk. rewrite K' by nia. rewrite C1. destruct (Z.leb_spec (i * nrows) k); [lia|]. reflexivity.
Qed.
Lemma png_lines_ub : forall m img nrows ncols col n i b, 0 < nrows -> 0 <= i ->
  (forall x y, 0 <= x < nrows -> i <= y < i + Z.of_nat n -> shade (Some m) img (x * ncols + y) = Ok (col x y)) ->
  bm_size b < (i + Z.of_nat n) * nrows -> (0 < n)%nat ->
  png_lines (Some m) img nrows ncols n i (i * nrows) b = UB.
Proof.
  intros m img nrows ncols col. induction n as [|n IH]; intros i b Hr Hi H Hs Hn; [lia|].
  cbn [png_lines].
  destruct (Z_lt_le_dec (bm_size b) (i * nrows + nrows)) as [L|L].
  - rewrite (png_line_ub m img ncols i (fun x => col x i)); [reflexivity|intros x Hx; apply H; lia|nia|lia|lia].
  - destruct (png_line_ok m img ncols i (fun x => col x i) (Z.to_nat nrows) 0 (i * nrows) b) as (b1 & E1 & S1 & C1);
      [intros x Hx; apply H; lia|nia|lia|].
    rewrite E1. cbn [obind]. replace (i * nrows + nrows) with ((i + 1) * nrows) by ring.
    apply IH; [exact Hr|lia|intros x y Hx Hy; apply H; lia|nia|nia].
Qed.
Lemma png_row_ok : forall b width y (g : Z -> color) n x, 0 <= x ->
  (forall k, x <= k < x + Z.of_nat n -> 0 <= y * width + k < bm_size b /\ bm_cell b (y * width + k) = Some (g k)) ->
  png_row b width y n x = Ok (map g (zseq n x)).
Proof.
  intros b width y g. induction n as [|n IH]; intros x Hx H; [reflexivity|]. cbn [png_row].
  destruct (H x ltac:(lia)) as (R & C). unfold bm_read.
  destruct (Z.leb_spec 0 (y * width + x)); [|lia]. destruct (Z.ltb_spec (y * width + x) (bm_size b)); [|lia]. cbn [andb].
  rewrite C. cbn [obind]. rewrite IH by (lia || (intros k Hk; apply H; lia)). reflexivity.
Qed.
Lemma png_rows_ok : forall b width (g : Z -> Z -> color) n y, 0 <= width -> 0 <= y ->
  (forall x k, 0 <= x < width -> y <= k < y + Z.of_nat n -> 0 <= k * width + x < bm_size b /\ bm_cell b (k * width + x) = Some (g x k)) ->
  png_rows b width n y = Ok (map (fun k => map (fun x => g x k) (zseq (Z.to_nat width) 0)) (zseq n y)).
Proof.
  intros b width g. induction n as [|n IH]; intros y Hw Hy H; [reflexivity|]. cbn [png_rows].
  rewrite (png_row_ok b width y (fun x => g x y)) by (lia || (intros k Hk; apply H; lia)). cbn [obind].
  rewrite IH by (lia || (intros x k Hx Hk; apply H; lia)). reflexivity.
Qed.
Lemma byte_color_id : forall c, components_in 0 255 c -> byte_color c = c.
Proof. intros [r g b] (H1 & H2 & H3). cbn [red green blue] in *. unfold byte_color. cbn [red green blue]. rewrite !Z.mod_small by lia. reflexivity. Qed.

Lemma save_png_ok : forall nrows ncols img m col, 1 <= nrows <= 1000000 -> 1 <= ncols <= 1000000 -> nrows * ncols < 2 ^ 32 ->
  (forall x y, 0 <= x < nrows -> 0 <= y < ncols ->
     (exists v, img (x * ncols + y) = Some v /\ eval m v = Ok (col x y)) /\ components_in 0 255 (col x y)) ->
  exists rows, save_png true nrows ncols img (Some m) = Ok (nrows, ncols, rows) /\ save_png false nrows ncols img (Some m) = Throw /\
    Z.of_nat (length rows) = ncols /\
    forall y, 0 <= y < ncols -> exists row, nth_error rows (Z.to_nat y) = Some row /\ Z.of_nat (length row) = nrows /\
      forall x, 0 <= x < nrows -> nth_error row (Z.to_nat x) = Some (col x y).
Proof.
  intros nrows ncols img m col Hr Hc Hp H. unfold save_png. rewrite u32_id by nia.
  assert (AC : png_accepts nrows ncols = true).
  { unfold png_accepts, png_limit. rewrite !andb_true_iff, !Z.leb_le. lia. }
  assert (SH : forall x y, 0 <= x < nrows -> 0 <= y < ncols -> shade (Some m) img (x * ncols + y) = Ok (col x y)).
  { intros x y Hx Hy. destruct (H x y Hx Hy) as ((v & Hv & He) & _). rewrite (shade_some m img _ v Hv). exact He. }
  destruct (png_lines_ok m img nrows ncols col (Z.to_nat ncols) 0 (Bitmap (nrows * ncols) (fun _ => None))) as (b & E & S & C & _);
    [lia|lia|intros x y Hx Hy; apply SH; lia|cbn [bm_size]; nia|].
  cbn [bm_size] in S. change (0 * nrows) with 0 in E.
  exists (lines nrows ncols col). rewrite E. cbn [obind]. rewrite AC.
  rewrite (png_rows_ok b nrows col).
  - cbn [obind]. split; [reflexivity|]. split; [reflexivity|]. split; [unfold lines; rewrite map_length, zseq_length; lia|].
    intros y Hy. exists (map (fun x => col x y) (zseq (Z.to_nat nrows) 0)). split; [apply lines_nth; exact Hy|].
    split; [rewrite map_length, zseq_length; lia|]. intros x Hx. exact (line_nth nrows (fun x => col x y) x Hx).
  - lia.
  - lia.
  - intros x k Hx Hk. rewrite S. split; [nia|]. rewrite C by lia. rewrite byte_color_id; [reflexivity|]. apply (H x k); lia.
Qed.
Lemma save_png_refused : forall ok nrows ncols img m col, 0 <= nrows -> 0 <= ncols -> nrows * ncols < 2 ^ 32 ->
  (forall x y, 0 <= x < nrows -> 0 <= y < ncols -> exists v, img (x * ncols + y) = Some v /\ eval m v = Ok (col x y)) ->
  nrows = 0 \/ ncols = 0 \/ 1000000 < nrows \/ 1000000 < ncols ->
  save_png ok nrows ncols img (Some m) = Throw.
Proof.
  intros ok nrows ncols img m col Hr Hc Hp H W. unfold save_png. rewrite u32_id by nia.
  assert (AC : png_accepts nrows ncols = false).
  { apply not_true_iff_false. unfold png_accepts, png_limit. rewrite !andb_true_iff, !Z.leb_le. lia. }
  destruct (png_lines_ok m img nrows ncols col (Z.to_nat ncols) 0 (Bitmap (nrows * ncols) (fun _ => None))) as (b & E & _);
    [exact Hr|lia| |cbn [bm_size]; nia|].
  - intros x y Hx Hy. destruct (H x y Hx ltac:(lia)) as (v & Hv & He). rewrite (shade_some m img _ v Hv). exact He.
  - change (0 * nrows) with 0 in E. rewrite E. cbn [obind]. rewrite AC. destruct ok; reflexivity.
Qed.
Lemma save_png_ub : forall ok nrows ncols img m col, 0 < nrows < 2 ^ 32 -> 0 < ncols < 2 ^ 32 -> 2 ^ 32 <= nrows * ncols ->
  (forall x y, 0 <= x < nrows -> 0 <= y < ncols -> exists v, img (x * ncols + y) = Some v /\ eval m v = Ok (col x y)) ->
  save_png ok nrows ncols img (Some m) = UB.
Proof.
  intros ok nrows ncols img m col Hr Hc Hp H. unfold save_png.
  assert (E := png_lines_ub m img nrows ncols col (Z.to_nat ncols) 0 (Bitmap (u32 (nrows * ncols)) (fun _ => None)) (proj1 Hr)).
  change (0 * nrows) with 0 in E. rewrite E; [reflexivity|lia| | |lia].
  - intros x y Hx Hy. destruct (H x y Hx ltac:(lia)) as (v & Hv & He). rewrite (shade_some m img _ v Hv). exact He.
  - cbn [bm_size]. unfold u32. assert (B := Z.mod_pos_bound (nrows * ncols) (2 ^ 32)). nia.
Qed.
