(** Properties C41, C42 and C76: colormaps and image files. *)
From Coq Require Import QArith Qround Lqa.
From Verif Require Import Base SettingsProofs SdtModel ImageModel ImageSpec ImageProofs.
Local Open Scope Z_scope.

(** C41.  A map with [n] colours, lower limit [a] and second limit [b > 0] covers the interval
    from [a] to [a + b]: a value a fraction [f] of the way between the positions of the
    colours [k] and [k+1] gets the colour that fraction of the way between them. *)
Theorem C41_between : forall t a b v k f p q, Z.of_nat (length t) < 2 ^ 31 -> (0 < b)%Q ->
  nth_error t k = Some p -> nth_error t (S k) = Some q -> (0 <= f < 1)%Q ->
  (v == a + b * ((inject_Z (Z.of_nat k) + f) / inject_Z (Z.of_nat (length t) - 1)))%Q ->
  exists c, eval (Colormap t a b) (Some v) = Ok c /\ blend f p q c.
Proof.
  intros t a b v k f p q Hm Hb Hp Hq Hf Hv.
  assert (L : (S k < length t)%nat) by (apply nth_error_Some; rewrite Hq; discriminate).
  assert (Hb' : ~ b == 0) by lra. assert (Px := position_node (length t) a b v _ ltac:(lia) Hb' Hv).
  assert (Fx : Qfloor (position (length t) a b v) = Z.of_nat k).
  { apply Qfloor_unique; rewrite Px; [lra|]. rewrite inject_Z_plus. change (inject_Z 1) with 1%Q. lra. }
  assert (Ff : (position (length t) a b v - inject_Z (Z.of_nat k) == f)%Q) by (rewrite Px; ring).
  eexists. split; [exact (eval_between t a b v ltac:(lia) Hm Hb' k p q Fx Hp Hq)|].
  unfold blend. cbn [red green blue]. split; [|split]; apply (mix_compat _ f); exact Ff.
Qed.
Print Assumptions C41_between.

(** Values below the range get the first colour, values at its end and beyond the last one
    (as long as the position in the table fits in an int). *)
Theorem C41_outside : forall t a b v, (1 <= length t)%nat -> Z.of_nat (length t) < 2 ^ 31 -> (0 < b)%Q ->
  (- inject_Z (2 ^ 31) <= (v - a) / b * inject_Z (Z.of_nat (length t) - 1) < inject_Z (2 ^ 31))%Q ->
  ((v < a)%Q -> (2 <= length t)%nat -> exists c, nth_error t 0 = Some c /\ eval (Colormap t a b) (Some v) = Ok c) /\
  ((a + b <= v)%Q -> exists c, nth_error t (length t - 1) = Some c /\ eval (Colormap t a b) (Some v) = Ok c).
Proof.
  intros t a b v Hl Hm Hb R. assert (Hb' : ~ b == 0) by lra. fold (position (length t) a b v) in R.
  set (x := position (length t) a b v) in *.
  assert (R' : - 2 ^ 31 <= Qfloor x < 2 ^ 31).
  { destruct R as [R1 R2]. split.
    - rewrite <- inject_Z_opp in R1. apply Qfloor_resp_le in R1. rewrite Qfloor_Z in R1. exact R1.
    - assert (A := Qfloor_le x). rewrite Zlt_Qlt. lra. }
  split.
  - intros Hv Hn. apply (eval_first t a b v Hl Hm Hb' R').
    assert (N0 : (0 < inject_Z (Z.of_nat (length t) - 1))%Q) by (change 0%Q with (inject_Z 0); rewrite <- Zlt_Qlt; lia).
    assert (X : (x < 0)%Q).
    { unfold x, position. assert (D : ((v - a) / b < 0)%Q) by (apply Qlt_shift_div_r; [exact Hb|lra]).
      revert D N0. generalize ((v - a) / b)%Q (inject_Z (Z.of_nat (length t) - 1)). intros d n D N0. nra. }
    fold x. assert (A := Qfloor_le x). rewrite Zlt_Qlt. change (inject_Z 0) with 0%Q. lra.
  - intro Hv. apply (eval_last t a b v Hl Hm Hb' R').
    assert (P := position_le (length t) a b (a + b) v Hl Hb Hv). rewrite (position_end (length t) a b Hb') in P.
    apply Qfloor_resp_le in P. rewrite Qfloor_Z in P. exact P.
Qed.
Print Assumptions C41_outside.

(** With lower limit zero these are the limits the map was made with. *)
Theorem C41_limits : forall t b v, (2 <= length t)%nat -> Z.of_nat (length t) < 2 ^ 31 -> (0 < b)%Q ->
  (- inject_Z (2 ^ 31) <= v / b * inject_Z (Z.of_nat (length t) - 1) < inject_Z (2 ^ 31))%Q ->
  ((v <= 0)%Q -> exists c, nth_error t 0 = Some c /\ eval (Colormap t 0 b) (Some v) = Ok c) /\
  ((b <= v)%Q -> exists c, nth_error t (length t - 1) = Some c /\ eval (Colormap t 0 b) (Some v) = Ok c).
Proof.
  intros t b v Hn Hm Hb R.
  assert (R0 : (- inject_Z (2 ^ 31) <= (v - 0) / b * inject_Z (Z.of_nat (length t) - 1) < inject_Z (2 ^ 31))%Q).
  { setoid_replace (v - 0)%Q with v by ring. exact R. }
  destruct (C41_outside t 0 b v ltac:(lia) Hm Hb R0) as [A B]. split.
  - intro Hv. destruct (Qlt_le_dec v 0) as [L|G]; [exact (A L Hn)|].
    destruct t as [|p [|q r]] eqn:Et; [cbn in Hn; lia|cbn in Hn; lia|]. rewrite <- Et in *.
    assert (E0 : nth_error t 0 = Some p) by (rewrite Et; reflexivity). assert (E1 : nth_error t 1 = Some q) by (rewrite Et; reflexivity).
    destruct (C41_between t 0 b v 0 0 p q Hm Hb E0 E1) as (c & Ec & (B1 & B2 & B3)); [lra| |].
    { change (inject_Z (Z.of_nat 0)) with 0%Q. unfold Qdiv. setoid_replace (0 + b * ((0 + 0) * / inject_Z (Z.of_nat (length t) - 1)))%Q with 0%Q by ring. lra. }
    exists p. split; [exact E0|]. rewrite Ec. f_equal. destruct c as [cr cg cb], p as [pr pg pb]. cbn [red green blue] in *.
    assert (F : forall x y, Qfloor ((1 - 0) * inject_Z x + 0 * inject_Z y) = x).
    { intros x y. rewrite <- (Qfloor_Z x) at 2. apply Qfloor_comp. ring. }
    rewrite F in B1, B2, B3. subst. reflexivity.
  - intro Hv. apply B. lra.
Qed.
Print Assumptions C41_limits.

(** For another lower limit the upper limit is not mapped to the last colour. *)
Theorem C41_limits_refuted : exists t a b, (2 <= length t)%nat /\ (a < b)%Q /\
  (forall c, nth_error t (length t - 1) = Some c -> eval (Colormap t a b) (Some b) <> Ok c).
Proof.
  exists (cm_colors gray), 1%Q, 2%Q. split; [cbn; lia|]. split; [reflexivity|]. intros c H. cbn in H. injection H as <-.
  vm_compute. discriminate.
Qed.
Print Assumptions C41_limits_refuted.

(** No component leaves the range of the table's components. *)
Theorem C41_range : forall t a b v c lo hi, (1 <= length t)%nat -> Z.of_nat (length t) < 2 ^ 31 ->
  (forall p, In p t -> components_in lo hi p) -> eval (Colormap t a b) v = Ok c -> components_in lo hi c.
Proof. exact eval_components. Qed.
Print Assumptions C41_range.
(** The built-in maps produce colours with components 0..255; brighter means not darker in
    the grey one. *)
Theorem C41_builtin : forall v c, eval gray v = Ok c \/ eval gerimap v = Ok c -> components_in 0 255 c.
Proof.
  intros v c [H|H].
  - apply (eval_components (cm_colors gray) 0 1 v c 0 255); [cbn; lia|cbn; lia| |exact H].
    intros p Hp. cbn in Hp. unfold components_in. repeat (destruct Hp as [<-|Hp]; [cbn; lia|]). destruct Hp.
  - apply (eval_components (cm_colors gerimap) 0 1 v c 0 255); [cbn; lia|cbn; lia| |exact H].
    intros p Hp. cbn in Hp. unfold components_in. repeat (destruct Hp as [<-|Hp]; [cbn; lia|]). destruct Hp.
Qed.
Print Assumptions C41_builtin.
(** The two built-in maps, between their published colours and beyond the ends. *)
Theorem C41_builtin_colors : forall k f v p q, (0 <= f < 1)%Q ->
  (nth_error gerimap_published k = Some p -> nth_error gerimap_published (S k) = Some q ->
   (v == (inject_Z (Z.of_nat k) + f) / 8)%Q -> exists c, eval gerimap (Some v) = Ok c /\ blend f p q c) /\
  ((v == f)%Q -> exists c, eval gray (Some v) = Ok c /\ blend f (Color 0 0 0) (Color 255 255 255) c) /\
  ((- 100000000 <= v <= 0)%Q -> eval gerimap (Some v) = Ok (Color 0 0 0) /\ eval gray (Some v) = Ok (Color 0 0 0)) /\
  ((1 <= v <= 100000000)%Q -> eval gerimap (Some v) = Ok (Color 255 255 255) /\ eval gray (Some v) = Ok (Color 255 255 255)).
Proof.
  intros k f v p q Hf. split; [|split; [|split]].
  - intros Hp Hq Hv. apply (C41_between (cm_colors gerimap) 0 1 v k f p q); [cbn; lia|reflexivity|exact Hp|exact Hq|exact Hf|].
    rewrite Hv. change (inject_Z (Z.of_nat (length (cm_colors gerimap)) - 1)) with (8 # 1)%Q. field.
  - intro Hv. apply (C41_between (cm_colors gray) 0 1 v 0 f); [cbn; lia|reflexivity|reflexivity|reflexivity|exact Hf|].
    rewrite Hv. change (inject_Z (Z.of_nat (length (cm_colors gray)) - 1)) with (1 # 1)%Q. change (inject_Z (Z.of_nat 0)) with 0%Q. field.
  - intro Hv. split.
    + destruct (C41_limits (cm_colors gerimap) 1 v ltac:(cbn; lia) ltac:(cbn; lia) ltac:(reflexivity)) as (L & _).
      { change (inject_Z (Z.of_nat (length (cm_colors gerimap)) - 1)) with (8 # 1)%Q. change (inject_Z (2 ^ 31)) with (2147483648 # 1)%Q.
        setoid_replace (v / 1 * (8 # 1))%Q with (v * (8 # 1))%Q by field. split; lra. }
      destruct (L (proj2 Hv)) as (c & Hc & E). cbn in Hc. injection Hc as <-. exact E.
    + destruct (C41_limits (cm_colors gray) 1 v ltac:(cbn; lia) ltac:(cbn; lia) ltac:(reflexivity)) as (L & _).
      { change (inject_Z (Z.of_nat (length (cm_colors gray)) - 1)) with (1 # 1)%Q. change (inject_Z (2 ^ 31)) with (2147483648 # 1)%Q.
        setoid_replace (v / 1 * (1 # 1))%Q with v by field. split; lra. }
      destruct (L (proj2 Hv)) as (c & Hc & E). cbn in Hc. injection Hc as <-. exact E.
  - intro Hv. split.
    + destruct (C41_limits (cm_colors gerimap) 1 v ltac:(cbn; lia) ltac:(cbn; lia) ltac:(reflexivity)) as (_ & L).
      { change (inject_Z (Z.of_nat (length (cm_colors gerimap)) - 1)) with (8 # 1)%Q. change (inject_Z (2 ^ 31)) with (2147483648 # 1)%Q.
        setoid_replace (v / 1 * (8 # 1))%Q with (v * (8 # 1))%Q by field. split; lra. }
      destruct (L (proj1 Hv)) as (c & Hc & E). cbn in Hc. injection Hc as <-. exact E.
    + destruct (C41_limits (cm_colors gray) 1 v ltac:(cbn; lia) ltac:(cbn; lia) ltac:(reflexivity)) as (_ & L).
      { change (inject_Z (Z.of_nat (length (cm_colors gray)) - 1)) with (1 # 1)%Q. change (inject_Z (2 ^ 31)) with (2147483648 # 1)%Q.
        setoid_replace (v / 1 * (1 # 1))%Q with v by field. split; lra. }
      destruct (L (proj1 Hv)) as (c & Hc & E). cbn in Hc. injection Hc as <-. exact E.
Qed.
Print Assumptions C41_builtin_colors.
Example C41_builtin_colors_example : (0 <= 1 # 2 < 1)%Q /\ nth_error gerimap_published 4 = Some (Color 255 64 38) /\
  nth_error gerimap_published 5 = Some (Color 230 128 0) /\ ((9 # 16) == (inject_Z (Z.of_nat 4) + (1 # 2)) / 8)%Q.
Proof. repeat split; try reflexivity; discriminate. Qed.

Theorem C41_gray_monotone : forall v w c d, (v <= w)%Q -> eval gray (Some v) = Ok c -> eval gray (Some w) = Ok d ->
  red c <= red d /\ red c = green c /\ red c = blue c.
Proof. exact gray_monotone. Qed.
Print Assumptions C41_gray_monotone.
(** Exactly when the behaviour is undefined. *)
Theorem C41_undefined : forall t a b v, (1 <= length t)%nat -> Z.of_nat (length t) < 2 ^ 31 ->
  (eval (Colormap t a b) v = UB <->
   v = None \/ (b == 0)%Q \/ exists x, v = Some x /\
     ~ (- inject_Z (2 ^ 31) <= (x - a) / b * inject_Z (Z.of_nat (length t) - 1) < inject_Z (2 ^ 31))%Q).
Proof.
  intros t a b v Hl Hm. destruct v as [x|]; [|split; [left; reflexivity|reflexivity]].
  destruct (Qeq_dec b 0) as [B0|B0].
  { split; [right; left; exact B0|]. intros _. unfold eval. cbn [cm_max].
    assert (E : Qeq_bool b 0 = true) by (apply Qeq_bool_iff; exact B0). rewrite E. reflexivity. }
  fold (position (length t) a b x).
  assert (EQ : (- inject_Z (2 ^ 31) <= position (length t) a b x < inject_Z (2 ^ 31))%Q <-> - 2 ^ 31 <= Qfloor (position (length t) a b x) < 2 ^ 31).
  { set (y := position (length t) a b x). assert (A := Qfloor_le y). assert (U := Qlt_floor y). split.
    - intros [R1 R2]. split.
      + rewrite <- inject_Z_opp in R1. apply Qfloor_resp_le in R1. rewrite Qfloor_Z in R1. exact R1.
      + rewrite Zlt_Qlt. lra.
    - intros [R1 R2]. rewrite Zle_Qle, inject_Z_opp in R1. assert (R3 : Qfloor y + 1 <= 2 ^ 31) by lia. rewrite Zle_Qle in R3. lra. }
  split.
  - intro H. right. right. exists x. split; [reflexivity|]. intro R. apply EQ in R.
    set (y := position (length t) a b x) in *.
    destruct (Z_le_gt_dec (Z.of_nat (length t) - 1) (Qfloor y)) as [C|C].
    + destruct (eval_last t a b x Hl Hm B0 R C) as (c & _ & E). rewrite E in H. discriminate H.
    + destruct (Z_lt_ge_dec (Qfloor y) 0) as [D|D].
      * destruct (eval_first t a b x Hl Hm B0 R D) as (c & _ & E). rewrite E in H. discriminate H.
      * set (k := Z.to_nat (Qfloor y)). assert (Hk : Qfloor y = Z.of_nat k) by (unfold k; lia).
        destruct (nth_error t k) as [p|] eqn:Ep; [|apply nth_error_None in Ep; lia].
        destruct (nth_error t (S k)) as [q|] eqn:Eq; [|apply nth_error_None in Eq; lia].
        rewrite (eval_between t a b x Hl Hm B0 k p q Hk Ep Eq) in H. discriminate H.
  - intros [E|[E|(y & E & R)]]; [discriminate E|contradiction|]. injection E as <-. apply (eval_ub t a b x Hl Hm B0).
    intro R'. apply R, EQ, R'.
Qed.
Print Assumptions C41_undefined.
Example C41_example : eval gerimap (Some (3/16))%Q = Ok (Color 57 38 159) /\ eval gray (Some 2)%Q = Ok (Color 255 255 255) /\
  eval gray (Some (-1))%Q = Ok (Color 0 0 0) /\ eval gray (Some (1#2)) = Ok (Color 127 127 127).
Proof. vm_compute. repeat split; reflexivity. Qed.

(** C42.  For an image of any size: a reader of PPM files finds an image with as many columns
    as the array has rows and vice versa, and in column [x] of line [y] the colour of the
    array's element [x][y], [col x y].  The index is computed with 32 bits. *)
Theorem C42_ppm_any_size : forall nrows ncols img m col, 0 <= nrows -> 0 <= ncols ->
  (forall x y, 0 <= x < nrows -> 0 <= y < ncols ->
     (exists v, img ((x * ncols + y) mod 2 ^ 32) = Some v /\ eval m v = Ok (col x y)) /\ components_in 0 255 (col x y)) ->
  exists text cs, save_ppm nrows ncols img (Some m) = Ok text /\ read_ppm text = Some (nrows, ncols, 255, cs) /\
    Z.of_nat (length cs) = nrows * ncols /\
    forall x y, 0 <= x < nrows -> 0 <= y < ncols -> at_position nrows cs x y (col x y).
Proof. exact save_ppm_ok. Qed.
Print Assumptions C42_ppm_any_size.
Theorem C42_ppm : forall nrows ncols img m col, 0 <= nrows -> 0 <= ncols -> nrows * ncols <= 2 ^ 32 ->
  (forall x y, 0 <= x < nrows -> 0 <= y < ncols ->
     (exists v, img (x * ncols + y) = Some v /\ eval m v = Ok (col x y)) /\ components_in 0 255 (col x y)) ->
  exists text cs, save_ppm nrows ncols img (Some m) = Ok text /\ read_ppm text = Some (nrows, ncols, 255, cs) /\
    Z.of_nat (length cs) = nrows * ncols /\
    forall x y, 0 <= x < nrows -> 0 <= y < ncols -> at_position nrows cs x y (col x y).
Proof.
  intros nrows ncols img m col Hr Hc Hp H. apply save_ppm_ok; [exact Hr|exact Hc|]. intros x y Hx Hy.
  rewrite Z.mod_small by nia. exact (H x y Hx Hy).
Qed.
Print Assumptions C42_ppm.
(** Beyond 2^32 elements the wrong elements are used: black at an index below 2^32 is shown
    where the array is white. *)
Theorem C42_ppm_refuted : exists nrows ncols img text cs x y,
  0 <= nrows < 2 ^ 32 /\ 0 <= ncols < 2 ^ 32 /\ (forall k, 0 <= k < nrows * ncols -> img k <> None) /\
  save_ppm nrows ncols img (Some gray) = Ok text /\ read_ppm text = Some (nrows, ncols, 255, cs) /\
  0 <= x < nrows /\ 0 <= y < ncols /\ img (x * ncols + y) = Some (Some 1%Q) /\ at_position nrows cs x y (Color 0 0 0).
Proof.
  set (img := fun k : Z => Some (Some (if k <? 2 ^ 32 then 0%Q else 1%Q))).
  destruct (C42_ppm_any_size 65537 65536 img gray (fun _ _ => Color 0 0 0)) as (text & cs & E1 & E2 & _ & E3); [lia|lia| |].
  - intros x y Hx Hy. split; [|unfold components_in; cbn; lia]. exists (Some 0%Q). split; [|vm_compute; reflexivity].
    unfold img. assert (B := Z.mod_pos_bound (x * 65536 + y) (2 ^ 32) ltac:(lia)).
    destruct (Z.ltb_spec ((x * 65536 + y) mod 2 ^ 32) (2 ^ 32)); [reflexivity|lia].
  - exists 65537, 65536, img, text, cs, 65536, 0. split; [lia|]. split; [lia|]. split; [intros k _; unfold img; discriminate|].
    split; [exact E1|]. split; [exact E2|]. split; [lia|]. split; [lia|]. split; [reflexivity|]. apply E3; lia.
Qed.
Print Assumptions C42_ppm_refuted.
(** PNG images: the rows given to libpng, and the exception when nothing can be written. *)
Theorem C42_png : forall nrows ncols img m col, 1 <= nrows <= 1000000 -> 1 <= ncols <= 1000000 -> nrows * ncols < 2 ^ 32 ->
  (forall x y, 0 <= x < nrows -> 0 <= y < ncols ->
     (exists v, img (x * ncols + y) = Some v /\ eval m v = Ok (col x y)) /\ components_in 0 255 (col x y)) ->
  exists rows, save_png true nrows ncols img (Some m) = Ok (nrows, ncols, rows) /\ save_png false nrows ncols img (Some m) = Throw /\
    Z.of_nat (length rows) = ncols /\
    forall y, 0 <= y < ncols -> exists row, nth_error rows (Z.to_nat y) = Some row /\ Z.of_nat (length row) = nrows /\
      forall x, 0 <= x < nrows -> nth_error row (Z.to_nat x) = Some (col x y).
Proof. exact save_png_ok. Qed.
Print Assumptions C42_png.
(** Colours whose components do not fit in eight bits: every component is kept modulo 256. *)
Theorem C42_png_any_color : forall nrows ncols img m col, 1 <= nrows <= 1000000 -> 1 <= ncols <= 1000000 -> nrows * ncols < 2 ^ 32 ->
  (forall x y, 0 <= x < nrows -> 0 <= y < ncols -> exists v, img (x * ncols + y) = Some v /\ eval m v = Ok (col x y)) ->
  exists rows, save_png true nrows ncols img (Some m) = Ok (nrows, ncols, rows) /\ Z.of_nat (length rows) = ncols /\
    forall x y, 0 <= x < nrows -> 0 <= y < ncols -> exists row, nth_error rows (Z.to_nat y) = Some row /\
      Z.of_nat (length row) = nrows /\
      nth_error row (Z.to_nat x) = Some (Color (red (col x y) mod 256) (green (col x y) mod 256) (blue (col x y) mod 256)).
Proof.
  intros nrows ncols img m col Hr Hc Hp H. unfold save_png. rewrite u32_id by nia.
  assert (AC : png_accepts nrows ncols = true).
  { unfold png_accepts, png_limit. rewrite !andb_true_iff, !Z.leb_le. lia. }
  assert (SH : forall x y, 0 <= x < nrows -> 0 <= y < ncols -> shade (Some m) img (x * ncols + y) = Ok (col x y)).
  { intros x y Hx Hy. destruct (H x y Hx Hy) as (v & Hv & He). rewrite (shade_some m img _ v Hv). exact He. }
  destruct (png_lines_ok m img nrows ncols col (Z.to_nat ncols) 0 (Bitmap (nrows * ncols) (fun _ => None))) as (b & E & HS & C & _);
    [lia|lia|intros x y Hx Hy; apply SH; lia|cbn [bm_size]; nia|].
  cbn [bm_size] in HS. change (0 * nrows) with 0 in E.
  set (g := fun x y => Color (red (col x y) mod 256) (green (col x y) mod 256) (blue (col x y) mod 256)).
  exists (lines nrows ncols g). rewrite E. cbn [obind]. rewrite AC.
  rewrite (png_rows_ok b nrows g).
  - cbn [obind]. split; [reflexivity|]. split; [unfold lines; rewrite map_length, zseq_length; lia|].
    intros x y Hx Hy. exists (map (fun x => g x y) (zseq (Z.to_nat nrows) 0)). split; [apply lines_nth; exact Hy|].
    split; [rewrite map_length, zseq_length; lia|]. exact (line_nth nrows (fun x => g x y) x Hx).
  - lia.
  - lia.
  - intros x k Hx Hk. rewrite HS. split; [nia|]. rewrite C by lia. reflexivity.
Qed.
Print Assumptions C42_png_any_color.
Example C42_png_any_color_example :
  save_png true 1 1 (fun _ => Some (Some 1%Q)) (Some (Colormap [Color 0 0 0; Color 300 256 511] 0 1)) = Ok (1, 1, [[Color 44 0 255]]).
Proof. vm_compute. reflexivity. Qed.
(** Images without pixels, and images with more than a million rows or columns, are refused. *)
Theorem C42_png_refused : forall ok nrows ncols img m col, 0 <= nrows -> 0 <= ncols -> nrows * ncols < 2 ^ 32 ->
  (forall x y, 0 <= x < nrows -> 0 <= y < ncols -> exists v, img (x * ncols + y) = Some v /\ eval m v = Ok (col x y)) ->
  nrows = 0 \/ ncols = 0 \/ 1000000 < nrows \/ 1000000 < ncols ->
  save_png ok nrows ncols img (Some m) = Throw.
Proof. exact save_png_refused. Qed.
Print Assumptions C42_png_refused.
Example C42_png_refused_example : save_png true 0 3 (fun _ => None) (Some gray) = Throw /\ save_ppm 0 3 (fun _ => None) (Some gray) <> Throw.
Proof. split; [vm_compute; reflexivity|vm_compute; discriminate]. Qed.
(** A pixel that is not there, or whose value is not finite, makes writing an image undefined. *)
Lemma color_at_nt : forall t i, color_at t i <> Throw.
Proof. intros t i. unfold color_at. destruct (i <? 0); [discriminate|]. destruct (nth_error t (Z.to_nat i)); discriminate. Qed.

Lemma eval_nt : forall m v, eval m v <> Throw.
Proof.
  intros m [v|]; unfold eval; [|discriminate]. destruct (Qeq_bool (cm_max m) 0); [discriminate|].
  cbv zeta. unfold double_to_int. match goal with |- context [if ?b then Ok ?l else UB] => destruct b end; cbn [obind]; [|discriminate].
  match goal with |- context [if ?b then _ else _] => destruct b end; [apply color_at_nt|].
  match goal with |- context [if ?b then _ else _] => destruct b end; [apply color_at_nt|].
  match goal with |- context [obind (color_at ?t ?i) _] => pose proof (color_at_nt t i) as N1; destruct (color_at t i) end; cbn [obind]; try congruence; try discriminate.
  match goal with |- context [obind (color_at ?t ?i) _] => pose proof (color_at_nt t i) as N2; destruct (color_at t i) end; cbn [obind]; try congruence; discriminate.
Qed.

Lemma shade_nt : forall cm img k, shade cm img k <> Throw.
Proof.
  intros [m|] img k; unfold shade; [|discriminate]. unfold pixel_at. destruct (img k); cbn [obind]; [apply eval_nt|discriminate].
Qed.

Lemma shade_bad : forall cm img k, img k = None \/ img k = Some None -> shade cm img k = UB.
Proof. intros [m|] img k H; unfold shade, pixel_at; [|reflexivity]. destruct H as [-> | ->]; reflexivity. Qed.

Lemma ppm_line_nt : forall cm img ncols i n j, ppm_line cm img ncols i n j <> Throw.
Proof.
  intros cm img ncols i n. induction n as [|n IH]; intro j; cbn [ppm_line]; [discriminate|].
  destruct (shade cm img (u32 (u32 (j * ncols) + i))) eqn:E; cbn [obind]; [|exfalso; exact (shade_nt _ _ _ E)|discriminate].
  destruct (ppm_line cm img ncols i n (j + 1)) eqn:E2; cbn [obind]; [discriminate|exfalso; exact (IH _ E2)|discriminate].
Qed.

Lemma ppm_line_bad : forall cm img ncols i x n j, j <= x < j + Z.of_nat n -> shade cm img (u32 (u32 (x * ncols) + i)) = UB ->
  ppm_line cm img ncols i n j = UB.
Proof.
  intros cm img ncols i x n. induction n as [|n IH]; intros j Hx B; [lia|]. cbn [ppm_line].
  destruct (Z.eq_dec x j) as [->|N]; [rewrite B; reflexivity|].
  destruct (shade cm img (u32 (u32 (j * ncols) + i))) eqn:E; cbn [obind]; [|exfalso; exact (shade_nt _ _ _ E)|reflexivity].
  rewrite (IH (j + 1)); [reflexivity|lia|exact B].
Qed.

Lemma ppm_lines_bad : forall cm img nrows ncols x y n i, i <= y < i + Z.of_nat n -> 0 <= x < nrows ->
  shade cm img (u32 (u32 (x * ncols) + y)) = UB -> ppm_lines cm img nrows ncols n i = UB.
Proof.
  intros cm img nrows ncols x y n. induction n as [|n IH]; intros i Hy Hx B; [lia|]. cbn [ppm_lines].
  destruct (Z.eq_dec y i) as [->|N].
  - rewrite (ppm_line_bad cm img ncols i x); [reflexivity|lia|exact B].
  - destruct (ppm_line cm img ncols i (Z.to_nat nrows) 0) eqn:E; cbn [obind]; [|exfalso; exact (ppm_line_nt _ _ _ _ _ _ E)|reflexivity].
    rewrite (IH (i + 1)); [reflexivity|lia|exact Hx|exact B].
Qed.

Lemma bm_write_nt : forall b k c, bm_write b k c <> Throw.
Proof. intros b k c. unfold bm_write. destruct ((0 <=? k) && (k <? bm_size b))%bool; discriminate. Qed.

Lemma png_line_nt : forall cm img ncols i n j index b, png_line cm img ncols i n j index b <> Throw.
Proof.
  intros cm img ncols i n. induction n as [|n IH]; intros j index b; cbn [png_line]; [discriminate|].
  destruct (shade cm img (j * ncols + i)) as [c| |] eqn:E; cbn [obind]; [|exfalso; exact (shade_nt _ _ _ E)|discriminate].
  destruct (bm_write b index (byte_color c)) eqn:E2; cbn [obind]; [apply IH|exfalso; exact (bm_write_nt _ _ _ E2)|discriminate].
Qed.

Lemma png_line_bad : forall cm img ncols i x n j index b, j <= x < j + Z.of_nat n -> shade cm img (x * ncols + i) = UB ->
  png_line cm img ncols i n j index b = UB.
Proof.
  intros cm img ncols i x n. induction n as [|n IH]; intros j index b Hx B; [lia|]. cbn [png_line].
  destruct (Z.eq_dec x j) as [->|N]; [rewrite B; reflexivity|].
  destruct (shade cm img (j * ncols + i)) as [c| |] eqn:E; cbn [obind]; [|exfalso; exact (shade_nt _ _ _ E)|reflexivity].
  destruct (bm_write b index (byte_color c)) eqn:E2; cbn [obind]; [|exfalso; exact (bm_write_nt _ _ _ E2)|reflexivity].
  apply IH; [lia|exact B].
Qed.

Lemma png_lines_bad : forall cm img nrows ncols x y n i index b, i <= y < i + Z.of_nat n -> 0 <= x < nrows ->
  shade cm img (x * ncols + y) = UB -> png_lines cm img nrows ncols n i index b = UB.
Proof.
  intros cm img nrows ncols x y n. induction n as [|n IH]; intros i index b Hy Hx B; [lia|]. cbn [png_lines].
  destruct (Z.eq_dec y i) as [->|N].
  - rewrite (png_line_bad cm img ncols i x); [reflexivity|lia|exact B].
  - destruct (png_line cm img ncols i (Z.to_nat nrows) 0 index b) eqn:E; cbn [obind]; [|exfalso; exact (png_line_nt _ _ _ _ _ _ _ _ E)|reflexivity].
    apply IH; [lia|exact Hx|exact B].
Qed.

(** An image with a pixel beyond the end of the array, or with a value that is NaN or infinite,
    cannot be written in either format. *)
Theorem C42_bad_pixel : forall ok nrows ncols img cm x y, 0 <= x < nrows -> 0 <= y < ncols ->
  (nrows * ncols < 2 ^ 32 -> img (x * ncols + y) = None \/ img (x * ncols + y) = Some None -> save_ppm nrows ncols img cm = UB) /\
  (img (x * ncols + y) = None \/ img (x * ncols + y) = Some None -> save_png ok nrows ncols img cm = UB).
Proof.
  intros ok nrows ncols img cm x y Hx Hy. split.
  - intros L B. unfold save_ppm. rewrite (ppm_lines_bad cm img nrows ncols x y); [reflexivity|lia|exact Hx|].
    apply shade_bad. assert (0 <= x * ncols) by nia. assert (x * ncols + y < nrows * ncols) by nia.
    replace (u32 (u32 (x * ncols) + y)) with (x * ncols + y); [exact B|]. unfold u32. rewrite (Z.mod_small (x * ncols)) by lia.
    now rewrite Z.mod_small by lia.
  - intros B. unfold save_png. rewrite (png_lines_bad cm img nrows ncols x y); [reflexivity|lia|exact Hx|].
    apply shade_bad. exact B.
Qed.
Print Assumptions C42_bad_pixel.
Example C42_bad_pixel_example : save_ppm 2 2 (fun k => if k <? 3 then Some (Some 0%Q) else None) (Some gray) = UB /\
  save_png true 2 2 (fun k => if k =? 2 then Some None else Some (Some 0%Q)) (Some gray) = UB.
Proof. split; vm_compute; reflexivity. Qed.
(** From 2^32 pixels on the pixel array is too small and is written beyond its end. *)
Theorem C42_png_refuted : forall ok nrows ncols img m col, 0 < nrows < 2 ^ 32 -> 0 < ncols < 2 ^ 32 -> 2 ^ 32 <= nrows * ncols ->
  (forall x y, 0 <= x < nrows -> 0 <= y < ncols -> exists v, img (x * ncols + y) = Some v /\ eval m v = Ok (col x y)) ->
  save_png ok nrows ncols img (Some m) = UB.
Proof. exact save_png_ub. Qed.
Print Assumptions C42_png_refuted.
Example C42_example :
  let img := fun k => nth_error [Some 0; Some (1#2); Some 1; Some 0; Some 0; Some 1]%Q (Z.to_nat k) in
  save_ppm 2 3 img (Some gray) =
    Ok (str_of "P3" ++ cNL :: str_of "2 3" ++ cNL :: str_of "255" ++ cNL :: str_of "0 0 0 0 0 0 " ++ cNL ::
        str_of "127 127 127 0 0 0 " ++ cNL :: str_of "255 255 255 255 255 255 " ++ [cNL]) /\
  save_png true 2 3 img (Some gray) =
    Ok (2, 3, [[Color 0 0 0; Color 0 0 0]; [Color 127 127 127; Color 0 0 0]; [Color 255 255 255; Color 255 255 255]]).
Proof. vm_compute. split; reflexivity. Qed.

(** C76.  ImageGenerator::gen: the requested format and colormap are used; an unknown format
    or colormap, and PNG in a build without libpng, give an exception. *)
Theorem C76_dispatch : forall has_png ok nrows ncols img cm type c,
  gen_map has_png ok 1 nrows ncols img cm = obind (save_ppm nrows ncols img cm) (fun t => Ok (PpmText t)) /\
  gen_map true ok 0 nrows ncols img cm =
    obind (save_png ok nrows ncols img cm) (fun r => Ok (PngImage (fst (fst r)) (snd (fst r)) (snd r))) /\
  gen_map false ok 0 nrows ncols img cm = Throw /\
  (type <> 0 -> type <> 1 -> gen_map has_png ok type nrows ncols img cm = Throw /\ gen_type has_png ok type nrows ncols img c = Throw) /\
  gen_type has_png ok type nrows ncols img 0 = gen_map has_png ok type nrows ncols img (Some gerimap) /\
  gen_type has_png ok type nrows ncols img 1 = gen_map has_png ok type nrows ncols img (Some gray) /\
  (c <> 0 -> c <> 1 -> gen_type has_png ok type nrows ncols img c = Throw).
Proof.
  intros has_png ok nrows ncols img cm type c. unfold gen_type, gen_map, gen_with, select_colormap, IMAGE_TYPE_PNG, IMAGE_TYPE_PPM, COLORMAP_GERIMAP, COLORMAP_GRAY.
  split; [reflexivity|]. split; [reflexivity|]. split; [reflexivity|]. split.
  { intros H0 H1. destruct (Z.eqb_spec type 0); [contradiction|]. destruct (Z.eqb_spec type 1); [contradiction|]. split; reflexivity. }
  split; [reflexivity|]. split; [reflexivity|].
  intros H0 H1. destruct (Z.eqb_spec c 0); [contradiction|]. destruct (Z.eqb_spec c 1); [contradiction|]. cbn [obind].
  destruct (_ && _)%bool; [reflexivity|]. destruct (type =? 1); reflexivity.
Qed.
Print Assumptions C76_dispatch.
(** Without a colormap (the default argument of [gen]) every non-empty image is undefined
    behaviour. *)
Theorem C76_no_colormap_refuted : forall ok img nrows ncols type, 0 < nrows -> 0 < ncols -> type = 0 \/ type = 1 ->
  gen_map true ok type nrows ncols img None = UB.
Proof.
  intros ok img nrows ncols type Hr Hc T. unfold gen_map, gen_with, save_png, save_ppm.
  destruct (Z.to_nat ncols) as [|n] eqn:En; [lia|]. destruct (Z.to_nat nrows) as [|k] eqn:Ek; [lia|].
  destruct T as [-> | ->]; cbn [Z.eqb andb IMAGE_TYPE_PNG IMAGE_TYPE_PPM obind png_lines ppm_lines]; rewrite Ek; reflexivity.
Qed.
Print Assumptions C76_no_colormap_refuted.
Example C76_example : gen_type false true 1 1 1 (fun _ => Some (Some 1%Q)) 1 =
  Ok (PpmText (str_of "P3" ++ cNL :: str_of "1 1" ++ cNL :: str_of "255" ++ cNL :: str_of "255 255 255 " ++ [cNL])).
Proof. vm_compute. reflexivity. Qed.
