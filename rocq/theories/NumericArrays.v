(** Proofs about the arrays of numeric fields: files, clones, LUKE equilibria. *)
From Coq Require Import Reals Lra Lia.
From Verif Require Import Base DomainModel DomainSpec DomainProofs AnalyticalModel AnalyticalSpec NumericModel NumericSpec.
Local Open Scope nat_scope.

Lemma fill_from_ok : forall A n k (g : nat -> outcome A) h, (forall i, k <= i < k + n -> g i = Ok (h i)) -> fill_from k n g = Ok (map h (seq k n)).
Proof.
  intros A. induction n as [|n IH]; intros k g h H; [reflexivity|]. cbn [fill_from seq map]. rewrite (H k) by lia. cbn [obind].
  rewrite (IH (S k) g h) by (intros i Hi; apply H; lia). reflexivity.
Qed.
Lemma fill_ok : forall A n (g : nat -> outcome A) h, (forall i, i < n -> g i = Ok (h i)) -> fill n g = Ok (map h (seq 0 n)).
Proof. intros A n g h H. apply fill_from_ok. intros i Hi. apply H. lia. Qed.
Lemma fill_from_ub : forall A n k (g : nat -> outcome A) j, k <= j < k + n -> g j = UB -> (forall i, g i <> Throw) -> fill_from k n g = UB.
Proof.
  intros A. induction n as [|n IH]; intros k g j Hj H NT; [lia|]. cbn [fill_from]. destruct (g k) as [v| |] eqn:E; [|exfalso; exact (NT k E)|reflexivity].
  cbn [obind]. destruct (Nat.eq_dec k j) as [->|N]; [congruence|]. rewrite (IH (S k) g j) by (try assumption; lia). reflexivity.
Qed.
(** From the elements: the list itself. *)
Lemma fill_list : forall A n (g : nat -> outcome A) l, length l = n -> (forall i v, nth_error l i = Some v -> g i = Ok v) -> fill n g = Ok l.
Proof.
  assert (G : forall A n k (g : nat -> outcome A) l, length l = n -> (forall i v, nth_error l i = Some v -> g (k + i) = Ok v) -> fill_from k n g = Ok l).
  { intros A. induction n as [|n IH]; intros k g [|v l] L H; try discriminate L; [reflexivity|]. cbn [fill_from]. assert (E := H 0 v eq_refl). rewrite Nat.add_0_r in E. rewrite E. cbn [obind].
    rewrite (IH (S k) g l); [reflexivity|injection L as L; exact L|]. intros i w Hi. replace (S k + i) with (k + S i) by lia. apply H. exact Hi. }
  intros A n g l L H. apply G; [exact L|]. intros i v Hi. rewrite Nat.add_0_l. apply H. exact Hi.
Qed.
Lemma nth_map_seq : forall A (h : nat -> A) n k, k < n -> nth_error (map h (seq 0 n)) k = Some (h k).
Proof. intros A h n k H. rewrite nth_error_map, nth_error_nth' with (d := 0) by (rewrite seq_length; exact H). rewrite seq_nth by exact H. reflexivity. Qed.
Lemma nth_error_ext : forall A (l l' : list A), (forall i, nth_error l i = nth_error l' i) -> l = l'.
Proof.
  intros A. induction l as [|x l IH]; intros [|y l'] H; [reflexivity|discriminate (H 0)|discriminate (H 0)|].
  assert (E := H 0). injection E as <-. f_equal. apply IH. intro i. exact (H (S i)).
Qed.
Lemma index_div : forall r i j, i < r -> (j * r + i) / r = j.
Proof. intros r i j H. rewrite Nat.div_add_l by lia. rewrite Nat.div_small by exact H. lia. Qed.
Lemma index_mod : forall r i j, i < r -> (j * r + i) mod r = i.
Proof. intros r i j H. rewrite Nat.add_comm, Nat.mod_add by lia. apply Nat.mod_small. exact H. Qed.
Lemma index_bound : forall r c i j, i < r -> j < c -> j * r + i < r * c.
Proof. intros. nia. Qed.
Lemma index_split : forall r c k, k < r * c -> k mod r < r /\ k / r < c /\ k = k / r * r + k mod r.
Proof.
  intros r c k H. assert (N : r <> 0) by (intro; subst; lia). split; [apply Nat.mod_upper_bound; exact N|]. split; [apply Nat.div_lt_upper_bound; assumption|].
  assert (E := Nat.div_mod k r N). lia.
Qed.

Lemma aget_ok : forall A (a : marray A) rows cols g j i, stored a rows cols g -> j < rows -> i < cols -> aget a j i = Ok (g j i).
Proof.
  intros A a rows cols g j i (R & C & L & E) Hj Hi. unfold aget. rewrite R, C. destruct (Nat.ltb_spec j rows); [|lia]. rewrite (E j i Hj Hi). reflexivity.
Qed.
Lemma stored_unique : forall A (a b : marray A) rows cols g, stored a rows cols g -> stored b rows cols g -> a = b.
Proof.
  intros A [ra ca da] [rb cb db] rows cols g (R & C & L & E) (R' & C' & L' & E'). cbn in *. subst ra ca rb cb. f_equal.
  apply nth_error_ext. intro k. destruct (Nat.lt_ge_cases k (cols * rows)) as [H|H].
  - destruct (index_split cols rows k H) as (A1 & A2 & ->). rewrite E, E' by assumption. reflexivity.
  - rewrite (proj2 (nth_error_None da k)) by lia. rewrite (proj2 (nth_error_None db k)) by lia. reflexivity.
Qed.
Lemma tabulates_unique : forall A (a b : list A) nr nz g, tabulates a nr nz g -> tabulates b nr nz g -> a = b.
Proof.
  intros A a b nr nz g (L & E) (L' & E'). apply nth_error_ext. intro k. destruct (Nat.lt_ge_cases k (nr * nz)) as [H|H].
  - destruct (index_split nr nz k H) as (A1 & A2 & EQ). rewrite EQ, Nat.add_comm, E, E' by assumption. reflexivity.
  - rewrite (proj2 (nth_error_None a k)) by lia. rewrite (proj2 (nth_error_None b k)) by lia. reflexivity.
Qed.
Lemma tabulates_build : forall A nr nz (g : nat -> nat -> A), tabulates (map (fun k => g (k mod nr) (k / nr)) (seq 0 (nr * nz))) nr nz g.
Proof.
  intros A nr nz g. split; [rewrite map_length, seq_length; reflexivity|]. intros i j Hi Hj.
  rewrite nth_map_seq by (rewrite Nat.add_comm; apply index_bound; assumption). rewrite (Nat.add_comm i). rewrite index_div, index_mod by exact Hi. reflexivity.
Qed.
Lemma release_ok : forall A (a : marray A), ma_rows a <> 0 -> release a = Ok tt.
Proof. intros A a N. unfold release. destruct (Nat.eqb_spec (ma_rows a) 0); [contradiction|reflexivity]. Qed.
Lemma rising_ok : forall V (below : V -> V -> bool) l, rising V below l = true <-> forall i a b, nth_error l i = Some a -> nth_error l (S i) = Some b -> below a b = true.
Proof.
  intros V below. assert (T : forall x y l, rising V below (x :: y :: l) = (below x y && rising V below (y :: l))%bool) by reflexivity.
  induction l as [|x [|y l] IH].
  - split; [intros _ [|i] a b E; discriminate E|reflexivity].
  - split; [intros _ [|i] a b E F; [discriminate F|destruct i; discriminate F]|reflexivity].
  - rewrite T, andb_true_iff, IH. split.
    + intros [H G] [|i] a b E F; [injection E as <-; injection F as <-; exact H|exact (G i a b E F)].
    + intro H. split; [exact (H 0 x y eq_refl eq_refl)|]. intros i a b E F. exact (H (S i) a b E F).
Qed.
Lemma bicubic_ok : forall V (below : V -> V -> bool) l, bicubic V below l = true <-> usable below l.
Proof. intros V below l. unfold bicubic, usable. rewrite andb_true_iff, Nat.leb_le, rising_ok. reflexivity. Qed.
Lemma transpose_ok : forall A (a : marray A) rows cols g, stored a rows cols g -> rows <> 0 -> exists b, transpose a = Ok b /\ stored b cols rows (fun i j => g j i).
Proof.
  intros A a rows cols g S NR. assert (S' := S). destruct S' as (R & C & L & E). unfold transpose. rewrite (release_ok _ a) by congruence. rewrite R, C.
  rewrite (fill_ok _ _ _ (fun k => g (k mod rows) (k / rows))) by (intros k Hk; destruct (index_split rows cols k Hk) as (A1 & A2 & _); apply (aget_ok _ _ _ _ _ _ _ S); assumption).
  cbn [obind]. eexists. split; [reflexivity|]. repeat split; cbn; try reflexivity.
  - rewrite map_length, seq_length. lia.
  - intros j i Hj Hi. rewrite nth_map_seq by (apply index_bound; assumption). rewrite index_div, index_mod by assumption. reflexivity.
Qed.
Lemma relayout_ok : forall A (a : marray A) nr nz l g, stored a nz nr (fun j i => g i j) -> tabulates l nr nz g -> relayout nr nz a = Ok l.
Proof.
  intros A a nr nz l g S T. unfold relayout.
  rewrite (fill_ok _ _ _ (fun k => g (k mod nr) (k / nr))).
  - f_equal. apply (tabulates_unique _ _ _ _ _ _ (tabulates_build _ _ _ _) T).
  - intros k Hk. destruct (index_split nr nz k Hk) as (A1 & A2 & _). apply (aget_ok _ _ _ _ _ _ _ S); assumption.
Qed.
(** A table of a file is put into the orientation of the object. *)
Lemma orient_ok : forall A nr nz (a : marray A) l, represents nr nz a l ->
  exists b, orient nz a = Ok b /\ exists g, tabulates l nr nz g /\ stored b nz nr (fun j i => g i j).
Proof.
  intros A nr nz a l (g & T & [S|(N & NZ & S)]).
  - exists a. unfold orient. assert (R : ma_rows a = nz) by apply S. rewrite R, Nat.eqb_refl. split; [reflexivity|]. exists g. split; assumption.
  - destruct (transpose_ok _ _ _ _ _ S NZ) as (b & B & S'). exists b. unfold orient. assert (R : ma_rows a = nr) by apply S. rewrite R. destruct (Nat.eqb_spec nr nz); [contradiction|]. split; [exact B|].
    exists g. split; [exact T|exact S'].
Qed.
Lemma outlines_ok : forall a l, outlines a l -> contour_of a = Ok l.
Proof.
  assert (D : forall (l : list point) i v, nth_error l i = Some v -> (coordinate 0 (nth i l (0, 0)%R), coordinate 1 (nth i l (0, 0)%R)) = v).
  { intros l i v H. rewrite (nth_error_nth _ _ (0, 0)%R H). destruct v. reflexivity. }
  assert (B : forall (l : list point) i v, nth_error l i = Some v -> i < length l) by (intros l i v H; apply nth_error_Some; congruence).
  intros a l [S|(N & NE & S)]; unfold contour_of.
  - rewrite (proj1 S). cbn [Nat.eqb]. apply fill_list; [destruct S as (_ & C & _); congruence|]. intros i v H.
    rewrite (aget_ok _ _ _ _ _ 0 i S) by (try lia; exact (B _ _ _ H)). cbn [obind]. rewrite (aget_ok _ _ _ _ _ 1 i S) by (try lia; exact (B _ _ _ H)). cbn [obind]. rewrite (D l i v H). reflexivity.
  - rewrite (proj1 S). destruct (Nat.eqb_spec (length l) 2); [contradiction|]. rewrite (release_ok _ a) by (rewrite (proj1 S); destruct l; [congruence|discriminate]).
    enough (X : fill (length l) (fun i => obind (aget a i 0) (fun r => obind (aget a i 1) (fun z => Ok (r, z)))) = Ok l) by (rewrite X; reflexivity). apply fill_list; [reflexivity|]. intros i v H.
    rewrite (aget_ok _ _ _ _ _ i 0 S) by (try lia; exact (B _ _ _ H)). cbn [obind]. rewrite (aget_ok _ _ _ _ _ i 1 S) by (try lia; exact (B _ _ _ H)). cbn [obind]. rewrite (D l i v H). reflexivity.
Qed.
Lemma optional_outlines : forall x y, both outlines x y -> optional x contour_of = Ok y.
Proof. intros [a|] [l|] H; try contradiction; [|reflexivity]. cbn. rewrite (outlines_ok a l H). reflexivity. Qed.

Section Verify.
  Variables (V : Type) (same : V -> V -> bool).
  Lemma first_row : forall nr nz (l : list V) g (a : marray V) i, tabulates l nr nz g -> stored a nz nr (fun j i => g i j) -> i < nr ->
    match nth_error l i with Some u => aget a 0 i = Ok u | None => nz = 0 end.
  Proof.
    intros nr nz l g a i (L & T) S Hi. destruct (Nat.eq_dec nz 0) as [->|N].
    - rewrite (proj2 (nth_error_None l i)) by lia. reflexivity.
    - assert (E := T i 0 Hi ltac:(lia)). rewrite Nat.mul_0_l, Nat.add_0_r in E. rewrite E. apply (aget_ok _ _ _ _ _ 0 i S); [lia|exact Hi].
  Qed.
  Lemma verify_from_ok : forall a l nr ver k, k + length ver <= nr -> (forall i u, i < nr -> nth_error l i = Some u -> aget a 0 i = Ok u) ->
    (forall i w, nth_error ver i = Some w -> exists u, nth_error l (k + i) = Some u /\ same u w = true) -> verify_from V same a k ver = Ok tt.
  Proof.
    intros a l nr ver. induction ver as [|v ver IH]; intros k B A H; [reflexivity|]. cbn [verify_from length] in *.
    destruct (H 0 v eq_refl) as (u & E & SM). rewrite Nat.add_0_r in E. rewrite (A k u) by (try lia; exact E). cbn [obind]. rewrite SM. apply IH; [lia|exact A|].
    intros i w Hi. destruct (H (S i) w Hi) as (u' & E' & SM'). exists u'. split; [replace (S k + i) with (k + S i) by lia; exact E'|exact SM'].
  Qed.
  Lemma verify_ok : forall nr nz l g a ver, tabulates l nr nz g -> stored a nz nr (fun j i => g i j) -> agrees same nr l ver -> verify V same nr a ver = Ok tt.
  Proof.
    intros nr nz l g a [v|] T S H; [|reflexivity]. destruct H as [L H]. unfold verify. destruct (Nat.ltb_spec nr (length v)); [lia|].
    apply (verify_from_ok a l nr v 0); [lia| |].
    - intros i u Hi E. assert (F := first_row nr nz l g a i T S Hi). rewrite E in F. exact F.
    - intros i w Hi. exact (H i w Hi).
  Qed.
  Lemma verify_from_no : forall a l nr ver k, k + length ver <= nr -> (forall i, i < nr -> exists u, nth_error l i = Some u /\ aget a 0 i = Ok u) ->
    verify_from V same a k ver = Ok tt \/ verify_from V same a k ver = Throw.
  Proof.
    intros a l nr ver. induction ver as [|v ver IH]; intros k B A; [left; reflexivity|]. cbn [verify_from length] in *. destruct (A k ltac:(lia)) as (u & E & G). rewrite G. cbn [obind].
    destruct (same u v); [|right; reflexivity]. apply IH; [lia|exact A].
  Qed.
  Lemma verify_from_inv : forall a l nr ver k, k + length ver <= nr -> (forall i, i < nr -> exists u, nth_error l i = Some u /\ aget a 0 i = Ok u) ->
    verify_from V same a k ver = Ok tt -> forall i w, nth_error ver i = Some w -> exists u, nth_error l (k + i) = Some u /\ same u w = true.
  Proof.
    intros a l nr ver. induction ver as [|v ver IH]; intros k B A H i w Hi; [destruct i; discriminate Hi|]. cbn [verify_from length] in *. destruct (A k ltac:(lia)) as (u & E & G). rewrite G in H. cbn [obind] in H.
    destruct (same u v) eqn:SM; [|discriminate H]. destruct i as [|i].
    - injection Hi as <-. exists u. rewrite Nat.add_0_r. split; assumption.
    - destruct (IH (S k) ltac:(lia) A H i w Hi) as (u' & E' & SM'). exists u'. split; [replace (k + S i) with (S k + i) by lia; exact E'|exact SM'].
  Qed.
  (** With at least one row, a vector that does not agree is rejected. *)
  Lemma verify_decides : forall nr nz l g a ver, nz <> 0 -> tabulates l nr nz g -> stored a nz nr (fun j i => g i j) ->
    (agrees same nr l ver /\ verify V same nr a ver = Ok tt) \/ (~ agrees same nr l ver /\ verify V same nr a ver = Throw).
  Proof.
    intros nr nz l g a [v|] N T S; [|left; split; [exact I|reflexivity]]. unfold verify. destruct (Nat.ltb_spec nr (length v)) as [L|L].
    - right. split; [intros [L' _]; lia|reflexivity].
    - assert (A : forall i, i < nr -> exists u, nth_error l i = Some u /\ aget a 0 i = Ok u).
      { intros i Hi. assert (F := first_row nr nz l g a i T S Hi). destruct (nth_error l i) as [u|]; [exists u; split; [reflexivity|exact F]|contradiction]. }
      destruct (verify_from_no a l nr v 0 ltac:(lia) A) as [E|E]; rewrite E.
      + left. split; [|reflexivity]. split; [exact L|]. intros i w Hi. exact (verify_from_inv a l nr v 0 ltac:(lia) A E i w Hi).
      + right. split; [|reflexivity]. intros [_ H]. assert (X : verify_from V same a 0 v = Ok tt); [|congruence].
        apply (verify_from_ok a l nr v 0); [lia| |exact H]. intros i u Hi Eu. destruct (A i Hi) as (u' & E' & G). congruence.
  Qed.
End Verify.

(** A table without its function. *)
Lemma tabulates_any : forall A (d : A) l nr nz, length l = nr * nz -> tabulates l nr nz (fun i j => nth (i + j * nr) l d).
Proof.
  intros A d l nr nz L. split; [exact L|]. intros i j Hi Hj. apply nth_error_nth'. rewrite L, Nat.add_comm. apply index_bound; assumption.
Qed.
Lemma stored_any : forall A (d : A) l nr nz, length l = nr * nz -> stored (MArray nz nr l) nz nr (fun j i => nth (i + j * nr) l d).
Proof.
  intros A d l nr nz L. repeat split; cbn; [lia|]. intros j i Hj Hi. rewrite (Nat.add_comm i). apply nth_error_nth'. rewrite L. apply index_bound; assumption.
Qed.
Lemma represents_any : forall A l nr nz, nr * nz <> 0 -> length l = nr * nz -> represents nr nz (@MArray A nz nr l) l.
Proof.
  intros A l nr nz N L. destruct l as [|d l']; [cbn in L; congruence|]. set (l := d :: l') in *. exists (fun i j => nth (i + j * nr) l d).
  split; [apply tabulates_any; exact L|]. left. apply stored_any. exact L.
Qed.
Lemma contour_array_ok : forall c, c <> Some [] -> both outlines (contour_array c) c.
Proof.
  intros [[|p l]|] N; [congruence| |exact I]. set (q := p :: l). change (outlines (MArray 2 (length q) (map fst q ++ map snd q)) q). left.
  repeat split; cbn [ma_rows ma_cols ma_data]; [rewrite app_length, !map_length; lia|]. intros k i Hk Hi. destruct k as [|[|k]]; [| |lia].
  - rewrite Nat.mul_0_l, Nat.add_0_l, nth_error_app1 by (rewrite map_length; exact Hi). rewrite nth_error_map, (nth_error_nth' q (0, 0)%R Hi). reflexivity.
  - rewrite Nat.mul_1_l, nth_error_app2 by (rewrite map_length; lia). rewrite map_length. replace (length q + i - length q) with i by lia. rewrite nth_error_map, (nth_error_nth' q (0, 0)%R Hi). reflexivity.
Qed.

(** * LUKE *)
Lemma normalise_step : forall pre x post, normalise_from (length pre) (S (length post)) (pre ++ x :: post) =
  ediv x (last (pre ++ x :: post) 0%R) (fun v => normalise_from (S (length pre)) (length post) (pre ++ Rabs v :: post)).
Proof.
  intros pre x post. cbn [normalise_from]. rewrite nth_middle.
  assert (F : firstn (length pre) (pre ++ x :: post) = pre) by (rewrite firstn_app, Nat.sub_diag, firstn_all; cbn; apply app_nil_r).
  assert (K : skipn (S (length pre)) (pre ++ x :: post) = post).
  { rewrite skipn_app. rewrite skipn_all2 by lia. replace (S (length pre) - length pre) with 1 by lia. reflexivity. }
  rewrite F, K. reflexivity.
Qed.
Lemma last_middle : forall A (pre : list A) x post d, post <> [] -> last (pre ++ x :: post) d = last post d.
Proof.
  intros A pre x post d N. destruct (exists_last N) as (q & y & ->). rewrite !app_comm_cons, app_assoc, !last_last. reflexivity.
Qed.
Lemma normalise_from_ok : forall post pre d, (post <> [] -> last post 0%R = d) -> (post <> [] -> d <> 0%R) ->
  normalise_from (length pre) (length post) (pre ++ post) = Some (pre ++ map (fun v => Rabs (v / d)) post).
Proof.
  induction post as [|x post IH]; intros pre d E N; [cbn; reflexivity|]. assert (NN : x :: post <> []) by discriminate.
  cbn [length]. rewrite normalise_step.
  assert (LD : last (pre ++ x :: post) 0%R = d).
  { rewrite <- (E NN). destruct post as [|y q]; [apply last_last|]. rewrite last_middle by discriminate. reflexivity. }
  rewrite LD. unfold ediv. destruct (Req_EM_T d 0) as [Z|_]; [destruct (N NN Z)|].
  assert (L1 : S (length pre) = length (pre ++ [Rabs (x / d)])) by (rewrite app_length; cbn; lia).
  rewrite L1. replace (pre ++ Rabs (x / d) :: post) with ((pre ++ [Rabs (x / d)]) ++ post) by (rewrite <- app_assoc; reflexivity).
  rewrite (IH _ d).
  - rewrite <- app_assoc. reflexivity.
  - intro P. rewrite <- (E NN). destruct post as [|y q]; [congruence|]. reflexivity.
  - intro P. exact (N NN).
Qed.
Lemma normalise_ok : forall l, last l 0%R <> 0%R -> normalise l = Some (map (fun v => Rabs (v / last l 0)%R) l).
Proof. intros l N. exact (normalise_from_ok l [] (last l 0%R) (fun _ => eq_refl) (fun _ => N)). Qed.
Lemma normalise_zero : forall l, l <> [] -> last l 0%R = 0%R -> normalise l = None.
Proof.
  intros [|x l] N E; [congruence|]. unfold normalise. cbn [length]. assert (X := normalise_step [] x l). cbn [length app] in X. rewrite X, E. unfold ediv. destruct (Req_EM_T 0 0); [reflexivity|congruence].
Qed.
(** The polar angle. *)
Lemma atan2_polar : forall x y, (x <> 0 \/ y <> 0)%R -> (- PI < atan2 y x <= PI /\ major x y * cos (atan2 y x) = x /\ major x y * sin (atan2 y x) = y)%R.
Proof.
  assert (K : forall x y, (0 < x)%R -> (major x y * cos (atan (y / x)) = x /\ major x y * sin (atan (y / x)) = y)%R).
  { intros x y P. assert (Q : (0 < 1 + (y / x)²)%R) by (unfold Rsqr; nra). assert (S := sqrt_lt_R0 _ Q).
    assert (E : (major x y = x * sqrt (1 + (y / x)²))%R).
    { unfold major. transitivity (sqrt (x * x) * sqrt (1 + (y / x)²))%R; [|rewrite sqrt_square by lra; reflexivity]. rewrite <- sqrt_mult_alt by nra. f_equal. unfold Rsqr. field. lra. }
    rewrite cos_atan, sin_atan, E. split; field; lra. }
  assert (M : forall x y, major (- x) (- y) = major x y) by (intros; unfold major; f_equal; ring).
  intros x y H. assert (PP := PI_RGT_0). assert (B := atan_bound (y / x)). unfold atan2. destruct (Rlt_dec 0 x) as [P|NP].
  - destruct (K x y P). split; [lra|split; assumption].
  - destruct (Rlt_dec x 0) as [P|NX].
    + destruct (K (- x)%R (- y)%R ltac:(lra)) as [C S]. replace (- y / - x)%R with (y / x)%R in C, S by (field; lra). rewrite M in C, S.
      assert (SG : (0 <= y -> y / x <= 0)%R) by (intro Y; apply Rmult_le_reg_r with (- x)%R; [lra|]; replace (y / x * - x)%R with (- y)%R by (field; lra); lra).
      assert (SG' : (y < 0 -> 0 < y / x)%R) by (intro Y; apply Rmult_lt_reg_r with (- x)%R; [lra|]; replace (y / x * - x)%R with (- y)%R by (field; lra); lra).
      destruct (Rle_dec 0 y) as [Y|Y].
      * rewrite neg_cos, neg_sin. assert (A0 : (atan (y / x) <= 0)%R) by (rewrite <- atan_0; destruct (SG Y) as [L|L]; [left; apply atan_increasing; exact L|rewrite L; right; reflexivity]).
        split; [lra|]. split; lra.
      * assert (A0 : (0 < atan (y / x))%R) by (rewrite <- atan_0 at 1; apply atan_increasing; apply SG'; lra).
        replace (atan (y / x) - PI)%R with (- (PI - atan (y / x)))%R by ring. rewrite cos_neg, sin_neg, Rtrigo_facts.cos_pi_minus, Rtrigo_facts.sin_pi_minus. split; [lra|]. split; lra.
    + assert (X : x = 0%R) by lra. subst x. destruct (Rlt_dec 0 y) as [Y|Y]; [|destruct (Rlt_dec y 0) as [Y'|Y']; [|lra]].
      * rewrite cos_PI2, sin_PI2. assert (E : major 0 y = y) by (unfold major; transitivity (sqrt (y * y)); [f_equal; ring|apply sqrt_square; lra]). rewrite E. split; [lra|split; ring].
      * rewrite cos_neg, sin_neg, cos_PI2, sin_PI2. assert (E : (major 0 y = - y)%R) by (unfold major; transitivity (sqrt (- y * - y)); [f_equal; ring|apply sqrt_square; lra]). rewrite E. split; [lra|split; ring].
Qed.
Lemma theta_polar : forall x y, (x <> 0 \/ y <> 0)%R ->
  (0 <= luke_theta x y < 2 * PI /\ major x y * cos (luke_theta x y) = x /\ major x y * sin (luke_theta x y) = y)%R.
Proof.
  intros x y H. destruct (atan2_polar x y H) as (B & C & S). unfold luke_theta. assert (PP := PI_RGT_0). destruct (Rlt_dec (atan2 y x) 0) as [L|L].
  - replace (2 * PI + atan2 y x)%R with (atan2 y x + 2 * INR 1 * PI)%R by (change (INR 1) with 1%R; ring). rewrite cos_period, sin_period. change (INR 1) with 1%R. split; [lra|split; assumption].
  - split; [lra|split; assumption].
Qed.
Lemma luke_table_ok : forall interp xs ys psi g, stored psi (length ys) (length xs) (fun j i => g i j) ->
  exists l, luke_table interp xs ys psi = Ok l /\ tabulates l (length xs) (length ys) (fun i j => interp (Rabs (g i j)) (luke_theta (nth i xs 0%R) (nth j ys 0%R))).
Proof.
  intros interp xs ys psi g S. eexists. split; [|apply tabulates_build].
  unfold luke_table. apply fill_ok. intros k Hk. destruct (index_split _ _ _ Hk) as (A1 & A2 & _). unfold luke_value.
  rewrite (nth_error_nth' xs 0%R A1), (nth_error_nth' ys 0%R A2), (aget_ok _ _ _ _ _ _ _ S A2 A1). reflexivity.
Qed.
Lemma luke_flux_ok : forall psia nr nz psi g, stored psi nz nr (fun j i => g i j) ->
  exists l, luke_flux psia nr nz psi = Ok l /\ tabulates l nr nz (fun i j => g i j * psia)%R.
Proof.
  intros psia nr nz psi g S. eexists. split; [|apply tabulates_build].
  unfold luke_flux. apply fill_ok. intros k Hk. destruct (index_split _ _ _ Hk) as (A1 & A2 & _). rewrite (aget_ok _ _ _ _ _ _ _ S A2 A1). reflexivity.
Qed.
Lemma luke_wall_ok : forall a l, outlines a l -> luke_wall a = Ok l.
Proof.
  intros a l H. assert (C := outlines_ok a l H). unfold contour_of in C. unfold luke_wall. destruct (Nat.eqb_spec (ma_rows a) 2) as [E|E]; [exact C|].
  destruct H as [S|(N & NE & S)]; [rewrite (proj1 S) in E; congruence|]. destruct S as (_ & K & _). rewrite K. exact C.
Qed.
Lemma increasing_ok : forall l, increasing l = true <-> ascending l.
Proof.
  assert (T : forall x y l, increasing (x :: y :: l) = (Rltb x y && increasing (y :: l))%bool) by reflexivity.
  assert (H1 : forall l x, increasing (x :: l) = true -> increasing l = true /\ forall j b, nth_error l j = Some b -> (x < b)%R).
  { induction l as [|y l IH]; intros x H; [split; [reflexivity|intros [|j] b E; discriminate E]|]. rewrite T in H. apply andb_true_iff in H. destruct H as [H G]. split; [exact G|].
    assert (X : (x < y)%R) by (unfold Rltb in H; destruct (Rlt_dec x y); [assumption|discriminate H]).
    intros [|j] b E; [injection E as <-; exact X|]. destruct (IH y G) as [_ K]. assert (Y := K j b E). lra. }
  induction l as [|x l IH].
  - split; [intros _ i j a b _ E; destruct i; discriminate E|reflexivity].
  - split.
    + intro H. destruct (H1 l x H) as [G K]. intros [|i] [|j] a b L Ea Eb; try lia.
      * injection Ea as <-. exact (K j b Eb).
      * apply (proj1 IH G i j a b); [lia|exact Ea|exact Eb].
    + intro H. destruct l as [|y l]; [reflexivity|]. rewrite T. apply andb_true_iff. split.
      * unfold Rltb. destruct (Rlt_dec x y) as [|N]; [reflexivity|]. destruct N. apply (H 0 1 x y); [lia|reflexivity|reflexivity].
      * apply IH. intros i j a b L Ea Eb. apply (H (S i) (S j) a b); [lia|exact Ea|exact Eb].
Qed.
