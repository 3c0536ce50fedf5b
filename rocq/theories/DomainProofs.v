(** Proofs about the domain computations. *)
From Coq Require Import Reals Lra Psatz.
From Verif Require Import Base DomainModel DomainSpec.
Local Open Scope R_scope.

Lemma Rleb_iff : forall x y, Rleb x y = true <-> x <= y.
Proof. intros x y. unfold Rleb. destruct (Rle_dec x y); split; intro H; try reflexivity; try assumption; try discriminate; contradiction. Qed.
Lemma Rltb_iff : forall x y, Rltb x y = true <-> x < y.
Proof. intros x y. unfold Rltb. destruct (Rlt_dec x y); split; intro H; try reflexivity; try assumption; try discriminate; contradiction. Qed.
Lemma Reqb_iff : forall x y, Reqb x y = true <-> x = y.
Proof. intros x y. unfold Reqb. destruct (Req_EM_T x y); split; intro H; try reflexivity; try assumption; try discriminate; contradiction. Qed.
Lemma Reqb_false : forall x y, Reqb x y = false <-> x <> y.
Proof. intros x y. unfold Reqb. destruct (Req_EM_T x y); split; intro H; try reflexivity; try assumption; try discriminate; contradiction. Qed.

(** * Edges *)
Lemma edge_cons : forall p q r, edge (p :: q :: r) p q.
Proof. intros p q r. exists [], r. reflexivity. Qed.
Lemma edge_tail : forall x pts p q, edge pts p q -> edge (x :: pts) p q.
Proof. intros x pts p q (l & r & ->). exists (x :: l), r. reflexivity. Qed.
Lemma edge_inv : forall x pts p q, edge (x :: pts) p q -> (x = p /\ exists r, pts = q :: r) \/ edge pts p q.
Proof.
  intros x pts p q (l & r & H). destruct l as [|y l]; cbn in H.
  - injection H as -> ->. left. split; [reflexivity|]. exists r. reflexivity.
  - injection H as -> ->. right. exists l, r. reflexivity.
Qed.
Lemma edge_nil : forall p q, ~ edge [] p q.
Proof. intros p q (l & r & H). destruct l; discriminate H. Qed.
Lemma edge_one : forall x p q, ~ edge [x] p q.
Proof. intros x p q H. apply edge_inv in H. destruct H as [(_ & r & E)|H]; [discriminate E|exact (edge_nil p q H)]. Qed.
Lemma edges_of_iff : forall pts p q, In (p, q) (edges_of pts) <-> edge pts p q.
Proof.
  induction pts as [|x pts IH]; intros p q.
  - split; [intros []|apply edge_nil].
  - destruct pts as [|y pts].
    + split; [intros []|apply edge_one].
    + change (edges_of (x :: y :: pts)) with ((x, y) :: edges_of (y :: pts)). split.
      * intros [E|H]; [injection E as -> ->; apply edge_cons|apply edge_tail; apply IH; exact H].
      * intro H. apply edge_inv in H. destruct H as [(-> & r & E)|H]; [injection E as -> ->; left; reflexivity|right; apply IH; exact H].
Qed.

(** * CrossesDomain *)
Lemma edge_crossed_spec : forall x00 y00 x2 y2 p q,
  edge_crossed x00 y00 (x2 - x00) (y2 - y00) p q =
    (if Req_EM_T (fst p) x00 then if Req_EM_T (snd p) y00 then None
       else edge_crossed x00 y00 (x2 - x00) (y2 - y00) p q else edge_crossed x00 y00 (x2 - x00) (y2 - y00) p q).
Proof.
  intros. destruct (Req_EM_T (fst p) x00) as [E1|]; [|reflexivity]. destruct (Req_EM_T (snd p) y00) as [E2|]; [|reflexivity].
  unfold edge_crossed. rewrite E1, E2. rewrite !Rminus_diag_eq by reflexivity. unfold Reqb. destruct (Req_EM_T 0 0); [reflexivity|contradiction].
Qed.
Lemma edge_crossed_iff : forall x00 y00 x2 y2 p q,
  (edge_crossed x00 y00 (x2 - x00) (y2 - y00) p q = Some true <->
   p <> (x00, y00) /\ (parallel p q (x00, y00) (x2, y2) \/ segments_meet (x00, y00) (x2, y2) p q)) /\
  (edge_crossed x00 y00 (x2 - x00) (y2 - y00) p q = Some true \/ edge_crossed x00 y00 (x2 - x00) (y2 - y00) p q = None).
Proof.
  intros x00 y00 x2 y2 [x10 y10] [x20 y20]. unfold edge_crossed. cbn [fst snd].
  set (x01 := x2 - x00). set (y01 := y2 - y00). set (x11 := x20 - x10). set (y11 := y20 - y10).
  destruct (Reqb (x00 - x10) 0 && Reqb (y00 - y10) 0)%bool eqn:E0.
  { apply Bool.andb_true_iff in E0. rewrite !Reqb_iff in E0. destruct E0 as [A B].
    split; [|right; reflexivity]. split; [discriminate|]. intros [N _]. exfalso. apply N. f_equal; lra. }
  assert (NE : (x10, y10) <> (x00, y00)).
  { intro E. injection E as E1 E2. apply Bool.andb_false_iff in E0. rewrite !Reqb_false in E0. destruct E0; lra. }
  destruct (Reqb (x11 * y01 - x01 * y11) 0) eqn:ED.
  { apply Reqb_iff in ED. split; [|left; reflexivity]. split; [|reflexivity]. intros _. split; [exact NE|]. left.
    unfold parallel. cbn [fst snd]. fold x11 y11 x01 y01. lra. }
  apply Reqb_false in ED. set (det := x11 * y01 - x01 * y11) in *.
  set (s := 1 / det * ((x00 - x10) * y01 - (y00 - y10) * x01)).
  set (t := - (1 / det) * ((y00 - y10) * x11 - (x00 - x10) * y11)).
  assert (SX : x00 + t * x01 = x10 + s * x11).
  { apply (Rmult_eq_reg_r det); [|exact ED]. unfold s, t. field_simplify_eq; [|exact ED]. unfold det. ring. }
  assert (SY : y00 + t * y01 = y10 + s * y11).
  { apply (Rmult_eq_reg_r det); [|exact ED]. unfold s, t. field_simplify_eq; [|exact ED]. unfold det. ring. }
  assert (UN : forall t' s', x00 + t' * x01 = x10 + s' * x11 -> y00 + t' * y01 = y10 + s' * y11 -> t' = t /\ s' = s).
  { intros t' s' HX HY. assert (A : (t' - t) * x01 = (s' - s) * x11) by lra. assert (B : (t' - t) * y01 = (s' - s) * y11) by lra.
    split.
    - assert (C : (t' - t) * det = 0).
      { unfold det. replace ((t' - t) * (x11 * y01 - x01 * y11)) with (x11 * ((t' - t) * y01) - y11 * ((t' - t) * x01)) by ring.
        rewrite A, B. ring. }
      apply Rmult_integral in C. destruct C; lra.
    - assert (C : (s' - s) * det = 0).
      { unfold det. replace ((s' - s) * (x11 * y01 - x01 * y11)) with (y01 * ((s' - s) * x11) - x01 * ((s' - s) * y11)) by ring.
        rewrite <- A, <- B. ring. }
      apply Rmult_integral in C. destruct C; lra. }
  assert (M : segments_meet (x00, y00) (x2, y2) (x10, y10) (x20, y20) <-> unit_interval t /\ unit_interval s).
  { split.
    - intros (t' & s' & Ht & Hs & E). unfold along in E. cbn [fst snd] in E. injection E as EX EY.
      destruct (UN t' s' EX EY) as [-> ->]. split; assumption.
    - intros [Ht Hs]. exists t, s. split; [exact Ht|]. split; [exact Hs|]. unfold along. cbn [fst snd]. f_equal; assumption. }
  assert (NP : ~ parallel (x10, y10) (x20, y20) (x00, y00) (x2, y2)).
  { unfold parallel. cbn [fst snd]. fold x11 y11 x01 y01. intro P. apply ED. unfold det. lra. }
  destruct (Rleb 0 s && Rleb s 1 && Rleb 0 t && Rleb t 1)%bool eqn:ES.
  - rewrite !Bool.andb_true_iff, !Rleb_iff in ES. split; [|left; reflexivity]. split; [|reflexivity]. intros _. split; [exact NE|].
    right. apply M. unfold unit_interval. lra.
  - split; [|right; reflexivity]. split; [discriminate|]. intros [_ [P|S]]; [contradiction|]. apply M in S. destruct S as [[T0 T1] [S0 S1]].
    exfalso. assert (X : (Rleb 0 s && Rleb s 1 && Rleb 0 t && Rleb t 1)%bool = true) by (rewrite !Bool.andb_true_iff, !Rleb_iff; lra).
    rewrite X in ES. discriminate ES.
Qed.
Lemma edges_crossed_iff : forall pts x00 y00 x2 y2,
  edges_crossed x00 y00 (x2 - x00) (y2 - y00) pts = true <->
  exists p q, edge pts p q /\ p <> (x00, y00) /\ (parallel p q (x00, y00) (x2, y2) \/ segments_meet (x00, y00) (x2, y2) p q).
Proof.
  induction pts as [|p pts IH]; intros x00 y00 x2 y2.
  - split; [discriminate|]. intros (p & q & E & _). destruct (edge_nil p q E).
  - destruct pts as [|q pts].
    + split; [discriminate|]. intros (a & b & E & _). destruct (edge_one p a b E).
    + change (edges_crossed x00 y00 (x2 - x00) (y2 - y00) (p :: q :: pts)) with
        (match edge_crossed x00 y00 (x2 - x00) (y2 - y00) p q with Some b => b | None => edges_crossed x00 y00 (x2 - x00) (y2 - y00) (q :: pts) end).
      destruct (edge_crossed_iff x00 y00 x2 y2 p q) as [I [E|E]].
      * rewrite E. split; [|reflexivity]. intros _. exists p, q. split; [apply edge_cons|]. apply I. exact E.
      * rewrite E. rewrite IH. split.
        -- intros (a & b & Eab & H). exists a, b. split; [apply edge_tail; exact Eab|exact H].
        -- intros (a & b & Eab & H). apply edge_inv in Eab. destruct Eab as [(-> & r & Er)|Eab].
           ++ injection Er as -> _. apply I in H. rewrite E in H. discriminate H.
           ++ exists a, b. split; assumption.
Qed.
Lemma crosses_iff : forall pts x1 y1 z1 x2 y2 z2, pts <> [] ->
  (crosses_domain pts x1 y1 z1 x2 y2 z2 = Ok true <->
   exists p q, edge pts p q /\ p <> to_rz x1 y1 z1 /\
     (parallel p q (to_rz x1 y1 z1) (to_rz x2 y2 z2) \/ segments_meet (to_rz x1 y1 z1) (to_rz x2 y2 z2) p q)) /\
  (crosses_domain pts x1 y1 z1 x2 y2 z2 = Ok true \/ crosses_domain pts x1 y1 z1 x2 y2 z2 = Ok false).
Proof.
  intros pts x1 y1 z1 x2 y2 z2 Hne. unfold crosses_domain, to_rz. destruct pts as [|p0 pts]; [contradiction|].
  fold (hypot x1 y1) (hypot x2 y2). split.
  - rewrite <- edges_crossed_iff. split; [intro H; injection H as H; exact H|intro H; rewrite H; reflexivity].
  - destruct (edges_crossed _ _ _ _ _); [left|right]; reflexivity.
Qed.

(** * Bounding box *)
Lemma fold_grow : forall pts l b, smallest_box l b -> smallest_box (l ++ pts) (fold_left grow pts b).
Proof.
  induction pts as [|p pts IH]; intros l b H; [rewrite app_nil_r; exact H|].
  cbn [fold_left]. replace (l ++ p :: pts) with ((l ++ [p]) ++ pts) by (rewrite <- app_assoc; reflexivity). apply IH.
  destruct H as (I & (p1 & I1 & E1) & (p2 & I2 & E2) & (p3 & I3 & E3) & (p4 & I4 & E4)).
  assert (R12 : b_rmin b <= b_rmax b) by (destruct (I p1 I1) as [[? ?] _]; lra).
  assert (Z12 : b_zmin b <= b_zmax b) by (destruct (I p3 I3) as [_ [? ?]]; lra).
  unfold grow.
  assert (W : forall P : point, In P (l ++ [p]) <-> In P l \/ P = p).
  { intro P. rewrite in_app_iff. cbn. intuition. }
  destruct (Rlt_dec (fst p) (b_rmin b)) as [A|A]; [|destruct (Rlt_dec (b_rmax b) (fst p)) as [A'|A']];
  (destruct (Rlt_dec (snd p) (b_zmin b)) as [B|B]; [|destruct (Rlt_dec (b_zmax b) (snd p)) as [B'|B']]);
  (split; [intros P HP; apply W in HP; unfold inside; cbn [b_rmin b_rmax b_zmin b_zmax];
           destruct HP as [HP| ->]; [destruct (I P HP) as [[? ?] [? ?]]; lra|lra]|]);
  cbn [b_rmin b_rmax b_zmin b_zmax]; (split; [|split; [|split]]);
  first [exists p; split; [apply W; right; reflexivity|reflexivity]
        |exists p1; split; [apply W; left; exact I1|exact E1]|exists p2; split; [apply W; left; exact I2|exact E2]
        |exists p3; split; [apply W; left; exact I3|exact E3]|exists p4; split; [apply W; left; exact I4|exact E4]].
Qed.
Lemma bounds_fresh : forall f pts, d_bounds f = None -> d_pts f = Some pts ->
  exists b, get_bounds f = Ok (b, Field (d_axis f) (d_pts f) (d_max f) (d_min f) (Some b)) /\ smallest_box (d_axis f :: pts) b.
Proof.
  intros f pts Hb Hp. unfold get_bounds. rewrite Hb, Hp. eexists. split; [reflexivity|].
  change (d_axis f :: pts) with ([d_axis f] ++ pts). apply fold_grow.
  unfold smallest_box, inside. cbn [b_rmin b_rmax b_zmin b_zmax].
  split; [intros p [<-|[]]; lra|]. repeat split; exists (d_axis f); (split; [left; reflexivity|reflexivity]).
Qed.

(** * Levels *)
Lemma straddles_reaches : forall a p q, straddles a (snd p) (snd q) = true <-> reaches a (p, q).
Proof.
  intros a [x y] [x' y']. unfold straddles, reaches, along, unit_interval. cbn [fst snd].
  rewrite Bool.orb_true_iff, !Bool.andb_true_iff, !Rleb_iff. split.
  - intro H. destruct (Req_dec y y') as [E|N].
    + exists 0. split; [lra|]. lra.
    + exists ((a - y) / (y' - y)). split.
      * split.
        -- destruct (Rlt_le_dec y y').
           ++ apply Rmult_le_pos; [lra|]. apply Rlt_le, Rinv_0_lt_compat. lra.
           ++ replace ((a - y) / (y' - y)) with ((y - a) / (y - y')) by (field; lra).
              apply Rmult_le_pos; [lra|]. apply Rlt_le, Rinv_0_lt_compat. lra.
        -- destruct (Rlt_le_dec y y').
           ++ apply (Rmult_le_reg_r (y' - y)); [lra|]. field_simplify; lra.
           ++ replace ((a - y) / (y' - y)) with ((y - a) / (y - y')) by (field; lra).
              apply (Rmult_le_reg_r (y - y')); [lra|]. field_simplify; lra.
      * field. lra.
  - intros (t & [T0 T1] & E). destruct (Rle_dec y y'); [right|left]; nra.
Qed.
Lemma level_value_on : forall a p q, straddles a (snd p) (snd q) = true ->
  exists t, unit_interval t /\ along p q t = (level_value a (fst p) (fst q) (snd p) (snd q), a).
Proof.
  intros a p q H. assert (R := proj1 (straddles_reaches a p q) H). destruct R as (t & Ht & E). cbn [fst snd] in E. destruct p as [x y], q as [x' y'].
  cbn [fst snd] in *. unfold level_value. destruct (Reqb y' y) eqn:E0.
  - apply Reqb_iff in E0. subst y'. unfold along in *. cbn [fst snd] in *. unfold Rmax. destruct (Rle_dec x x').
    + exists 1. split; [unfold unit_interval; lra|]. f_equal; lra.
    + exists 0. split; [unfold unit_interval; lra|]. f_equal; lra.
  - apply Reqb_false in E0. exists t. split; [exact Ht|]. unfold along in *. cbn [fst snd] in *. f_equal; [|lra].
    replace t with ((a - y) / (y' - y)); [field; lra|]. apply (Rmult_eq_reg_r (y' - y)); [|lra]. field_simplify; lra.
Qed.
(** The value found on an edge is the largest radius of the edge at that height, and the only
    one unless the edge is horizontal. *)
Lemma level_value_max : forall a p q t r, unit_interval t -> along p q t = (r, a) ->
  r <= level_value a (fst p) (fst q) (snd p) (snd q) /\ (snd p <> snd q -> r = level_value a (fst p) (fst q) (snd p) (snd q)).
Proof.
  intros a [x y] [x' y'] t r [T0 T1] E. unfold along in E. cbn [fst snd] in *. injection E as EX EY. unfold level_value.
  destruct (Reqb y' y) eqn:E0.
  - apply Reqb_iff in E0. split; [|congruence]. unfold Rmax. destruct (Rle_dec x x'); nra.
  - apply Reqb_false in E0. assert (V : x + (x' - x) * (a - y) / (y' - y) = r).
    { rewrite <- EX, <- EY. field. lra. }
    rewrite V. split; [lra|reflexivity].
Qed.

(** The values of all edges that reach the level, in order. *)
Fixpoint values (a : R) (pts : list point) : list R :=
  match pts with
  | p :: ((q :: _) as rest) =>
      if straddles a (snd p) (snd q) then level_value a (fst p) (fst q) (snd p) (snd q) :: values a rest else values a rest
  | _ => []
  end.
Lemma scan_stop : forall a pts i acc, (2 <= length acc)%nat -> scan a pts i acc = (i, acc).
Proof. intros a pts i acc H. destruct pts as [|p pts]; cbn [scan]; (destruct (Nat.leb_spec 2 (length acc)); [reflexivity|lia]). Qed.
Lemma scan_step : forall a p q r i acc, (length acc < 2)%nat -> scan a (p :: q :: r) i acc =
  scan a (q :: r) (S i) (if straddles a (snd p) (snd q) then acc ++ [level_value a (fst p) (fst q) (snd p) (snd q)] else acc).
Proof. intros a p q r i acc H. cbn [scan]. destruct (Nat.leb_spec 2 (length acc)); [lia|reflexivity]. Qed.
Lemma scan_values : forall pts a i acc, snd (scan a pts i acc) = firstn (Nat.max 2 (length acc)) (acc ++ values a pts).
Proof.
  induction pts as [|p pts IH]; intros a i acc.
  - cbn [scan values]. rewrite app_nil_r. destruct (2 <=? length acc)%nat; cbn [snd]; rewrite firstn_all2 by lia; reflexivity.
  - destruct (Nat.le_gt_cases 2 (length acc)) as [L|L].
    + rewrite scan_stop by exact L. cbn [snd]. rewrite Nat.max_r by exact L. rewrite firstn_app, firstn_all, Nat.sub_diag. cbn. rewrite app_nil_r. reflexivity.
    + destruct pts as [|q pts].
      * cbn [scan values]. destruct (Nat.leb_spec 2 (length acc)); [lia|]. cbn [snd]. rewrite app_nil_r, firstn_all2 by lia. reflexivity.
      * rewrite scan_step by exact L. rewrite IH.
        change (values a (p :: q :: pts)) with (if straddles a (snd p) (snd q) then level_value a (fst p) (fst q) (snd p) (snd q) :: values a (q :: pts) else values a (q :: pts)).
        destruct (straddles a (snd p) (snd q)); [|reflexivity]. rewrite app_length, <- app_assoc. cbn [length app].
        rewrite !Nat.max_l by lia. reflexivity.
Qed.
Lemma scan_index : forall pts a i acc, (length (snd (scan a pts i acc)) < 2)%nat -> fst (scan a pts i acc) = (i + (length pts - 1))%nat.
Proof.
  induction pts as [|p pts IH]; intros a i acc H.
  - cbn [scan] in *. destruct (2 <=? length acc)%nat; cbn; lia.
  - destruct (Nat.le_gt_cases 2 (length acc)) as [L|L].
    + rewrite scan_stop in * by exact L. cbn [snd] in H. lia.
    + destruct pts as [|q pts].
      * cbn [scan] in *. destruct (Nat.leb_spec 2 (length acc)); cbn; lia.
      * rewrite scan_step in * by exact L. rewrite IH by exact H. cbn [length]. lia.
Qed.
Lemma values_in : forall pts a v, In v (values a pts) -> exists p q, edge pts p q /\ straddles a (snd p) (snd q) = true /\
  v = level_value a (fst p) (fst q) (snd p) (snd q).
Proof.
  induction pts as [|p pts IH]; intros a v H; [destruct H|]. destruct pts as [|q pts]; [destruct H|].
  change (values a (p :: q :: pts)) with (if straddles a (snd p) (snd q) then level_value a (fst p) (fst q) (snd p) (snd q) :: values a (q :: pts) else values a (q :: pts)) in H.
  assert (T : In v (values a (q :: pts)) -> exists p0 q0, edge (p :: q :: pts) p0 q0 /\ straddles a (snd p0) (snd q0) = true /\
     v = level_value a (fst p0) (fst q0) (snd p0) (snd q0)).
  { intro H'. destruct (IH a v H') as (p0 & q0 & E & S & V). exists p0, q0. split; [apply edge_tail; exact E|]. split; assumption. }
  destruct (straddles a (snd p) (snd q)) eqn:S; [|exact (T H)]. destruct H as [<-|H]; [|exact (T H)].
  exists p, q. split; [apply edge_cons|]. split; [exact S|reflexivity].
Qed.
Lemma in_values : forall pts a p q, edge pts p q -> straddles a (snd p) (snd q) = true ->
  In (level_value a (fst p) (fst q) (snd p) (snd q)) (values a pts).
Proof.
  induction pts as [|x pts IH]; intros a p q E S; [destruct (edge_nil p q E)|].
  apply edge_inv in E. destruct pts as [|y pts].
  - destruct E as [(_ & r & E)|E]; [discriminate E|destruct (edge_nil p q E)].
  - change (values a (x :: y :: pts)) with (if straddles a (snd x) (snd y) then level_value a (fst x) (fst y) (snd x) (snd y) :: values a (y :: pts) else values a (y :: pts)).
    destruct E as [(-> & r & E)|E].
    + injection E as -> ->. rewrite S. left. reflexivity.
    + assert (T := IH a p q E S). destruct (straddles a (snd x) (snd y)); [right|]; exact T.
Qed.
Lemma values_at_level : forall pts a v, In v (values a pts) -> at_level a pts v.
Proof.
  intros pts a v H. destruct (values_in pts a v H) as (p & q & E & S & ->). destruct (level_value_on a p q S) as (t & Ht & A).
  exists p, q, t. split; [exact E|]. split; [exact Ht|exact A].
Qed.
Lemma at_level_values : forall pts a r, at_level a pts r -> exists v, In v (values a pts) /\ r <= v /\
  ((forall p q, edge pts p q -> snd p = a -> snd q <> a) -> r = v).
Proof.
  intros pts a r (p & q & t & E & Ht & A).
  assert (S : straddles a (snd p) (snd q) = true).
  { apply straddles_reaches. exists t. split; [exact Ht|]. cbn [fst snd]. rewrite A. reflexivity. }
  exists (level_value a (fst p) (fst q) (snd p) (snd q)). split; [exact (in_values pts a p q E S)|].
  destruct (level_value_max a p q t r Ht A) as [L U]. split; [exact L|]. intro NH. apply U. intro EQ.
  assert (AY : snd p + t * (snd q - snd p) = a) by (unfold along in A; injection A; intros; assumption).
  assert (snd p = a) by (rewrite <- EQ in AY; lra). apply (NH p q E); [assumption|congruence].
Qed.
Lemma values_count : forall pts a, (forall l e1 e2 e3, ~ (reaches a e1 /\ reaches a e2 /\ reaches a e3 /\
    exists l1 l2 l3, edges_of pts = l ++ e1 :: l1 ++ e2 :: l2 ++ e3 :: l3)) -> (length (values a pts) <= 2)%nat.
Proof.
  intros pts a H.
  assert (G : forall n pts, (n <= length (values a pts))%nat -> exists es, length es = n /\ (forall e, In e es -> reaches a e) /\
     (fix sub (es l : list (point * point)) : Prop := match es with [] => True | e :: es' => exists l1 l2, l = l1 ++ e :: l2 /\ sub es' l2 end) es (edges_of pts)).
  { induction n as [|n IH]; intros ps L; [exists []; split; [reflexivity|]; split; [intros e []|exact I]|].
    induction ps as [|p ps IHp]; [cbn in L; lia|]. destruct ps as [|q ps]; [cbn in L; lia|].
    change (values a (p :: q :: ps)) with (if straddles a (snd p) (snd q) then level_value a (fst p) (fst q) (snd p) (snd q) :: values a (q :: ps) else values a (q :: ps)) in L.
    change (edges_of (p :: q :: ps)) with ((p, q) :: edges_of (q :: ps)).
    destruct (straddles a (snd p) (snd q)) eqn:S.
    - cbn [length] in L. destruct (IH (q :: ps)) as (es & Le & Re & Se); [lia|]. exists ((p, q) :: es). split; [cbn; lia|]. split.
      + intros e [<-|He]; [apply straddles_reaches; exact S|exact (Re e He)].
      + exists [], (edges_of (q :: ps)). split; [reflexivity|exact Se].
    - destruct (IHp L) as (es & Le & Re & Se). exists es. split; [exact Le|]. split; [exact Re|].
      destruct es as [|e es]; [exact I|]. destruct Se as (l1 & l2 & El & Se). exists ((p, q) :: l1), l2. split; [rewrite El; reflexivity|exact Se]. }
  destruct (Nat.le_gt_cases (length (values a pts)) 2) as [L|L]; [exact L|]. exfalso.
  destruct (G 3%nat pts L) as (es & Le & Re & Se). destruct es as [|e1 [|e2 [|e3 [|]]]]; try discriminate Le.
  destruct Se as (l & m1 & El & m2 & m3 & Em & m4 & m5 & Em' & _). subst m1 m3.
  apply (H l e1 e2 e3). split; [apply Re; left; reflexivity|]. split; [apply Re; right; left; reflexivity|].
  split; [apply Re; right; right; left; reflexivity|]. exists m2, m4, m5. exact El.
Qed.

Lemma extremes_spec : forall l v0, let (mx, mn) := extremes v0 l in
  (In mx (v0 :: l) /\ In mn (v0 :: l) /\ forall v, In v (v0 :: l) -> mn <= v <= mx).
Proof.
  intro l. unfold extremes.
  assert (G : forall l mx mn k, In mx k -> In mn k -> (forall v, In v k -> mn <= v <= mx) ->
    let (mx', mn') := fold_left (fun mm v => if Rlt_dec (fst mm) v then (v, snd mm) else if Rlt_dec v (snd mm) then (fst mm, v) else mm) l (mx, mn) in
    In mx' (k ++ l) /\ In mn' (k ++ l) /\ forall v, In v (k ++ l) -> mn' <= v <= mx').
  { clear l. induction l as [|v l IH]; intros mx mn k H1 H2 H3; [cbn; rewrite app_nil_r; auto|].
    cbn [fold_left fst snd]. replace (k ++ v :: l) with ((k ++ [v]) ++ l) by (rewrite <- app_assoc; reflexivity).
    assert (MM := H3 mx H1).
    destruct (Rlt_dec mx v) as [A|A]; [|destruct (Rlt_dec v mn) as [B|B]]; apply IH;
      try (apply in_or_app; (left; assumption) || (right; left; reflexivity));
      intros w Hw; apply in_app_or in Hw; destruct Hw as [Hw|[<-|[]]]; try (assert (W := H3 w Hw)); lra. }
  intro v0. apply (G l v0 v0 [v0]); [left; reflexivity|left; reflexivity|]. intros v [<-|[]]. lra.
Qed.
Lemma find_max_min_eq : forall a pts, pts <> [] -> find_max_min a pts =
  match firstn 2 (values a pts) with [] => Throw | v0 :: r => Ok (extremes v0 r) end.
Proof.
  intros a pts H. unfold find_max_min. destruct pts as [|p pts]; [contradiction|]. rewrite scan_values. reflexivity.
Qed.

(** The closing edge. *)
Lemma nth_last : forall (pts : list point) f d, nth_error (f :: pts) (length pts) = Some (last (f :: pts) d).
Proof.
  induction pts as [|q pts IH]; intros f d; [reflexivity|]. cbn [length nth_error]. rewrite (IH q d). reflexivity.
Qed.
Lemma closing_ub : forall a pts i acc f l, hd_error pts = Some f -> last pts f = l -> straddles a (snd l) (snd f) = true ->
  (length acc = 2%nat \/ i = (length pts - 1)%nat) -> closing_edge a pts i acc = UB.
Proof.
  intros a pts i acc f l Hf Hl S H. destruct pts as [|p pts]; [discriminate Hf|]. cbn in Hf. injection Hf as ->.
  unfold closing_edge, pt.
  assert (EL : nth_error (f :: pts) (length (f :: pts) - 1) = Some l).
  { rewrite <- Hl. cbn [length]. rewrite Nat.sub_succ, Nat.sub_0_r. apply nth_last. }
  rewrite EL. cbn [obind nth_error]. rewrite S.
  destruct H as [H|H].
  - destruct (nth_error (f :: pts) i); [|reflexivity]. cbn [obind]. destruct (nth_error (f :: pts) (i + 1)); [|reflexivity]. cbn [obind].
    unfold push. rewrite H. reflexivity.
  - destruct (nth_error (f :: pts) i); [|reflexivity]. cbn [obind].
    assert (E : nth_error (f :: pts) (i + 1) = None) by (apply nth_error_None; rewrite H; cbn [length]; lia).
    rewrite E. reflexivity.
Qed.
Lemma closing_ok : forall a pts i acc f l, hd_error pts = Some f -> last pts f = l -> straddles a (snd l) (snd f) = false ->
  closing_edge a pts i acc = Ok acc.
Proof.
  intros a pts i acc f l Hf Hl S. destruct pts as [|p pts]; [discriminate Hf|]. cbn in Hf. injection Hf as ->.
  unfold closing_edge, pt.
  assert (EL : nth_error (f :: pts) (length (f :: pts) - 1) = Some l).
  { rewrite <- Hl. cbn [length]. rewrite Nat.sub_succ, Nat.sub_0_r. apply nth_last. }
  rewrite EL. cbn [obind nth_error]. rewrite S. reflexivity.
Qed.
Lemma find_max_radius_eq : forall za pts f, hd_error pts = Some f ->
  find_max_radius za pts = if straddles za (snd (last pts f)) (snd f) then UB
    else match firstn 2 (values za pts) with [] => Throw | v0 :: r => Ok (extremes v0 r) end.
Proof.
  intros za pts f Hf. unfold find_max_radius. destruct pts as [|p pts]; [discriminate Hf|].
  destruct (scan za (p :: pts) 0 []) as [i acc] eqn:ES.
  assert (VA := scan_values (p :: pts) za 0 []). rewrite ES in VA. cbn [snd app length] in VA. rewrite Nat.max_l in VA by lia.
  destruct (straddles za (snd (last (p :: pts) f)) (snd f)) eqn:S.
  - rewrite (closing_ub za (p :: pts) i acc f _ Hf eq_refl S); [reflexivity|].
    destruct (Nat.lt_ge_cases (length acc) 2) as [L|L].
    + right. assert (I := scan_index (p :: pts) za 0 []). rewrite ES in I. cbn [fst snd] in I. rewrite (I L). lia.
    + left. assert (length acc <= 2)%nat by (rewrite VA; apply firstn_le_length). lia.
  - rewrite (closing_ok za (p :: pts) i acc f _ Hf eq_refl S). cbn [obind]. rewrite VA. reflexivity.
Qed.

(** * Lines in space *)
Definition cone_point (p q : point) (x1 y1 z1 x0 y0 z0 t : R) : Prop :=
  let '(x, y, z) := along3 x1 y1 z1 x0 y0 z0 t in on_cone p q x y z.
Lemma on_surface_cone : forall p q x y z, on_surface p q x y z -> on_cone p q x y z.
Proof.
  intros p q x y z (s & Hs & E). unfold to_rz, along in E. injection E as ER EZ. exists s. split; [lra|].
  rewrite <- ER. simpl. rewrite Rmult_1_r. rewrite sqrt_sqrt; [reflexivity|nra].
Qed.
Lemma cone_quadratic : forall p q x1 y1 z1 x0 y0 z0 t, snd q <> snd p ->
  let kz := (z0 - z1) * (1 / (snd q - snd p)) in let mz := (z1 - snd p) * (1 / (snd q - snd p)) in
  let a := x0 - x1 in let b := y0 - y1 in let c := (fst q - fst p) * kz in let m := fst p + mz * (fst q - fst p) in
  (cone_point p q x1 y1 z1 x0 y0 z0 t <-> (a * a + b * b - c * c) * (t * t) - 2 * (c * m - a * x1 - b * y1) * t = m * m - x1 * x1 - y1 * y1).
Proof.
  intros [xn zn] [xnp znp] x1 y1 z1 x0 y0 z0 t NZ kz mz a b c m. cbn [fst snd] in *.
  unfold cone_point, along3, on_cone. cbn [fst snd].
  assert (EQ : forall s, zn + s * (znp - zn) = z1 + t * (z0 - z1) -> xn + s * (xnp - xn) = m + c * t).
  { intros s Es. assert (s = mz + kz * t).
    { unfold mz, kz. apply (Rmult_eq_reg_r (znp - zn)); [|lra]. field_simplify; lra. }
    subst s. unfold m, c. ring. }
  split.
  - intros (s & Es & Er). rewrite (EQ s Es) in Er. unfold a, b in *. nra.
  - intro H. exists (mz + kz * t). assert (Es : zn + (mz + kz * t) * (znp - zn) = z1 + t * (z0 - z1)).
    { unfold mz, kz. field. lra. }
    split; [exact Es|]. rewrite (EQ _ Es). unfold a, b in *. nra.
Qed.
Lemma edge_hit_iff : forall p q x1 y1 z1 x0 y0 z0, snd q <> snd p ->
  (edge_hit (fst q) (snd q) (fst p) (snd p) x1 y1 z1 x0 y0 z0 = true <->
   same_slope p q x1 y1 z1 x0 y0 z0 \/ exists t, unit_interval t /\ cone_point p q x1 y1 z1 x0 y0 z0 t).
Proof.
  intros p q x1 y1 z1 x0 y0 z0 NZ. unfold edge_hit.
  destruct (Reqb (snd q) (snd p)) eqn:EZ; [apply Reqb_iff in EZ; contradiction|].
  assert (CQ := cone_quadratic p q x1 y1 z1 x0 y0 z0). cbv zeta in CQ.
  set (kz := (z0 - z1) * (1 / (snd q - snd p))) in *. set (mz := (z1 - snd p) * (1 / (snd q - snd p))) in *.
  set (a := x0 - x1) in *. set (b := y0 - y1) in *. set (c := (fst q - fst p) * kz) in *. set (m := fst p + mz * (fst q - fst p)) in *.
  set (abc := a * a + b * b - c * c) in *.
  assert (SS : same_slope p q x1 y1 z1 x0 y0 z0 <-> abc = 0).
  { unfold same_slope, abc, c, kz. fold a b.
    assert (K : (fst q - fst p) * ((z0 - z1) * (1 / (snd q - snd p))) = ((fst q - fst p) * (z0 - z1)) / (snd q - snd p)) by (field; lra).
    rewrite K. set (g := (fst q - fst p) * (z0 - z1)). set (d := snd q - snd p) in *. assert (D : d <> 0) by (unfold d; lra). split.
    - intro H. assert (E : a * a + b * b = g ^ 2 / d ^ 2).
      { apply (Rmult_eq_reg_r (d ^ 2)); [|apply pow_nonzero; exact D]. rewrite H. field. exact D. }
      rewrite E. field. exact D.
    - intro H. assert (E : a * a + b * b = g / d * (g / d)) by lra. rewrite E. field. exact D. }
  destruct (Reqb abc 0) eqn:E0.
  { apply Reqb_iff in E0. split; [intros _; left; apply SS; exact E0|reflexivity]. }
  apply Reqb_false in E0.
  set (term := (c * m - a * x1 - b * y1) * (1 / abc)). set (qq := (m * m - x1 * x1 - y1 * y1) * (1 / abc)).
  assert (T1 : c * m - a * x1 - b * y1 = term * abc) by (unfold term; field; exact E0).
  assert (T2 : m * m - x1 * x1 - y1 * y1 = qq * abc) by (unfold qq; field; exact E0).
  assert (Q : forall t, cone_point p q x1 y1 z1 x0 y0 z0 t <-> (t - term) * (t - term) = term * term + qq).
  { intro t. rewrite (CQ t NZ). rewrite T1, T2. split.
    - intro H. apply (Rmult_eq_reg_r abc); [|exact E0]. lra.
    - intro H. assert (H2 : (t - term) * (t - term) * abc = (term * term + qq) * abc) by (rewrite H; reflexivity). lra. }
  destruct (Rltb (term * term + qq) 0) eqn:EN.
  { apply Rltb_iff in EN. split; [discriminate|]. intros [S|(t & _ & C)]; [exfalso; apply E0, SS, S|]. apply Q in C.
    assert (P := Rle_0_sqr (t - term)). unfold Rsqr in P. rewrite C in P. lra. }
  assert (NN : 0 <= term * term + qq). { destruct (Rle_lt_dec 0 (term * term + qq)) as [L|L]; [exact L|]. apply Rltb_iff in L. rewrite L in EN. discriminate EN. }
  set (sq := sqrt (term * term + qq)) in *. assert (SQ : sq * sq = term * term + qq) by (apply sqrt_sqrt; exact NN).
  rewrite Bool.orb_true_iff, !Bool.andb_true_iff, !Rleb_iff. split.
  - intros [H|H]; right.
    + exists (term + sq). split; [exact H|]. apply Q. rewrite <- SQ. ring.
    + exists (term - sq). split; [exact H|]. apply Q. rewrite <- SQ. ring.
  - intros [S|(t & Ht & C)]; [exfalso; apply E0, SS, S|]. apply Q in C. rewrite <- SQ in C.
    assert (F : (t - term - sq) * (t - term + sq) = 0) by lra. apply Rmult_integral in F. unfold unit_interval in Ht. destruct F as [F|F]; [left|right]; lra.
Qed.
(** Horizontal edges at positive radii are never hit. *)
Lemma edge_hit_horizontal : forall p q x1 y1 z1 x0 y0 z0, snd q = snd p -> 0 < fst p -> 0 < fst q ->
  edge_hit (fst q) (snd q) (fst p) (snd p) x1 y1 z1 x0 y0 z0 = false.
Proof.
  intros p q x1 y1 z1 x0 y0 z0 EZ Hp Hq. unfold edge_hit.
  assert (E : Reqb (snd q) (snd p) = true) by (apply Reqb_iff; exact EZ). rewrite E.
  destruct (Reqb z0 z1); [reflexivity|]. destruct (Reqb (fst p - fst q) 0) eqn:E0; [reflexivity|]. apply Reqb_false in E0.
  set (sqr := sqrt _). assert (S0 : 0 <= sqr) by (apply sqrt_pos).
  destruct (Rleb 0 (1 / (fst p - fst q) * (fst p + sqr)) && Rleb (1 / (fst p - fst q) * (fst p + sqr)) 1)%bool eqn:EB; [|reflexivity].
  exfalso. apply Bool.andb_true_iff in EB. rewrite !Rleb_iff in EB. destruct EB as [B1 B2].
  assert (V : 1 / (fst p - fst q) * (fst p + sqr) * (fst p - fst q) = fst p + sqr) by (field; exact E0).
  set (w := 1 / (fst p - fst q) * (fst p + sqr)) in *. nra.
Qed.

Lemma edge_counts_skip_z : forall ra outer p q x0 y0 z0 x1 y1 z1 t, unit_interval t ->
  Rmin (snd p) (snd q) <= z1 + t * (z0 - z1) <= Rmax (snd p) (snd q) ->
  ~ (outer = false /\ ra < fst p /\ ra < fst q) ->
  edge_counts ra outer p q x0 y0 z0 x1 y1 z1 = edge_hit (fst q) (snd q) (fst p) (snd p) x1 y1 z1 x0 y0 z0.
Proof.
  intros ra outer p q x0 y0 z0 x1 y1 z1 t [T0 T1] Z NO. unfold edge_counts.
  destruct (negb outer && Rltb ra (fst p) && Rltb ra (fst q))%bool eqn:EO.
  { exfalso. apply NO. rewrite !Bool.andb_true_iff, !Rltb_iff in EO. destruct outer; cbn in EO; [destruct EO as [[EO _] _]; discriminate EO|tauto]. }
  match goal with |- (if ?b then _ else _) = _ => destruct b eqn:EB; [|reflexivity] end.
  exfalso. rewrite Bool.orb_true_iff, !Bool.andb_true_iff, !Rltb_iff in EB. unfold Rmin, Rmax in Z.
  assert (LB : forall u, u < z1 -> u < z0 -> u < z1 + t * (z0 - z1)).
  { intros u A B. destruct (Rle_lt_dec z0 z1); [|nra]. assert (0 <= (1 - t) * (z1 - z0)) by (apply Rmult_le_pos; lra). lra. }
  assert (UB' : forall u, z1 < u -> z0 < u -> z1 + t * (z0 - z1) < u).
  { intros u A B. destruct (Rle_lt_dec z0 z1); [nra|]. assert (0 <= (1 - t) * (z0 - z1)) by (apply Rmult_le_pos; lra). lra. }
  destruct EB as [[[[A B] C] D]|[[[A B] C] D]].
  - assert (F := LB (snd p) A C). assert (G := LB (snd q) B D). destruct (Rle_dec (snd p) (snd q)); lra.
  - assert (F := UB' (snd p) A C). assert (G := UB' (snd q) B D). destruct (Rle_dec (snd p) (snd q)); lra.
Qed.

Lemma edges_hit_iff : forall pts ra outer first x0 y0 z0 x1 y1 z1,
  edges_hit ra outer first pts x0 y0 z0 x1 y1 z1 = true <->
  exists p q, (edge pts p q \/ (exists l, pts = l ++ [p]) /\ q = first) /\ edge_counts ra outer p q x0 y0 z0 x1 y1 z1 = true.
Proof.
  induction pts as [|p pts IH]; intros ra outer first x0 y0 z0 x1 y1 z1.
  - split; [discriminate|]. intros (p & q & [E|((l & E) & _)] & _); [destruct (edge_nil p q E)|destruct l; discriminate E].
  - cbn [edges_hit]. rewrite Bool.orb_true_iff, IH. split.
    + intros [H|(a & b & [E|((l & E) & Eq)] & H)].
      * exists p. destruct pts as [|q pts]; [exists first|exists q]; (split; [|exact H]).
        -- right. split; [exists []; reflexivity|reflexivity].
        -- left. apply edge_cons.
      * exists a, b. split; [left; apply edge_tail; exact E|exact H].
      * exists a, b. split; [right; split; [exists (p :: l); rewrite E; reflexivity|exact Eq]|exact H].
    + intros (a & b & [E|((l & E) & Eq)] & H).
      * apply edge_inv in E. destruct E as [(-> & r & ->)|E]; [left; exact H|right; exists a, b; split; [left; exact E|exact H]].
      * destruct l as [|y l]; cbn in E.
        -- injection E as -> ->. left. subst b. exact H.
        -- injection E as -> ->. right. exists a, b. split; [right; split; [exists l; reflexivity|exact Eq]|exact H].
Qed.
Lemma intersects_iff : forall pts ra outer x0 y0 z0 x1 y1 z1,
  intersects_domain ra pts x0 y0 z0 x1 y1 z1 outer = true <->
  exists p q, closed_edge pts p q /\ edge_counts ra outer p q x0 y0 z0 x1 y1 z1 = true.
Proof.
  intros pts ra outer x0 y0 z0 x1 y1 z1. unfold intersects_domain. destruct pts as [|first pts].
  - split; [discriminate|]. intros (p & q & [E|((l & E) & _)] & _); [destruct (edge_nil p q E)|destruct l; discriminate E].
  - rewrite edges_hit_iff. split.
    + intros (p & q & [E|(E & ->)] & H); exists p; [exists q|exists first]; (split; [|exact H]); [left; exact E|right; split; [exact E|exists pts; reflexivity]].
    + intros (p & q & [E|(E & (r & Er))] & H); exists p, q; (split; [|exact H]); [left; exact E|right; split; [exact E|congruence]].
Qed.

(** Rotation about the z axis. *)
Lemma edge_hit_rotate : forall u v xnp znp xn zn x1 y1 z1 x0 y0 z0, u * u + v * v = 1 ->
  edge_hit xnp znp xn zn (u * x1 - v * y1) (v * x1 + u * y1) z1 (u * x0 - v * y0) (v * x0 + u * y0) z0 =
  edge_hit xnp znp xn zn x1 y1 z1 x0 y0 z0.
Proof.
  intros u v xnp znp xn zn x1 y1 z1 x0 y0 z0 H. unfold edge_hit.
  set (t := (zn - z1) / (z0 - z1)).
  replace (((u * x1 - v * y1) + ((u * x0 - v * y0) - (u * x1 - v * y1)) * t) * ((u * x1 - v * y1) + ((u * x0 - v * y0) - (u * x1 - v * y1)) * t) +
           ((v * x1 + u * y1) + ((v * x0 + u * y0) - (v * x1 + u * y1)) * t) * ((v * x1 + u * y1) + ((v * x0 + u * y0) - (v * x1 + u * y1)) * t))
    with ((x1 + (x0 - x1) * t) * (x1 + (x0 - x1) * t) + (y1 + (y0 - y1) * t) * (y1 + (y0 - y1) * t)).
  2:{ transitivity ((u * u + v * v) * ((x1 + (x0 - x1) * t) * (x1 + (x0 - x1) * t) + (y1 + (y0 - y1) * t) * (y1 + (y0 - y1) * t))); [rewrite H; ring|ring]. }
  cbv zeta.
  replace ((u * x0 - v * y0 - (u * x1 - v * y1)) * (u * x0 - v * y0 - (u * x1 - v * y1)) + (v * x0 + u * y0 - (v * x1 + u * y1)) * (v * x0 + u * y0 - (v * x1 + u * y1)))
    with ((x0 - x1) * (x0 - x1) + (y0 - y1) * (y0 - y1)).
  2:{ transitivity ((u * u + v * v) * ((x0 - x1) * (x0 - x1) + (y0 - y1) * (y0 - y1))); [rewrite H; ring|ring]. }
  set (w := (xnp - xn) * ((z0 - z1) * (1 / (znp - zn))) * (xn + (z1 - zn) * (1 / (znp - zn)) * (xnp - xn))).
  replace (w - (u * x0 - v * y0 - (u * x1 - v * y1)) * (u * x1 - v * y1) - (v * x0 + u * y0 - (v * x1 + u * y1)) * (v * x1 + u * y1))
    with (w - (x0 - x1) * x1 - (y0 - y1) * y1).
  2:{ transitivity (w - (u * u + v * v) * ((x0 - x1) * x1 + (y0 - y1) * y1)); [rewrite H; ring|ring]. }
  set (m2 := (xn + (z1 - zn) * (1 / (znp - zn)) * (xnp - xn)) * (xn + (z1 - zn) * (1 / (znp - zn)) * (xnp - xn))).
  replace (m2 - (u * x1 - v * y1) * (u * x1 - v * y1) - (v * x1 + u * y1) * (v * x1 + u * y1)) with (m2 - x1 * x1 - y1 * y1).
  2:{ transitivity (m2 - (u * u + v * v) * (x1 * x1 + y1 * y1)); [rewrite H; ring|ring]. }
  reflexivity.
Qed.
Lemma intersects_rotate : forall u v ra pts x0 y0 z0 x1 y1 z1 outer, u * u + v * v = 1 ->
  intersects_domain ra pts (u * x0 - v * y0) (v * x0 + u * y0) z0 (u * x1 - v * y1) (v * x1 + u * y1) z1 outer =
  intersects_domain ra pts x0 y0 z0 x1 y1 z1 outer.
Proof.
  intros u v ra pts x0 y0 z0 x1 y1 z1 outer H. unfold intersects_domain. destruct pts as [|first pts]; [reflexivity|].
  generalize (first :: pts). induction l as [|p l IH]; [reflexivity|]. cbn [edges_hit]. rewrite IH. f_equal.
  unfold edge_counts. rewrite edge_hit_rotate by exact H. reflexivity.
Qed.

(** * The domain of an object and its bounding box *)
Lemma history_box : forall cs f b l, d_bounds f = Some b -> history f cs = Ok l -> forall d b', In (d, b') l -> b' = b.
Proof.
  induction cs as [|c cs IH]; intros f b l HB H d b' I; [injection H as <-; destruct I|].
  destruct c as [pts| | |]; cbn [history] in H.
  - unfold set_domain in H. destruct (find_max_radius _ pts) as [[mx mn]| |]; try discriminate H;
      (eapply IH; [|exact H|exact I]; exact HB).
  - unfold get_bounds in H. rewrite HB in H. destruct (history f cs) as [l'| |] eqn:E; try discriminate H. injection H as <-.
    destruct I as [I|I]; [congruence|eapply IH; eassumption].
  - unfold get_max_radius in H. destruct (Rlt_dec 0 (d_max f)); [eapply IH; eassumption|].
    destruct (find_max_radius _ _) as [mm| |]; cbn [obind] in H; try discriminate H; (eapply IH; [|exact H|exact I]; exact HB).
  - unfold get_min_radius in H. destruct (Rle_dec 0 (d_min f)); [eapply IH; eassumption|].
    destruct (find_max_radius _ _) as [mm| |]; cbn [obind] in H; try discriminate H; (eapply IH; [|exact H|exact I]; exact HB).
Qed.
Lemma history_first : forall cs f l, d_bounds f = None -> history f cs = Ok l ->
  match l with
  | [] => True
  | (d0, b0) :: rest => exists pts, d0 = Some pts /\ smallest_box (d_axis f :: pts) b0 /\ forall d b, In (d, b) rest -> b = b0
  end.
Proof.
  induction cs as [|c cs IH]; intros f l HB H; [injection H as <-; exact I|].
  destruct c as [pts| | |]; cbn [history] in H.
  - unfold set_domain in H. destruct (find_max_radius _ pts) as [[mx mn]| |]; try discriminate H.
    + apply IH in H; [exact H|exact HB].
    + apply IH in H; [exact H|exact HB].
  - destruct (d_pts f) as [pts|] eqn:EP; [|unfold get_bounds in H; rewrite HB, EP in H; discriminate H].
    destruct (bounds_fresh f pts HB EP) as (b & G & S). rewrite G in H.
    destruct (history _ cs) as [l'| |] eqn:E; try discriminate H. injection H as <-.
    exists pts. split; [reflexivity|]. split; [exact S|]. intros d b' I. eapply history_box; [|exact E|exact I]. reflexivity.
  - unfold get_max_radius in H. destruct (Rlt_dec 0 (d_max f)); [apply IH in H; [exact H|exact HB]|].
    destruct (find_max_radius _ _) as [mm| |]; cbn [obind] in H; try discriminate H; apply IH in H; [exact H|exact HB|exact H|exact HB].
  - unfold get_min_radius in H. destruct (Rle_dec 0 (d_min f)); [apply IH in H; [exact H|exact HB]|].
    destruct (find_max_radius _ _) as [mm| |]; cbn [obind] in H; try discriminate H; apply IH in H; [exact H|exact HB|exact H|exact HB].
Qed.

(** * Values at a level *)
Lemma edges_of_app : forall l x r, edges_of (l ++ x :: r) = edges_of (l ++ [x]) ++ edges_of (x :: r).
Proof.
  induction l as [|y l IH]; intros x r; [reflexivity|]. destruct l as [|w l]; [reflexivity|].
  change (edges_of ((y :: w :: l) ++ x :: r)) with ((y, w) :: edges_of ((w :: l) ++ x :: r)).
  change (edges_of ((y :: w :: l) ++ [x])) with ((y, w) :: edges_of ((w :: l) ++ [x])). rewrite IH. reflexivity.
Qed.
Lemma two_count : forall pts a, at_most_two_reach a pts -> (length (values a pts) <= 2)%nat.
Proof.
  intros pts a H. apply values_count. intros l e1 e2 e3 (R1 & R2 & R3 & l1 & l2 & l3 & E). eapply H; [exact E|]. tauto.
Qed.
Lemma two_no_flat : forall pts a f, hd_error pts = Some f -> at_most_two_reach a pts -> ~ reaches a (last pts f, f) ->
  forall p q, edge pts p q -> snd p = a -> snd q <> a.
Proof.
  intros pts a f HF H2 NR p q (l & r & E) Ep Eq.
  assert (RR : forall x y, snd x = a \/ snd y = a -> reaches a (x, y)).
  { intros x y [Hx|Hy]; [exists 0|exists 1]; (split; [unfold unit_interval; lra|]); cbn; lra. }
  destruct (rev l) as [|x l'] eqn:EL.
  { apply (f_equal (@rev point)) in EL. rewrite rev_involutive in EL. cbn in EL. subst l. cbn in E. rewrite E in HF. injection HF as <-.
    apply NR, RR. right. exact Ep. }
  apply (f_equal (@rev point)) in EL. rewrite rev_involutive in EL. cbn in EL. rewrite EL in E.
  destruct r as [|y r].
  { apply NR, RR. left. rewrite E. change [p; q] with ([p] ++ [q]). rewrite app_assoc, last_last. exact Eq. }
  eapply (H2 _ (x, p) [] (p, q) [] (q, y)).
  - rewrite E. rewrite <- app_assoc. cbn [app]. rewrite edges_of_app. cbn [edges_of]. reflexivity.
  - repeat split; apply RR; tauto.
Qed.
