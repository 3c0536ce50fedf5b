(** Properties C43-C46 and C77: the domain (wall) of a magnetic field. *)
From Coq Require Import Reals Lra.
From Verif Require Import Base DomainModel DomainSpec DomainProofs.
Local Open Scope R_scope.

(** Decide comparisons of literals. *)
Ltac decide_reals :=
  repeat match goal with
  | |- context [Rle_dec ?x ?y] => destruct (Rle_dec x y); [|exfalso; lra] || (destruct (Rle_dec x y); [exfalso; lra|])
  | |- context [Rlt_dec ?x ?y] => destruct (Rlt_dec x y); [|exfalso; lra] || (destruct (Rlt_dec x y); [exfalso; lra|])
  | |- context [Req_EM_T ?x ?y] => destruct (Req_EM_T x y); [|exfalso; lra] || (destruct (Req_EM_T x y); [exfalso; lra|])
  end.
Ltac no_edges := match goal with H : In _ _ |- _ => cbn [edges_of In] in H end.

(** * C43 *)
Theorem C43_bounds : forall f pts, d_bounds f = None -> d_pts f = Some pts ->
  exists b f', get_bounds f = Ok (b, f') /\ smallest_box (d_axis f :: pts) b /\ d_pts f' = Some pts /\ get_bounds f' = Ok (b, f').
Proof.
  intros f pts HB HP. destruct (bounds_fresh f pts HB HP) as (b & G & S). exists b. eexists. split; [exact G|]. split; [exact S|].
  split; [exact HP|]. reflexivity.
Qed.
Print Assumptions C43_bounds.
(** Over all histories of calls: the first GetDomainBounds gives the smallest box around the
    axis and the domain of that moment, and every later one gives the same box. *)
Theorem C43_history : forall cs axis l, history (new_field axis) cs = Ok l ->
  match l with
  | [] => True
  | (d0, b0) :: rest => exists pts, d0 = Some pts /\ smallest_box (axis :: pts) b0 /\ forall d b, In (d, b) rest -> b = b0
  end.
Proof. intros cs axis l H. exact (history_first cs (new_field axis) l eq_refl H). Qed.
Print Assumptions C43_history.
Lemma smallest_box_unique : forall l b b', smallest_box l b -> smallest_box l b' -> b = b'.
Proof.
  assert (W : forall l b b', smallest_box l b -> smallest_box l b' ->
    b_rmin b <= b_rmin b' /\ b_rmax b' <= b_rmax b /\ b_zmin b <= b_zmin b' /\ b_zmax b' <= b_zmax b).
  { intros l b b' (A & _) (_ & (p1 & I1 & E1) & (p2 & I2 & E2) & (p3 & I3 & E3) & (p4 & I4 & E4)).
    apply A in I1, I2, I3, I4. unfold inside in *. lra. }
  intros l b b' H H'. assert (W1 := W l b b' H H'). assert (W2 := W l b' b H' H). destruct b, b'. cbn in *. f_equal; lra.
Qed.
(** As long as the domain is not replaced, every call gives the smallest box. *)
Theorem C43_unchanged_domain : forall cs axis l, history (new_field axis) cs = Ok l ->
  forall d b pts, In (Some pts, b) l -> (forall d' b', In (d', b') l -> d' = Some pts) -> In (d, b) l -> smallest_box (axis :: pts) b.
Proof.
  intros cs axis l H d b pts I U I2. apply C43_history in H. destruct l as [|[d0 b0] rest]; [destruct I|].
  destruct H as (pts0 & -> & S & R0). assert (E : Some pts0 = Some pts) by (apply (U _ b0); left; reflexivity). injection E as ->.
  destruct I as [E|I]; [congruence|]. rewrite (R0 _ _ I). exact S.
Qed.
Print Assumptions C43_unchanged_domain.
(** Example contours: triangles around (2, 0). *)
Definition triangle_wall (m : R) : list point := [(1, -1); (m, -1); (2, 2); (1, -1)].
Lemma triangle_radii : forall m, find_max_radius 0 (triangle_wall m) = Ok (extremes (m + (2 - m) * (0 - -1) / (2 - -1)) [2 + (1 - 2) * (0 - 2) / (-1 - 2)]).
Proof.
  intro m. rewrite (find_max_radius_eq _ _ (1, -1)) by reflexivity. unfold triangle_wall. cbn [last fst snd values].
  unfold straddles, level_value, Rleb, Reqb. decide_reals. cbn [andb orb firstn]. reflexivity.
Qed.
(** After SetDomain replaced the domain, GetDomainBounds still gives the old box. *)
Theorem C43_stale_refuted : ~ (forall cs axis l, history (new_field axis) cs = Ok l ->
  forall pts b, In (Some pts, b) l -> smallest_box (axis :: pts) b).
Proof.
  intro H.
  assert (E : exists b b', history (new_field (2, 0)) [SetDomain (triangle_wall 3); GetDomainBounds; SetDomain (triangle_wall 9); GetDomainBounds] =
    Ok [(Some (triangle_wall 3), b); (Some (triangle_wall 9), b')]).
  { cbn [history]. unfold set_domain at 1. cbn [new_field d_axis d_max d_min d_bounds snd]. rewrite triangle_radii.
    destruct (extremes _ _) as [mx mn]. unfold get_bounds at 1. cbn [d_bounds d_pts d_axis fst snd d_max d_min].
    unfold set_domain. cbn [d_axis d_max d_min d_bounds snd]. rewrite triangle_radii. destruct (extremes _ _) as [mx' mn'].
    unfold get_bounds. cbn [d_bounds d_pts obind]. eexists. eexists. reflexivity. }
  destruct E as (b & b' & E). assert (HH := C43_history _ _ _ E). destruct HH as (pts & _ & _ & R0).
  assert (EB : b' = b) by (apply (R0 (Some (triangle_wall 9))); left; reflexivity). subst b'.
  assert (S3 := H _ _ _ E (triangle_wall 3) b (or_introl eq_refl)). assert (S9 := H _ _ _ E (triangle_wall 9) b (or_intror (or_introl eq_refl))).
  destruct S9 as (A & _). destruct S3 as (_ & _ & (p & I & Ep) & _).
  assert (B : inside b (9, -1)) by (apply A; right; right; left; reflexivity). unfold inside in B. cbn [fst snd] in B.
  unfold triangle_wall in I. cbn [In] in I. destruct I as [I|[I|[I|[I|[I|[]]]]]]; subst p; cbn [fst] in Ep; lra.
Qed.
Print Assumptions C43_stale_refuted.
(** A box that is not degenerate. *)
Example C43_example : exists f, get_bounds (Field (2, 0) (Some (triangle_wall 3)) (-1) (-1) None) = Ok (Box 1 3 (-1) 2, f).
Proof.
  unfold get_bounds, triangle_wall. cbn [d_bounds d_pts d_axis fold_left fst snd].
  eexists. assert (G : grow (grow (grow (grow (Box 2 2 0 0) (1, -1)) (3, -1)) (2, 2)) (1, -1) = Box 1 3 (-1) 2).
  { unfold grow at 4. cbn [fst snd b_rmin b_rmax b_zmin b_zmax]. decide_reals. unfold grow at 3. cbn [fst snd b_rmin b_rmax b_zmin b_zmax]. decide_reals.
    unfold grow at 2. cbn [fst snd b_rmin b_rmax b_zmin b_zmax]. decide_reals. unfold grow. cbn [fst snd b_rmin b_rmax b_zmin b_zmax]. decide_reals. reflexivity. }
  rewrite G. reflexivity.
Qed.

(** * C44 *)
(** When CrossesDomain is true. *)
Theorem C44_exact : forall pts x1 y1 z1 x2 y2 z2, pts <> [] ->
  (crosses_domain pts x1 y1 z1 x2 y2 z2 = Ok true <->
   exists p q, edge pts p q /\ p <> to_rz x1 y1 z1 /\
     (parallel p q (to_rz x1 y1 z1) (to_rz x2 y2 z2) \/ segments_meet (to_rz x1 y1 z1) (to_rz x2 y2 z2) p q)) /\
  (crosses_domain pts x1 y1 z1 x2 y2 z2 = Ok true \/ crosses_domain pts x1 y1 z1 x2 y2 z2 = Ok false).
Proof. exact crosses_iff. Qed.
Print Assumptions C44_exact.
(** No crossing is missed if the segment does not start in a point of the contour. *)
Theorem C44_never_missed : forall pts x1 y1 z1 x2 y2 z2 p q, edge pts p q -> ~ In (to_rz x1 y1 z1) pts ->
  segments_meet (to_rz x1 y1 z1) (to_rz x2 y2 z2) p q -> crosses_domain pts x1 y1 z1 x2 y2 z2 = Ok true.
Proof.
  intros pts x1 y1 z1 x2 y2 z2 p q E NI M. destruct (crosses_iff pts x1 y1 z1 x2 y2 z2) as [I _].
  { destruct E as (l & r & E). rewrite E. destruct l; discriminate. }
  apply I. exists p, q. split; [exact E|]. split; [|right; exact M]. intro EP. apply NI. rewrite <- EP. destruct E as (l & r & ->).
  apply in_or_app. right. left. reflexivity.
Qed.
Print Assumptions C44_never_missed.
(** From the magnetic axis: a contour that lies beyond the axis. *)
Lemma to_rz_plane : forall x z, 0 <= x -> to_rz x 0 z = (x, z).
Proof. intros x z H. unfold to_rz. f_equal. replace (x * x + 0 * 0) with (x * x) by ring. apply sqrt_square. exact H. Qed.
Theorem C44_axis : forall axis pts x y z, pts <> [] -> 0 <= fst axis ->
  (crosses_domain_axis axis pts x y z = Ok true <->
   exists p q, edge pts p q /\ p <> axis /\ (parallel p q axis (to_rz x y z) \/ segments_meet axis (to_rz x y z) p q)) /\
  (crosses_domain_axis axis pts x y z = Ok true \/ crosses_domain_axis axis pts x y z = Ok false).
Proof.
  intros axis pts x y z NE HA. unfold crosses_domain_axis. assert (H := crosses_iff pts (fst axis) 0 (snd axis) x y z NE).
  rewrite (to_rz_plane _ _ HA) in H. destruct axis as [ra za]. exact H.
Qed.
Print Assumptions C44_axis.
(** Only the distance from the symmetry axis matters, not the toroidal angle. *)
Theorem C44_axisymmetric : forall pts x1 y1 z1 x2 y2 z2 u v u' v', u * u + v * v = 1 -> u' * u' + v' * v' = 1 ->
  crosses_domain pts (u * x1 - v * y1) (v * x1 + u * y1) z1 (u' * x2 - v' * y2) (v' * x2 + u' * y2) z2 =
  crosses_domain pts x1 y1 z1 x2 y2 z2.
Proof.
  assert (R : forall u v x y, u * u + v * v = 1 -> hypot (u * x - v * y) (v * x + u * y) = hypot x y).
  { intros u v x y H. unfold hypot. f_equal. transitivity ((u * u + v * v) * (x * x + y * y)); [ring|rewrite H; ring]. }
  intros pts x1 y1 z1 x2 y2 z2 u v u' v' H H'. unfold crosses_domain. rewrite !R by assumption. reflexivity.
Qed.
Print Assumptions C44_axisymmetric.
Theorem C44_no_domain : forall x1 y1 z1 x2 y2 z2, crosses_domain [] x1 y1 z1 x2 y2 z2 = UB.
Proof. reflexivity. Qed.
Print Assumptions C44_no_domain.
(** A point inside a square, at the height of the axis, is reported as outside: the upper and
    lower edges are parallel to the segment. *)
Definition square_wall : list point := [(1, -1); (3, -1); (3, 1); (1, 1); (1, -1)].
Theorem C44_parallel_refuted :
  crosses_domain_axis (2, 0) square_wall (5/2) 0 0 = Ok true /\
  (forall p q, edge square_wall p q -> ~ segments_meet (2, 0) (to_rz (5/2) 0 0) p q).
Proof.
  split.
  - apply C44_axis; [discriminate|cbn; lra|]. exists (1, -1), (3, -1). split; [apply edge_cons|]. split; [intro E; injection E; lra|].
    left. rewrite to_rz_plane by lra. unfold parallel. cbn [fst snd]. lra.
  - intros p q E (t & s & Ht & Hs & M). rewrite to_rz_plane in M by lra. apply edges_of_iff in E. unfold square_wall in E. cbn [edges_of In] in E.
    unfold unit_interval, along in *. destruct E as [E|[E|[E|[E|[]]]]]; injection E as <- <-; cbn [fst snd] in M; injection M as M1 M2; lra.
Qed.
Print Assumptions C44_parallel_refuted.
(** The edge from the last point to the first is not examined. *)
Definition open_wall : list point := [(1, -1); (3, -1); (2, 2)].
Theorem C44_open_refuted :
  crosses_domain_axis (2, 0) open_wall (1/2) 0 (3/10) = Ok false /\
  segments_meet (2, 0) (to_rz (1/2) 0 (3/10)) (2, 2) (1, -1).
Proof.
  split.
  - destruct (C44_axis (2, 0) open_wall (1/2) 0 (3/10)) as [I [H|H]]; [discriminate|cbn; lra| |exact H].
    exfalso. apply I in H. destruct H as (p & q & E & _ & M). rewrite to_rz_plane in M by lra.
    apply edges_of_iff in E. unfold open_wall in E. cbn [edges_of In] in E.
    destruct E as [E|[E|[]]]; injection E as <- <-; (destruct M as [M|(t & s & Ht & Hs & M)]; [unfold parallel in M; cbn [fst snd] in M; lra|]);
      unfold unit_interval, along in *; cbn [fst snd] in M; injection M as M1 M2; lra.
  - rewrite to_rz_plane by lra. exists (5/12), (5/8). unfold unit_interval, along. cbn [fst snd].
    split; [lra|]. split; [lra|]. f_equal; lra.
Qed.
Print Assumptions C44_open_refuted.
Example C44_example : crosses_domain_axis (2, 0) square_wall 4 0 (1/2) = Ok true /\ ~ In (to_rz 2 0 0) square_wall /\
  segments_meet (to_rz 2 0 0) (to_rz 4 0 (1/2)) (3, -1) (3, 1).
Proof.
  rewrite !to_rz_plane by lra.
  assert (NI : ~ In (2, 0) square_wall). { unfold square_wall. cbn [In]. intros [E|[E|[E|[E|[E|[]]]]]]; injection E; lra. }
  assert (M : segments_meet (2, 0) (4, 1/2) (3, -1) (3, 1)).
  { exists (1/2), (5/8). unfold unit_interval, along. cbn [fst snd]. split; [lra|]. split; [lra|]. f_equal; lra. }
  split; [|split; assumption]. unfold crosses_domain_axis. cbn [fst snd].
  apply (C44_never_missed square_wall 2 0 0 4 0 (1/2) (3, -1) (3, 1)); [exists [(1, -1)], [(1, 1); (1, -1)]; reflexivity| |]; rewrite !to_rz_plane by lra; assumption.
Qed.

(** * C45 *)
(** FindMaxRadius stays inside its arrays exactly if the closing edge does not reach the
    height of the magnetic axis. *)
Theorem C45_defined : forall za pts,
  find_max_radius za pts <> UB <-> exists f, hd_error pts = Some f /\ ~ reaches za (last pts f, f).
Proof.
  intros za pts. destruct pts as [|f pts].
  { split; [intro H; contradiction H; reflexivity|intros (f & E & _); discriminate E]. }
  rewrite (find_max_radius_eq za (f :: pts) f) by reflexivity. destruct (straddles za _ _) eqn:ES.
  - split; [intro H; contradiction H; reflexivity|]. intros (g & E & N). injection E as <-. exfalso. apply N. apply straddles_reaches. exact ES.
  - split.
    + intros _. exists f. split; [reflexivity|]. intro R. apply straddles_reaches in R. congruence.
    + intros _. destruct (firstn 2 (values za (f :: pts))); discriminate.
Qed.
Print Assumptions C45_defined.
(** When it is defined, it throws exactly if the contour does not reach that height; *)
Theorem C45_throws : forall za pts, find_max_radius za pts <> UB ->
  (find_max_radius za pts = Throw <-> forall r, ~ at_level za pts r).
Proof.
  intros za pts ND. destruct pts as [|f pts]; [contradiction ND; reflexivity|].
  rewrite (find_max_radius_eq za (f :: pts) f) in * by reflexivity. destruct (straddles za _ _); [contradiction ND; reflexivity|].
  destruct (values za (f :: pts)) as [|v l] eqn:EV.
  - split; [|reflexivity]. intros _ r A. destruct (at_level_values _ _ _ A) as (v & I & _). rewrite EV in I. destruct I.
  - split; [discriminate|]. intro N. exfalso. apply (N v). apply values_at_level. rewrite EV. left. reflexivity.
Qed.
Print Assumptions C45_throws.
(** the radii that it gives belong to the contour; *)
Theorem C45_on_contour : forall za pts mx mn, find_max_radius za pts = Ok (mx, mn) ->
  at_level za pts mx /\ at_level za pts mn /\ mn <= mx.
Proof.
  intros za pts mx mn H. destruct pts as [|f pts]; [discriminate H|].
  rewrite (find_max_radius_eq za (f :: pts) f) in H by reflexivity. destruct (straddles za _ _); [discriminate H|].
  destruct (firstn 2 (values za (f :: pts))) as [|v l] eqn:EV; [discriminate H|]. injection H as H.
  assert (S := extremes_spec l v). rewrite H in S. destruct S as (I1 & I2 & B). rewrite <- EV in I1, I2.
  assert (K : forall x, In x (firstn 2 (values za (f :: pts))) -> In x (values za (f :: pts))).
  { intros x I. rewrite <- (firstn_skipn 2 (values za (f :: pts))). apply in_or_app. left. exact I. }
  split; [|split]; [apply values_at_level, K, I1|apply values_at_level, K, I2|]. apply (proj1 (B mx ltac:(rewrite <- EV; exact I1))).
Qed.
Print Assumptions C45_on_contour.
(** and they are the largest and the smallest, if no more than two edges reach that height. *)
Theorem C45_extremes : forall za pts mx mn, find_max_radius za pts = Ok (mx, mn) -> at_most_two_reach za pts ->
  forall r, at_level za pts r -> mn <= r <= mx.
Proof.
  intros za pts mx mn H H2 r A. destruct pts as [|f pts]; [discriminate H|].
  assert (FLAT : forall p q, edge (f :: pts) p q -> snd p = za -> snd q <> za).
  { apply (two_no_flat (f :: pts) za f); [reflexivity|exact H2|]. assert (D : find_max_radius za (f :: pts) <> UB) by congruence.
    apply C45_defined in D. destruct D as (g & E & N). injection E as <-. exact N. }
  rewrite (find_max_radius_eq za (f :: pts) f) in H by reflexivity. destruct (straddles za _ _); [discriminate H|].
  assert (C := two_count _ _ H2). rewrite firstn_all2 in H by exact C.
  destruct (at_level_values _ _ _ A) as (v & I & _ & E). rewrite (E FLAT).
  destruct (values za (f :: pts)) as [|v0 l]; [destruct I|]. injection H as H.
  assert (S := extremes_spec l v0). rewrite H in S. apply S. exact I.
Qed.
Print Assumptions C45_extremes.
(** A contour that crosses the height more often: the largest radius is not found. *)
Definition wavy_wall : list point := [(1, -1); (2, 1); (3, -1); (5, 1); (6, -1)].
Theorem C45_missed_refuted : exists mx mn, find_max_radius 0 wavy_wall = Ok (mx, mn) /\ exists r, at_level 0 wavy_wall r /\ mx < r.
Proof.
  exists (5/2), (3/2). split.
  - rewrite (find_max_radius_eq _ _ (1, -1)) by reflexivity. unfold wavy_wall. cbn [last fst snd values].
    unfold straddles, level_value, Rleb, Reqb. decide_reals. cbn [andb orb firstn]. unfold extremes. cbn [fold_left fst snd].
    decide_reals. do 2 f_equal; field.
  - exists (11/2). split; [|lra]. exists (5, 1), (6, -1), (1/2). split; [exists [(1, -1); (2, 1); (3, -1)], []; reflexivity|].
    unfold unit_interval, along. cbn [fst snd]. split; [lra|]. f_equal; lra.
Qed.
Print Assumptions C45_missed_refuted.
(** A closed contour that starts (and ends) at the height of the magnetic axis: undefined
    behaviour.  The domain of the built-in analytical field is of this kind. *)
Theorem C45_starts_at_axis_refuted : forall r za pts, find_max_radius za ((r, za) :: pts ++ [(r, za)]) = UB.
Proof.
  intros r za pts. rewrite (find_max_radius_eq _ _ (r, za)) by reflexivity.
  assert (E : straddles za (snd (last ((r, za) :: pts ++ [(r, za)]) (r, za))) (snd (r, za)) = true).
  { apply straddles_reaches. exists 1. unfold unit_interval, along. cbn [fst snd]. split; lra. }
  rewrite E. reflexivity.
Qed.
Print Assumptions C45_starts_at_axis_refuted.
(** An open contour around the axis is undefined behaviour as well. *)
Theorem C45_open_refuted : forall za pts f, hd_error pts = Some f -> snd (last pts f) <= za <= snd f -> find_max_radius za pts = UB.
Proof.
  intros za pts f HF B. rewrite (find_max_radius_eq _ _ f) by exact HF.
  assert (E : straddles za (snd (last pts f)) (snd f) = true).
  { unfold straddles, Rleb. destruct (Rle_dec za (snd f)); [|lra]. destruct (Rle_dec (snd (last pts f)) za); [|lra]. apply Bool.orb_true_r. }
  rewrite E. reflexivity.
Qed.
Print Assumptions C45_open_refuted.
(** The object: after a SetDomain that returns, both radii are those of the new domain. *)
Theorem C45_object : forall f f' pts, set_domain f pts pts = (Ok tt, f') ->
  exists mx mn, find_max_radius (snd (d_axis f)) pts = Ok (mx, mn) /\ d_pts f' = Some pts /\
  get_max_radius f' pts = Ok (mx, f') /\ get_min_radius f' pts = Ok (mn, f').
Proof.
  intros f f' pts H. unfold set_domain in H. destruct (find_max_radius (snd (d_axis f)) pts) as [[mx mn]| |] eqn:EF; try discriminate H.
  injection H as <-. exists mx, mn. split; [reflexivity|]. split; [reflexivity|].
  unfold get_max_radius, get_min_radius. cbn [d_max d_min d_axis d_pts d_bounds]. rewrite EF. cbn [obind fst snd].
  destruct (Rlt_dec 0 mx), (Rle_dec 0 mn); split; reflexivity.
Qed.
Print Assumptions C45_object.
(** After a SetDomain that throws, the domain is the new one but the radii are the old ones. *)
Theorem C45_stale_refuted : exists f f' mx pts, set_domain (new_field (2, 0)) (triangle_wall 3) (triangle_wall 3) = (Ok tt, f) /\
  set_domain f pts pts = (Throw, f') /\ d_pts f' = Some pts /\ (forall r, ~ at_level 0 pts r) /\ get_max_radius f' pts = Ok (mx, f').
Proof.
  assert (EX : exists mn, find_max_radius 0 (triangle_wall 3) = Ok (8/3, mn)).
  { rewrite triangle_radii. unfold extremes. cbn [fold_left fst snd]. decide_reals. eexists. do 2 f_equal. field. }
  destruct EX as (mn & EX).
  set (low := [(1, -3); (3, -3); (2, -1); (1, -3)] : list point).
  assert (T : find_max_radius 0 low = Throw).
  { rewrite (find_max_radius_eq _ _ (1, -3)) by reflexivity. unfold low. cbn [last fst snd values]. unfold straddles, Rleb. decide_reals. reflexivity. }
  exists (Field (2, 0) (Some (triangle_wall 3)) (8/3) mn None), (Field (2, 0) (Some low) (8/3) mn None), (8/3), low.
  split; [unfold set_domain; cbn [new_field d_axis snd]; rewrite EX; reflexivity|].
  split; [unfold set_domain; cbn [d_axis snd]; rewrite T; reflexivity|]. split; [reflexivity|]. split.
  - apply C45_throws; [rewrite T; discriminate|exact T].
  - unfold get_max_radius. cbn [d_max]. decide_reals. reflexivity.
Qed.
Print Assumptions C45_stale_refuted.
Example C45_example : find_max_radius 0 (triangle_wall 3) = Ok (8/3, 4/3) /\ at_most_two_reach 0 (triangle_wall 3).
Proof.
  split.
  - rewrite triangle_radii. unfold extremes. cbn [fold_left fst snd]. decide_reals. do 2 f_equal; field.
  - intros l e1 l1 e2 l2 e3 l3 E (R1 & R2 & R3). unfold triangle_wall in E. cbn [edges_of] in E.
    assert (NR : ~ reaches 0 ((1, -1), (3, -1))). { intros (t & _ & Z). unfold along in Z. cbn [fst snd] in Z. lra. }
    destruct l as [|x l]; [injection E as E1 E; subst e1; exact (NR R1)|].
    injection E as _ E. assert (L := f_equal (@length _) E). rewrite app_length in L. cbn [length] in L. rewrite app_length in L. cbn [length] in L.
    rewrite app_length in L. cbn [length] in L. lia.
Qed.

(** * C46 *)
(** No intersection is missed with the surface described by an edge that is not horizontal
    (and not ignored as part of the outer wall). *)
Theorem C46_not_missed : forall ra pts x0 y0 z0 x1 y1 z1 outer p q t,
  closed_edge pts p q -> snd q <> snd p -> (outer = false -> fst p <= ra \/ fst q <= ra) -> unit_interval t ->
  (let '(x, y, z) := along3 x1 y1 z1 x0 y0 z0 t in on_surface p q x y z) ->
  intersects_domain ra pts x0 y0 z0 x1 y1 z1 outer = true.
Proof.
  intros ra pts x0 y0 z0 x1 y1 z1 outer p q t E NZ NO Ht S. apply intersects_iff. exists p, q. split; [exact E|].
  unfold along3 in S. assert (C := on_surface_cone _ _ _ _ _ S).
  rewrite (edge_counts_skip_z ra outer p q x0 y0 z0 x1 y1 z1 t Ht).
  - apply edge_hit_iff; [exact NZ|]. right. exists t. split; [exact Ht|]. exact C.
  - destruct S as (s & Hs & ES). unfold to_rz, along in ES. injection ES as _ EZ. rewrite EZ. unfold unit_interval in Hs.
    assert (0 <= (1 - s) * (Rmax (snd p) (snd q) - snd p)) by (apply Rmult_le_pos; [lra|assert (X := Rmax_l (snd p) (snd q)); lra]).
    assert (0 <= s * (Rmax (snd p) (snd q) - snd q)) by (apply Rmult_le_pos; [lra|assert (X := Rmax_r (snd p) (snd q)); lra]).
    assert (0 <= (1 - s) * (snd p - Rmin (snd p) (snd q))) by (apply Rmult_le_pos; [lra|assert (X := Rmin_l (snd p) (snd q)); lra]).
    assert (0 <= s * (snd q - Rmin (snd p) (snd q))) by (apply Rmult_le_pos; [lra|assert (X := Rmin_r (snd p) (snd q)); lra]).
    lra.
  - intros (O & A & B). destruct (NO O); lra.
Qed.
Print Assumptions C46_not_missed.
(** What is known when the result is true (contours at positive radii): there is an edge,
    overlapping with the segment in height, whose infinite double cone meets the segment or
    has the slope of the segment. *)
Theorem C46_true_means : forall ra pts x0 y0 z0 x1 y1 z1 outer, (forall p, In p pts -> 0 < fst p) ->
  intersects_domain ra pts x0 y0 z0 x1 y1 z1 outer = true ->
  exists p q, closed_edge pts p q /\ snd q <> snd p /\ (outer = false -> fst p <= ra \/ fst q <= ra) /\
    Rmin z0 z1 <= Rmax (snd p) (snd q) /\ Rmin (snd p) (snd q) <= Rmax z0 z1 /\
    (same_slope p q x1 y1 z1 x0 y0 z0 \/ exists t, unit_interval t /\ let '(x, y, z) := along3 x1 y1 z1 x0 y0 z0 t in on_cone p q x y z).
Proof.
  intros ra pts x0 y0 z0 x1 y1 z1 outer POS H. apply intersects_iff in H. destruct H as (p & q & E & H).
  assert (PP : 0 < fst p /\ 0 < fst q).
  { destruct E as [(l & r & E)|((l & E1) & (r & E2))].
    - split; apply POS; rewrite E; apply in_or_app; right; [left|right; left]; reflexivity.
    - split; apply POS; [rewrite E1; apply in_or_app; right; left; reflexivity|rewrite E2; left; reflexivity]. }
  exists p, q. split; [exact E|]. unfold edge_counts in H.
  destruct (negb outer && _ && _)%bool eqn:EO in H; [discriminate H|].
  match type of H with (if ?b then _ else _) = true => destruct b eqn:EB; [discriminate H|] end.
  assert (NZ : snd q <> snd p). { intro Z. rewrite edge_hit_horizontal in H; [discriminate H|exact Z|apply PP|apply PP]. }
  split; [exact NZ|]. split.
  { intros ->. cbn [negb andb] in EO. unfold Rltb in EO. destruct (Rlt_dec ra (fst p)); [|left; lra]. destruct (Rlt_dec ra (fst q)); [discriminate EO|right; lra]. }
  unfold Rltb, Rmin, Rmax in *. split; [|split].
  - destruct (Rle_dec z0 z1), (Rle_dec (snd p) (snd q)); destruct (Rlt_dec (snd p) z1), (Rlt_dec (snd q) z1), (Rlt_dec (snd p) z0), (Rlt_dec (snd q) z0); try lra; cbn in EB; discriminate EB.
  - destruct (Rle_dec z0 z1), (Rle_dec (snd p) (snd q)); destruct (Rlt_dec z1 (snd p)), (Rlt_dec z1 (snd q)), (Rlt_dec z0 (snd p)), (Rlt_dec z0 (snd q)); try lra; cbn [andb] in EB; rewrite Bool.orb_true_r in EB; discriminate EB.
  - apply edge_hit_iff in H; [exact H|exact NZ].
Qed.
Print Assumptions C46_true_means.
(** Conversely every such edge gives true. *)
Theorem C46_cone_hit : forall ra pts x0 y0 z0 x1 y1 z1 outer p q,
  closed_edge pts p q -> snd q <> snd p -> (outer = false -> fst p <= ra \/ fst q <= ra) ->
  (exists t, unit_interval t /\ Rmin (snd p) (snd q) <= z1 + t * (z0 - z1) <= Rmax (snd p) (snd q)) ->
  (same_slope p q x1 y1 z1 x0 y0 z0 \/ exists t, unit_interval t /\ let '(x, y, z) := along3 x1 y1 z1 x0 y0 z0 t in on_cone p q x y z) ->
  intersects_domain ra pts x0 y0 z0 x1 y1 z1 outer = true.
Proof.
  intros ra pts x0 y0 z0 x1 y1 z1 outer p q E NZ NO (t & Ht & Z) H. apply intersects_iff. exists p, q. split; [exact E|].
  rewrite (edge_counts_skip_z ra outer p q x0 y0 z0 x1 y1 z1 t Ht Z); [|intros (O & A & B); destruct (NO O); lra].
  apply edge_hit_iff; [exact NZ|exact H].
Qed.
Print Assumptions C46_cone_hit.
(** The result does not depend on the toroidal angle. *)
Theorem C46_axisymmetric : forall u v ra pts x0 y0 z0 x1 y1 z1 outer, u * u + v * v = 1 ->
  intersects_domain ra pts (u * x0 - v * y0) (v * x0 + u * y0) z0 (u * x1 - v * y1) (v * x1 + u * y1) z1 outer =
  intersects_domain ra pts x0 y0 z0 x1 y1 z1 outer.
Proof. exact intersects_rotate. Qed.
Print Assumptions C46_axisymmetric.
(** A segment that passes below the wall is reported as intersecting it. *)
Definition box_wall : list point := [(1, 0); (3, 0); (3, 1); (1, 1)].
Theorem C46_spurious_refuted : forall ra, intersects_domain ra box_wall 5 0 (1/2) (1/2) 0 (-5) true = true /\
  (forall p q t, closed_edge box_wall p q -> unit_interval t ->
     let '(x, y, z) := along3 (1/2) 0 (-5) 5 0 (1/2) t in ~ on_surface p q x y z).
Proof.
  intro ra. split.
  - apply (C46_cone_hit ra _ _ _ _ _ _ _ _ (3, 0) (3, 1)); [left; exists [(1, 0)], [(1, 1)]; reflexivity|cbn; lra|discriminate| |].
    + exists 1. unfold unit_interval, Rmin, Rmax. cbn [fst snd]. destruct (Rle_dec 0 1); lra.
    + right. exists (5/9). split; [unfold unit_interval; lra|]. cbn [along3]. exists (-5 + 5/9 * (1/2 - -5)). cbn [fst snd]. split; lra.
  - intros p q t E Ht. cbn [along3]. intros (s & Hs & S). unfold to_rz, along in S. injection S as SR SZ. unfold unit_interval in *.
    assert (R : sqrt ((1 / 2 + t * (5 - 1 / 2)) * (1 / 2 + t * (5 - 1 / 2)) + (0 + t * (0 - 0)) * (0 + t * (0 - 0))) = 1/2 + t * (9/2)).
    { replace ((1 / 2 + t * (5 - 1 / 2)) * (1 / 2 + t * (5 - 1 / 2)) + (0 + t * (0 - 0)) * (0 + t * (0 - 0))) with ((1/2 + t * (9/2)) * (1/2 + t * (9/2))) by field.
      apply sqrt_square. lra. }
    rewrite R in SR. destruct E as [E|((l & E) & (r & E'))].
    + apply edges_of_iff in E. unfold box_wall in E. cbn [edges_of In] in E. destruct E as [E|[E|[E|[]]]]; injection E as <- <-; cbn [fst snd] in *; lra.
    + unfold box_wall in E, E'. injection E' as <- _. change [(1, 0); (3, 0); (3, 1); (1, 1)] with ([(1, 0); (3, 0); (3, 1)] ++ [(1, 1)]) in E.
      apply app_inj_tail in E. destruct E as [_ <-]. cbn [fst snd] in *. lra.
Qed.
Print Assumptions C46_spurious_refuted.
(** A segment that leaves through the ceiling is not noticed: horizontal edges are never hit. *)
Theorem C46_ceiling_refuted : forall ra,
  (let '(x, y, z) := along3 2 0 (1/2) (11/5) 0 (3/2) (1/2) in on_surface (3, 1) (1, 1) x y z) /\ closed_edge box_wall (3, 1) (1, 1) /\
  intersects_domain ra box_wall (11/5) 0 (3/2) 2 0 (1/2) true = false.
Proof.
  intro ra. split; [|split].
  - cbn [along3]. exists (9/20). unfold unit_interval. split; [lra|]. unfold to_rz, along. cbn [fst snd]. f_equal; [|lra].
    replace ((2 + 1 / 2 * (11 / 5 - 2)) * (2 + 1 / 2 * (11 / 5 - 2)) + (0 + 1 / 2 * (0 - 0)) * (0 + 1 / 2 * (0 - 0))) with ((21/10) * (21/10)) by field.
    rewrite sqrt_square; lra.
  - left. exists [(1, 0); (3, 0)], []. reflexivity.
  - apply Bool.not_true_is_false. intro H. apply C46_true_means in H.
    2:{ unfold box_wall. cbn [In]. intros p [E|[E|[E|[E|[]]]]]; subst p; cbn; lra. }
    destruct H as (p & q & E & NZ & _ & _ & _ & H).
    assert (C : fst p = fst q /\ (fst p = 1 \/ fst p = 3)).
    { destruct E as [E|((l & E) & (r & E'))].
      - apply edges_of_iff in E. unfold box_wall in E. cbn [edges_of In] in E. destruct E as [E|[E|[E|[]]]]; injection E as <- <-; cbn [fst snd] in *; lra.
      - unfold box_wall in E, E'. injection E' as <- _. change [(1, 0); (3, 0); (3, 1); (1, 1)] with ([(1, 0); (3, 0); (3, 1)] ++ [(1, 1)]) in E.
        apply app_inj_tail in E. destruct E as [_ <-]. cbn [fst snd] in *. lra. }
    destruct C as [C1 C2]. destruct H as [H|(t & Ht & H)].
    + unfold same_slope in H. rewrite <- C1 in H. assert (Z : (snd q - snd p) ^ 2 = 0) by lra. assert (NZ2 : (snd q - snd p) ^ 2 <> 0) by (apply pow_nonzero; lra). lra.
    + cbn [along3] in H. destruct H as (s & _ & H). rewrite <- C1 in H. unfold unit_interval in Ht. destruct C2 as [C2|C2]; rewrite C2 in H; nra.
Qed.
Print Assumptions C46_ceiling_refuted.
(** The pointer form is the six-argument form with the y coordinate of the start in place of
    its height. *)
Theorem C46_pointer : forall ra pts x0 y0 z0 x1 y1 z1 outer,
  intersects_domain_ptr ra pts (x0, y0, z0) (x1, y1, z1) outer = intersects_domain ra pts x0 y0 y0 x1 y1 z1 outer.
Proof. reflexivity. Qed.
Print Assumptions C46_pointer.
Theorem C46_pointer_refuted : forall ra, ~ (forall pts p0 p1, let '(x0, y0, z0) := p0 in let '(x1, y1, z1) := p1 in
  intersects_domain_ptr ra pts p0 p1 true = intersects_domain ra pts x0 y0 z0 x1 y1 z1 true).
Proof.
  intros ra H. assert (E := H box_wall (5, 0, 2) (2, 0, 3/2)). cbn beta iota in E. rewrite C46_pointer in E.
  assert (T : intersects_domain ra box_wall 5 0 0 2 0 (3/2) true = true -> False).
  { rewrite E. intro H2. apply C46_true_means in H2.
    2:{ unfold box_wall. cbn [In]. intros p [X|[X|[X|[X|[]]]]]; subst p; cbn; lra. }
    destruct H2 as (p & q & EE & _ & _ & M & _). assert (Z : snd p <= 1 /\ snd q <= 1).
    { destruct EE as [EE|((l & EE) & (r & E'))].
      - apply edges_of_iff in EE. unfold box_wall in EE. cbn [edges_of In] in EE. destruct EE as [X|[X|[X|[]]]]; injection X as <- <-; cbn; lra.
      - unfold box_wall in EE, E'. injection E' as <- _. change [(1, 0); (3, 0); (3, 1); (1, 1)] with ([(1, 0); (3, 0); (3, 1)] ++ [(1, 1)]) in EE.
        apply app_inj_tail in EE. destruct EE as [_ <-]. cbn. lra. }
    unfold Rmin, Rmax in M. destruct (Rle_dec 2 (3/2)), (Rle_dec (snd p) (snd q)); lra. }
  clear E H. apply T. clear T.
  apply (C46_not_missed ra _ _ _ _ _ _ _ _ (3, 0) (3, 1) (1/3)); [left; exists [(1, 0)], [(1, 1)]; reflexivity|cbn; lra|discriminate|unfold unit_interval; lra|].
  cbn [along3]. exists 1. unfold unit_interval. split; [lra|]. unfold to_rz, along. cbn [fst snd]. f_equal; [|lra].
  replace ((2 + 1 / 3 * (5 - 2)) * (2 + 1 / 3 * (5 - 2)) + (0 + 1 / 3 * (0 - 0)) * (0 + 1 / 3 * (0 - 0))) with (3 * 3) by field.
  rewrite sqrt_square; lra.
Qed.
Print Assumptions C46_pointer_refuted.
(** Edges of the outer wall are ignored on request. *)
Theorem C46_outer_ignored : forall ra pts x0 y0 z0 x1 y1 z1, (forall p, In p pts -> ra < fst p) ->
  intersects_domain ra pts x0 y0 z0 x1 y1 z1 false = false.
Proof.
  intros ra pts x0 y0 z0 x1 y1 z1 H. apply Bool.not_true_is_false. intro T. apply intersects_iff in T. destruct T as (p & q & E & T).
  assert (P : ra < fst p /\ ra < fst q).
  { destruct E as [(l & r & E)|((l & E1) & (r & E2))].
    - split; apply H; rewrite E; apply in_or_app; right; [left|right; left]; reflexivity.
    - split; apply H; [rewrite E1; apply in_or_app; right; left; reflexivity|rewrite E2; left; reflexivity]. }
  unfold edge_counts, Rltb in T. destruct (Rlt_dec ra (fst p)); [|lra]. destruct (Rlt_dec ra (fst q)); [discriminate T|lra].
Qed.
Print Assumptions C46_outer_ignored.
Example C46_example : forall ra, ra = 2 -> intersects_domain ra box_wall (1/2) 0 (1/2) 2 0 (1/2) false = true /\
  intersects_domain ra box_wall (1/2) 0 (1/2) 2 0 (1/2) true = true.
Proof.
  intros ra ->. split; apply (C46_not_missed 2 _ _ _ _ _ _ _ _ (1, 1) (1, 0) (2/3)).
  all: try (right; split; [exists [(1, 0); (3, 0); (3, 1)]; reflexivity|exists [(3, 0); (3, 1); (1, 1)]; reflexivity]).
  all: try (unfold unit_interval; cbn; lra).
  all: cbn [along3]; exists (1/2); (split; [unfold unit_interval; lra|]); unfold to_rz, along; cbn [fst snd]; (f_equal; [|lra]);
    replace ((2 + 2 / 3 * (1 / 2 - 2)) * (2 + 2 / 3 * (1 / 2 - 2)) + (0 + 2 / 3 * (0 - 0)) * (0 + 2 / 3 * (0 - 0))) with (1 * 1) by field;
    rewrite sqrt_square; lra.
Qed.

(** * C77 *)
(** FindMaxZ at radius [R0]: largest and smallest height of the contour there. *)
Definition flip (p : point) : point := (snd p, fst p).
Definition at_radius (R0 : R) (pts : list point) (z : R) : Prop :=
  exists p q t, edge pts p q /\ unit_interval t /\ along p q t = (R0, z).
Lemma edge_flip : forall pts p q, edge pts p q -> edge (map flip pts) (flip p) (flip q).
Proof. intros pts p q (l & r & E). exists (map flip l), (map flip r). rewrite E, map_app. reflexivity. Qed.
Lemma flip_flip : forall pts, map flip (map flip pts) = pts.
Proof. induction pts as [|[a b] pts IH]; [reflexivity|]. cbn [map]. rewrite IH. reflexivity. Qed.
Lemma at_radius_level : forall R0 pts z, at_radius R0 pts z <-> at_level R0 (map flip pts) z.
Proof.
  intros R0 pts z. split; intros (p & q & t & E & Ht & A).
  - exists (flip p), (flip q), t. split; [apply edge_flip; exact E|]. split; [exact Ht|]. unfold along, flip in *. cbn [fst snd]. injection A as -> ->. reflexivity.
  - exists (flip p), (flip q), t. split; [rewrite <- (flip_flip pts); apply edge_flip; exact E|]. split; [exact Ht|].
    unfold along, flip in *. cbn [fst snd]. injection A as -> ->. reflexivity.
Qed.
(** Never undefined for a contour with points; throws exactly if the contour does not reach
    that radius. *)
Theorem C77_throws : forall R0 pts, pts <> [] -> find_max_z R0 pts <> UB /\
  (find_max_z R0 pts = Throw <-> forall z, ~ at_radius R0 pts z).
Proof.
  intros R0 pts NE. unfold find_max_z. change (fun p : point => (snd p, fst p)) with flip.
  assert (NE' : map flip pts <> []) by (destruct pts; [contradiction|discriminate]).
  rewrite find_max_min_eq by exact NE'. split; [destruct (firstn 2 _); discriminate|].
  destruct (values R0 (map flip pts)) as [|v l] eqn:EV.
  - split; [|reflexivity]. intros _ z A. apply at_radius_level in A. destruct (at_level_values _ _ _ A) as (w & I & _). rewrite EV in I. destruct I.
  - split; [discriminate|]. intro N. exfalso. apply (N v). apply at_radius_level. apply values_at_level. rewrite EV. left. reflexivity.
Qed.
Print Assumptions C77_throws.
Theorem C77_extremes : forall R0 pts mx mn, find_max_z R0 pts = Ok (mx, mn) ->
  (at_radius R0 pts mx /\ at_radius R0 pts mn /\ mn <= mx) /\
  (at_most_two_reach R0 (map flip pts) -> forall z, at_radius R0 pts z ->
     z <= mx /\ ((forall p q, edge pts p q -> fst p = R0 -> fst q <> R0) -> mn <= z)).
Proof.
  intros R0 pts mx mn H. unfold find_max_z in H. change (fun p : point => (snd p, fst p)) with flip in H.
  destruct pts as [|f pts]; [discriminate H|]. rewrite find_max_min_eq in H by discriminate.
  set (vs := values R0 (map flip (f :: pts))) in *.
  destruct (firstn 2 vs) as [|v l] eqn:EV; [discriminate H|]. injection H as H. assert (S := extremes_spec l v). rewrite H in S.
  destruct S as (I1 & I2 & B). assert (K : forall x, In x (v :: l) -> In x vs).
  { intros x I. rewrite <- (firstn_skipn 2 vs). apply in_or_app. left. rewrite EV. exact I. }
  split.
  - split; [|split]; [apply at_radius_level, values_at_level, K, I1|apply at_radius_level, values_at_level, K, I2|]. exact (proj1 (B mx I1)).
  - intros H2 z A. apply at_radius_level in A. destruct (at_level_values _ _ _ A) as (w & I & L & E). fold vs in I.
    assert (C := two_count _ _ H2). fold vs in C. rewrite firstn_all2 in EV by exact C. rewrite EV in I.
    apply B in I. split; [lra|]. intro FL. rewrite E; [apply I|].
    intros p q Epq Hp Hq. apply edge_flip in Epq. rewrite flip_flip in Epq. apply (FL _ _ Epq); [exact Hp|exact Hq].
Qed.
Print Assumptions C77_extremes.
(** A vertical edge at that radius: its lower end is not found. *)
Theorem C77_vertical_refuted : exists mx mn z, find_max_z 3 [(1, -1); (3, -1); (3, 1); (1, 1)] = Ok (mx, mn) /\
  find_max_z 3 [(3, -1); (3, 1)] = Ok (1, 1) /\ at_radius 3 [(3, -1); (3, 1)] z /\ z < 1 /\ mn = -1 /\ mx = 1.
Proof.
  exists 1, (-1), (-1). unfold find_max_z. split; [|split; [|split; [|split; [|split]]]]; try reflexivity.
  - rewrite find_max_min_eq by discriminate. cbn [map fst snd values]. unfold straddles, level_value, Rleb, Reqb, Rmax. decide_reals.
    cbn [andb orb firstn]. unfold extremes. cbn [fold_left fst snd]. decide_reals. do 2 f_equal; field.
  - rewrite find_max_min_eq by discriminate. cbn [map fst snd values]. unfold straddles, level_value, Rleb, Reqb, Rmax. decide_reals.
    cbn [andb orb firstn]. reflexivity.
  - exists (3, -1), (3, 1), 0. split; [apply edge_cons|]. unfold unit_interval, along. cbn [fst snd]. split; [lra|]. f_equal; lra.
  - lra.
Qed.
Print Assumptions C77_vertical_refuted.
Example C77_example : find_max_z 2 square_wall = Ok (1, -1).
Proof.
  unfold find_max_z, square_wall. rewrite find_max_min_eq by discriminate. cbn [map fst snd values]. unfold straddles, level_value, Rleb, Reqb, Rmax. decide_reals.
  cbn [andb orb firstn]. unfold extremes. cbn [fold_left fst snd]. decide_reals. do 2 f_equal; field.
Qed.
