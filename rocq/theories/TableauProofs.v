(** The Dormand-Prince coefficients: order conditions and exactness for polynomials. *)
From Coq Require Import ZArith QArith Qreals Reals Lra Lia FunctionalExtensionality.
From Coquelicot Require Import Coquelicot.
From Verif Require Import Base AlgebraModel IntegratorModel IntegratorSpec.
Local Open Scope R_scope.

(** * Order conditions, computed with rationals *)
Definition tree_ind' (P : tree -> Prop) (H : forall l, Forall P l -> P (Node l)) : forall t, P t :=
  fix F t := match t with
             | Node l => H l ((fix G l : Forall P l := match l with [] => Forall_nil _ | u :: r => Forall_cons _ (F u) (G r) end) l)
             end.

Definition qa (i j : nat) : Q :=
  match i, j with
  | 1, 0 => 2#10
  | 2, 0 => 3#40 | 2, 1 => 9#40
  | 3, 0 => 44#45 | 3, 1 => -56#15 | 3, 2 => 32#9
  | 4, 0 => 19372#6561 | 4, 1 => -25360#2187 | 4, 2 => 64448#6561 | 4, 3 => -212#729
  | 5, 0 => 9017#3168 | 5, 1 => -355#33 | 5, 2 => 46732#5247 | 5, 3 => 49#176 | 5, 4 => -5103#18656
  | 6, 0 => 35#384 | 6, 2 => 500#1113 | 6, 3 => 125#192 | 6, 4 => -2187#6784 | 6, 5 => 11#84
  | _, _ => 0#1
  end%nat%Q.
Definition qe (i : nat) : Q :=
  match i with 0 => 71#57600 | 2 => -71#16695 | 3 => 71#1920 | 4 => -17253#339200 | 5 => 22#525 | 6 => -1#40 | _ => 0#1 end%nat%Q.

Lemma Q2R_make : forall n d, Q2R (n # d) = IZR n / IZR (Z.pos d).
Proof. reflexivity. Qed.
Ltac q2r := rewrite Q2R_make; unfold Rdiv; try reflexivity; try field; try lra.
Lemma qa_correct : forall i j, Q2R (qa i j) = dp_a i j.
Proof.
  intros i j. do 7 (destruct i as [|i]; [do 7 (destruct j as [|j]; [cbn [qa dp_a]; unfold a21, a31, a32, a41, a42, a43, a51, a52, a53, a54, a61, a62, a63, a64, a65, a71, a73, a74, a75, a76; q2r|]); cbn [qa dp_a]; q2r|]).
  cbn [qa dp_a]; q2r.
Qed.
Lemma qe_correct : forall i, Q2R (qe i) = dp_e i.
Proof.
  intro i. do 7 (destruct i as [|i]; [cbn [qe dp_e]; unfold e1, e3, e4, e5, e6, e7; q2r|]). cbn [qe dp_e]; q2r.
Qed.

Definition qsum (n : nat) (g : nat -> Q) : Q := fold_right Qplus 0%Q (map g (seq 0 n)).
Fixpoint qweight (n : nat) (a : nat -> nat -> Q) (t : tree) (i : nat) : Q :=
  match t with Node l => fold_right Qmult 1%Q (map (fun u => Qred (qsum n (fun j => a i j * qweight n a u j)%Q)) l) end.

Lemma Q2R_sum : forall n g G, (forall i, Q2R (g i) = G i) -> Q2R (qsum n g) = rsum n G.
Proof.
  intros n g G H. unfold qsum, rsum. generalize 0%nat as s. induction n as [|n IH]; intro s; cbn.
  - unfold Q2R. cbn. lra.
  - rewrite Q2R_plus, H, IH. reflexivity.
Qed.
Lemma Q2R_weight : forall n a A, (forall i j, Q2R (a i j) = A i j) -> forall t i, Q2R (qweight n a t i) = weight n A t i.
Proof.
  intros n a A H t. induction t as [l F] using tree_ind'. intro i. cbn [qweight weight].
  induction F as [|u l Hu F IH]; cbn [map fold_right].
  - unfold Q2R. cbn. lra.
  - rewrite Q2R_mult, IH. f_equal. rewrite (Qeq_eqR _ _ (Qred_correct _)).
    apply Q2R_sum. intro j. rewrite Q2R_mult, H, Hu. reflexivity.
Qed.

Definition qcond (b : nat -> Q) (t : tree) : bool :=
  Qeq_bool (qsum 7 (fun i => b i * qweight 7 qa t i)%Q) (1 # Z.to_pos (gamma t)) && (0 <? gamma t)%Z.
Lemma qcond_sound : forall b B t, (forall i, Q2R (b i) = B i) -> qcond b t = true ->
  rsum 7 (fun i => B i * weight 7 dp_a t i) = / IZR (gamma t).
Proof.
  intros b B t H C. unfold qcond in C. apply andb_true_iff in C. destruct C as (C & G). apply Z.ltb_lt in G.
  apply Qeq_bool_eq, Qeq_eqR in C.
  rewrite (Q2R_sum 7 _ (fun i => B i * weight 7 dp_a t i)) in C.
  - rewrite C, Q2R_make, Z2Pos.id by exact G. unfold Rdiv. lra.
  - intro i. rewrite Q2R_mult, H, (Q2R_weight 7 qa dp_a qa_correct). reflexivity.
Qed.

(** Every tree with at most n nodes is in this list. *)
Fixpoint forests (k : nat) : nat -> list (list tree) :=
  match k with
  | O => fun n => match n with O => [[]] | _ => [] end
  | S k' => fun n => match n with
    | O => [[]]
    | _ => flat_map (fun m => flat_map (fun l => map (fun r => Node l :: r) (forests k' (n - S m))) (forests k' m)) (seq 0 n)
    end
  end.
Lemma forests_complete : forall k n l, (n <= k)%nat -> list_sum (map order l) = n -> In l (forests k n).
Proof.
  induction k as [|k IH]; intros n l Hk Hs.
  - assert (n = 0)%nat by lia. subst n. destruct l as [|[u] l]; [left; reflexivity|cbn in H; lia].
  - destruct n as [|n].
    + destruct l as [|[u] l]; [left; reflexivity|cbn in Hs; lia].
    + destruct l as [|[u] l]; [cbn in Hs; lia|]. cbn [forests].
      set (m := list_sum (map order u)). cbn [map list_sum order] in Hs. change (list_sum (S ?a :: ?b)) with (S (a + list_sum b)) in Hs.
      assert (Hs' : S (m + list_sum (map order l)) = S n) by exact Hs.
      apply in_flat_map. exists m. split; [apply in_seq; lia|].
      apply in_flat_map. exists u. split; [apply IH; [lia|reflexivity]|].
      apply in_map. apply IH; [lia|]. lia.
Qed.
Definition all_trees (p : nat) : list tree := flat_map (fun n => map Node (forests p n)) (seq 0 p).
Lemma all_trees_complete : forall p t, (order t <= p)%nat -> In t (all_trees p).
Proof.
  intros p [l] H. cbn [order] in H. unfold all_trees. apply in_flat_map. exists (list_sum (map order l)).
  split; [apply in_seq; lia|]. apply in_map. apply forests_complete; [lia|reflexivity].
Qed.
Lemma order_by_computation : forall p b B, (forall i, Q2R (b i) = B i) ->
  forallb (qcond b) (all_trees p) = true -> has_order p 7 dp_a B.
Proof.
  intros p b B H C t Ht. apply (qcond_sound b); [exact H|].
  rewrite forallb_forall in C. apply C. apply all_trees_complete. exact Ht.
Qed.
Lemma dp_order_5 : has_order 5 7 dp_a dp_b.
Proof. apply (order_by_computation 5 (qa 6)); [exact (qa_correct 6)|]. vm_compute. reflexivity. Qed.
Lemma dp_embedded_order_4 : has_order 4 7 dp_a (fun i => dp_b i - dp_e i).
Proof.
  apply (order_by_computation 4 (fun i => qa 6 i - qe i)%Q).
  - intro i. unfold Qminus. rewrite Q2R_plus, Q2R_opp, qa_correct, qe_correct. reflexivity.
  - vm_compute. reflexivity.
Qed.
Lemma dp_embedded_not_5 : ~ has_order 5 7 dp_a (fun i => dp_b i - dp_e i).
Proof.
  intro H. specialize (H (Node [Node []; Node []; Node []; Node []]) ltac:(cbn; lia)).
  rewrite <- (Q2R_sum 7 (fun i => (qa 6 i - qe i) * qweight 7 qa (Node [Node []; Node []; Node []; Node []]) i)%Q) in H.
  2: { intro i. unfold Qminus. rewrite Q2R_mult, Q2R_plus, Q2R_opp, qa_correct, qe_correct, (Q2R_weight 7 qa dp_a qa_correct). reflexivity. }
  assert (E : Q2R (1#5) = / IZR (gamma (Node [Node []; Node []; Node []; Node []]))) by (cbn; rewrite Q2R_make; lra).
  rewrite <- E in H. apply eqR_Qeq in H. vm_compute in H. discriminate H.
Qed.
Lemma dp_rows : forall i, (i < 7)%nat -> rsum 7 (dp_a i) = dp_c i.
Proof.
  intros i Hi. rewrite <- (Q2R_sum 7 (qa i) (dp_a i) (qa_correct i)).
  do 7 (destruct i as [|i]; [rewrite <- (Qeq_eqR _ _ (Qred_correct _)); cbn [dp_c]; unfold c2, c3, c4, c5;
    match goal with |- Q2R ?q = _ => let v := eval vm_compute in q in change q with v end; q2r|]). lia.
Qed.

(** * One step is a step of this method *)
Lemma inner_step_runge_kutta : forall f T h y, let a := inner_step f T h y (f T y) in
  exists k : nat -> vec,
    (forall i, (i < 7)%nat -> k i = f (T + dp_c i * h) (fun n => y n + h * rsum 7 (fun j => dp_a i j * k j n))) /\
    (forall n, a_yout a n = y n + h * rsum 7 (fun i => dp_b i * k i n)) /\
    (forall n, a_yerr a n = h * rsum 7 (fun i => dp_e i * k i n)) /\
    a_dydxout a = k 6%nat.
Proof.
  intros f T h y a.
  pose (k2 := f (T + c2*h) (fun i => y i + h*a21*(f T y) i)).
  exists (fun i => match i with 0 => f T y | 1 => k2 | 2 => a_k3 a | 3 => a_k4 a | 4 => a_k5 a | 5 => a_k6 a | _ => a_dydxout a end%nat).
  unfold rsum. cbn [seq map fold_right]. split; [|split; [|split]].
  - intros i Hi. do 7 (destruct i as [|i]; [cbn [dp_a dp_c]; unfold a, k2, inner_step; cbn [a_k3 a_k4 a_k5 a_k6 a_dydxout];
      (apply f_equal2; [ring|apply functional_extensionality; intro n; ring])|]). lia.
  - intro n. unfold a, inner_step, dp_b. cbn [a_yout a_k3 a_k4 a_k5 a_k6 a_dydxout dp_a]. ring.
  - intro n. unfold a, inner_step. cbn [a_yerr a_k3 a_k4 a_k5 a_k6 a_dydxout dp_e]. ring.
  - reflexivity.
Qed.

(** * Polynomials *)

Lemma inner_step_poly : forall f cs T h y j, time_only f cs -> let a := inner_step f T h y (f T y) in
  a_yout a j = y j + (poly4_integral (cs j) (T + h) - poly4_integral (cs j) T) /\
  a_yerr a j = 71/270000 * cs j 4%nat * h^5.
Proof.
  intros f cs T h y j Hf. cbv zeta. unfold inner_step. cbn [a_yout a_yerr].
  rewrite !Hf. unfold poly4, poly4_integral.
  unfold a71, a73, a74, a75, a76, e1, e3, e4, e5, e6, e7, c3, c4, c5.
  generalize (cs j 0%nat) (cs j 1%nat) (cs j 2%nat) (cs j 3%nat) (cs j 4%nat) (y j). intros p0 p1 p2 p3 p4 y0.
  split; field.
Qed.

(** * The interpolant *)
Section Interpolant.
Variable f : R -> vec -> vec.
Variables (t t' : R) (y yp y' yp' : vec).
Hypothesis Ht : t < t'.

Lemma interpolant_ends : forall j, interpolant f (t, y, yp) (t', y', yp') j t = y j /\
  interpolant f (t, y, yp) (t', y', yp') j t' = y' j.
Proof.
  intro j. unfold interpolant.
  assert (E0 : (t - t) / (t' - t) = 0) by (unfold Rdiv; ring_simplify; lra).
  assert (E1 : (t' - t) / (t' - t) = 1) by (field; lra).
  rewrite E0, E1. split; ring.
Qed.
Lemma interpolant_slopes : forall j, derivable_pt_lim (interpolant f (t, y, yp) (t', y', yp') j) t (yp j) /\
  derivable_pt_lim (interpolant f (t, y, yp) (t', y', yp') j) t' (yp' j).
Proof.
  intro j. unfold interpolant.
  set (c := (t' - t) * (d1 * _ + _ + _ + _ + _ + _)).
  clearbody c. split; apply is_derive_Reals.
  - auto_derive; [lra|]. unfold Rdiv. replace (t + - t) with 0 by ring. field. lra.
  - auto_derive; [lra|]. field. lra.
Qed.
End Interpolant.

Lemma interpolant_poly_exact : forall f cs t t' y j T, time_only f cs -> cs j 4%nat = 0 -> t < t' ->
  let a := inner_step f t (t' - t) y (f t y) in
  interpolant f (t, y, f t y) (t', a_yout a, f t' (a_yout a)) j T =
  y j + (poly4_integral (cs j) T - poly4_integral (cs j) t).
Proof.
  intros f cs t t' y j T Hf H4 Ht. cbv zeta. unfold interpolant.
  destruct (inner_step_poly f cs t (t' - t) y j Hf) as (Ey & _). cbv zeta in Ey. rewrite Ey.
  unfold inner_step. cbn [a_k3 a_k4 a_k5 a_k6]. rewrite !Hf.
  unfold poly4, poly4_integral. rewrite H4. unfold d1, d3, d4, d5, d6, d7, c3, c4, c5.
  generalize (cs j 0%nat) (cs j 1%nat) (cs j 2%nat) (cs j 3%nat) (y j). intros p0 p1 p2 p3 y0.
  set (h := t' - t). replace t' with (t + h) by (unfold h; ring).
  assert (Hh : h <> 0) by (unfold h; lra). clearbody h.
  set (th := (T - t) / h). replace T with (t + th * h) by (unfold th; field; exact Hh). clearbody th.
  field.
Qed.

Lemma poly4_integral_derive : forall c t, derivable_pt_lim (poly4_integral c) t (poly4 c t).
Proof. intros c t. apply is_derive_Reals. unfold poly4_integral, poly4. auto_derive; [exact I|]. field. Qed.
