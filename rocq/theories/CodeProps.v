(** Theorems about CODE and GO+CODE distribution functions (C58, C59, C60, C63, C84, C85). *)
From Coq Require Import Reals Lra Lia List.
From Coquelicot Require Import Coquelicot.
From Verif Require Import Base DomainModel AnalyticalModel NumericModel NumericSpec NumericArrays DistributionModel DistributionSpec DistributionProofs DistributionUse CodeModel CodeSpec CodeProofs CodeUse GocodeProofs.
Import ListNotations.
Local Open Scope R_scope.
Set Bullet Behavior "Strict Subproofs".

(** * C58: Legendre modes *)
(** The recursion in the specification gives the Legendre polynomials. *)
Theorem C58_legendre : forall n, is_legendre n (legendre n).
Proof.
  intro n. split; [|split].
  - destruct (leg_poly n) as (a & _ & H). exists a. exact H.
  - exists (dleg n), (ddleg n). intro x. split; [apply leg_derive|]. split; [apply dleg_derive|]. apply leg_equation.
  - apply leg_one.
Qed.
Print Assumptions C58_legendre.
Theorem C58_parity : forall n x, legendre n (- x) = (-1) ^ n * legendre n x.
Proof.
  intros n x. rewrite leg_parity. f_equal. induction n as [|n IH]; [reflexivity|]. rewrite sgn_S, IH. cbn [pow]. ring.
Qed.
Print Assumptions C58_parity.
Theorem C58_orthogonal : forall m n, m <> n -> is_RInt (fun x => legendre m x * legendre n x) (-1) 1 0.
Proof. exact leg_orthogonal. Qed.
Print Assumptions C58_orthogonal.
Theorem C58_bounded : forall n x, -1 <= x <= 1 -> Rabs (legendre n x) <= 1.
Proof. exact leg_size. Qed.
Print Assumptions C58_bounded.

(** The code computes them, into every array with room for them, and writes nothing else. *)
Theorem C58_modes : forall l xi n, (2 <= n <= length l)%nat ->
  exists l', compute_legendre l xi n = Ok l' /\ length l' = length l /\
    (forall i, (i < n)%nat -> nth_error l' i = Some (Some (legendre i xi))) /\ (forall i, (n <= i)%nat -> nth_error l' i = nth_error l i).
Proof.
  intros l xi n H. destruct (compute_ok l xi n H) as (l' & E & L & F). exists l'. split; [exact E|]. split; [exact L|]. split; [exact F|].
  assert (W : forall k i l l', legendre_loop k i xi l = Ok l' -> forall j, (i + 2 + k <= j)%nat -> nth_error l' j = nth_error l j).
  { clear. induction k as [|k IH]; intros i l l' E j J; cbn [legendre_loop] in E; [injection E as <-; reflexivity|].
    destruct (aread l (i + 1)); try discriminate. destruct (aread l i); try discriminate. cbn [obind] in E. unfold awrite in E.
    destruct (i + 2 <? length l)%nat; try discriminate. cbn [obind] in E. rewrite (IH _ _ _ E j ltac:(lia)). apply update_other. lia. }
  intros i I. unfold compute_legendre in E. rewrite awrite_ok in E by lia. cbn [obind] in E. replace (1 <=? n)%nat with true in E by (symmetry; apply Nat.leb_le; lia).
  rewrite awrite_ok in E by (rewrite update_length; lia). cbn [obind] in E. rewrite (W _ _ _ _ E i ltac:(lia)). rewrite !update_other by lia. reflexivity.
Qed.
Print Assumptions C58_modes.

(** With no mode or a single one the computation writes outside its array. *)
Theorem C58_short : forall l xi, (length l < 2)%nat -> compute_legendre l xi (length l) = UB.
Proof. intros l xi H. apply compute_short. exact H. Qed.
Print Assumptions C58_short.
Lemma two_ok : forall x y nleg f, x < y -> (1 <= nleg <= 2)%nat -> (nleg * 2 <= length f)%nat -> code_initialize 2 nleg [x; y] f 0 = Ok (Code 0 2 nleg [x; y] f (repeat None nleg) None).
Proof.
  intros x y nleg f XY N L. assert (A : ascending [x; y]).
  { intros i j u v LT U V. destruct i as [|[|i]], j as [|[|j]]; cbn in U, V; try discriminate; try lia;
      try (destruct i; discriminate); try (destruct j; discriminate); injection U as <-; injection V as <-; exact XY. }
  assert (X : exists o, code_initialize 2 nleg [x; y] f 0 = Ok o).
  { apply initialize_iff; [lia|]. split; [lia|]. split; [cbn; lia|]. split; [exact L|]. split; [exact A|]. left. split; [left; reflexivity|cbn; lia]. }
  destruct X as (o & E). rewrite E. unfold code_initialize in E. destruct (nleg =? 0)%nat eqn:Q; [apply Nat.eqb_eq in Q; lia|].
  destruct (negb _) in E; [discriminate|]. destruct (2 <? nleg)%nat; [discriminate|]. destruct (length [x; y] <? 2)%nat; [discriminate|].
  destruct (length f <? nleg * 2)%nat; [discriminate|]. destruct (negb _) in E; [discriminate|]. symmetry. exact E.
Qed.
Theorem C58_short_refuted : ~ (forall itp np p f method o q xi, code_initialize np 1 p f method = Ok o -> (1 <= np)%nat -> code_eval itp o q xi <> UB).
Proof.
  intro H. apply (H (fun _ _ ys _ => nth 0 ys 0) 2%nat [1; 2] [1; 1] 0%Z (Code 0 2 1 [1; 2] [1; 1] [None] None) 1 0 (two_ok 1 2 1 [1; 1] ltac:(lra) ltac:(lia) ltac:(cbn; lia)) ltac:(lia)).
  unfold code_eval, code_limits. cbn. replace (Rltb 1 2) with true by (symmetry; apply Rltb_t; lra). cbn [fst snd obind].
  replace (Rltb 2 1) with false by (symmetry; apply Rltb_f; lra). replace (Rltb 1 1) with false by (symmetry; apply Rltb_f; lra). reflexivity.
Qed.
Print Assumptions C58_short_refuted.
(** More modes than momenta: the array of interpolation objects is too short. *)
Theorem C58_many : forall np nleg p f method, (0 <= method <= 6)%Z -> (np < nleg)%nat -> code_initialize np nleg p f method = UB.
Proof.
  intros np nleg p f method M L. unfold code_initialize. replace (nleg =? 0)%nat with false by (symmetry; apply Nat.eqb_neq; lia).
  replace (0 <=? method)%Z with true by (symmetry; apply Z.leb_le; lia). replace (method <=? 6)%Z with true by (symmetry; apply Z.leb_le; lia). cbn [andb negb].
  replace (np <? nleg)%nat with true by (symmetry; apply Nat.ltb_lt; exact L). reflexivity.
Qed.
Print Assumptions C58_many.
(** An object comes about exactly for known methods, momenta that the method takes, at least as
    many of them as modes, and complete tables. *)
Theorem C58_grids : forall np nleg p f method, (1 <= nleg)%nat ->
  (exists o, code_initialize np nleg p f method = Ok o) <->
  (0 <= method <= 6)%Z /\ (nleg <= np <= length p)%nat /\ (nleg * np <= length f)%nat /\ takes method (firstn np p).
Proof. exact initialize_iff. Qed.
Print Assumptions C58_grids.
(** Only an unknown method is reported by an exception. *)
Theorem C58_exception : forall np nleg p f method, code_initialize np nleg p f method = Throw <-> (1 <= nleg)%nat /\ ~ (0 <= method <= 6)%Z.
Proof.
  intros np nleg p f method. unfold code_initialize. destruct (nleg =? 0)%nat eqn:N.
  - apply Nat.eqb_eq in N. split; [discriminate|lia].
  - apply Nat.eqb_neq in N. destruct ((0 <=? method) && (method <=? 6))%Z%bool eqn:M; cbn [negb].
    + apply andb_true_iff in M. rewrite !Z.leb_le in M. split; [|lia]. destruct (np <? nleg)%nat; [discriminate|]. destruct (length p <? np)%nat; [discriminate|].
      destruct (length f <? nleg * np)%nat; [discriminate|]. destruct (negb _); discriminate.
    + apply andb_false_iff in M. rewrite !Z.leb_gt in M. split; [intros _; lia|reflexivity].
Qed.
Print Assumptions C58_exception.
(** Decreasing momenta, which GetPMin and GetPMax provide for, end the program. *)
Theorem C58_decreasing_refuted : ~ (forall np nleg p f method, (0 <= method <= 6)%Z -> (5 <= np <= length p)%nat -> (1 <= nleg <= np)%nat -> (nleg * np <= length f)%nat ->
  descending (firstn np p) -> exists o, code_initialize np nleg p f method = Ok o).
Proof.
  intro H. destruct (H 5%nat 1%nat [5; 4; 3; 2; 1] [0; 0; 0; 0; 0] 0%Z ltac:(lia) ltac:(cbn; lia) ltac:(lia) ltac:(cbn; lia)) as (o & E).
  - intros i j a b IJ E1 E2. cbn [firstn] in E1, E2.
    destruct i as [|[|[|[|[|i]]]]]; cbn in E1; try (destruct i; discriminate); injection E1 as <-;
      (destruct j as [|[|[|[|[|j]]]]]; cbn in E2; try (destruct j; discriminate); injection E2 as <-; (lia || lra)).
  - assert (X : exists o, code_initialize 5 1 [5; 4; 3; 2; 1] [0; 0; 0; 0; 0] 0 = Ok o) by (exists o; exact E).
    apply initialize_iff in X; [|lia]. destruct X as (_ & _ & _ & (A & _)). pose proof (A 0%nat 1%nat 5 4 ltac:(lia) eq_refl eq_refl). lra.
Qed.
Print Assumptions C58_decreasing_refuted.

(** The distribution is the positive part of the Legendre series, zero outside the grid. *)
Theorem C58_eval : forall itp np nleg p f method o q xi, code_initialize np nleg p f method = Ok o -> (2 <= nleg)%nat ->
  exists o', code_eval itp o q xi = Ok (o', code_value itp method np nleg p f q xi).
Proof.
  intros itp np nleg p f method o q xi E L. destruct (initialize_sound _ _ _ _ _ _ E L) as (S & C & E1 & E2 & E3 & E4 & E5).
  destruct (eval_step itp o None false q xi S C) as (o' & E' & _). exists o'. rewrite E'. unfold value_of. rewrite E1, E2, E3, E4, E5. reflexivity.
Qed.
Print Assumptions C58_eval.
(** So it is never negative, and never larger than the modes allow. *)
Theorem C58_range : forall itp method np nleg p f q xi, -1 <= xi <= 1 ->
  0 <= code_value itp method np nleg p f q xi <= sum nleg (fun i => Rabs (mode itp method np p f i q)).
Proof.
  intros itp method np nleg p f q xi X. set (B := sum nleg (fun i => Rabs (mode itp method np p f i q))).
  assert (W : sum nleg (fun i => mode itp method np p f i q * legendre i (- xi)) <= B /\ 0 <= B).
  { unfold B. induction nleg as [|n [IH1 IH2]]; [cbn; lra|]. rewrite !sum_S. pose proof (Rabs_pos (mode itp method np p f n q)).
    assert (mode itp method np p f n q * legendre n (- xi) <= Rabs (mode itp method np p f n q)); [|lra].
    apply Rle_trans with (Rabs (mode itp method np p f n q * legendre n (- xi))); [apply Rle_abs|]. rewrite Rabs_mult.
    rewrite <- (Rmult_1_r (Rabs (mode itp method np p f n q))) at 2. apply Rmult_le_compat_l; [assumption|]. apply leg_size. lra. }
  unfold code_value. destruct (Rlt_dec q (Rmin (nth 0 p 0) (nth (np - 1) p 0))); [lra|]. destruct (Rlt_dec (Rmax (nth 0 p 0) (nth (np - 1) p 0)) q); [lra|].
  split; [apply Rmax_l|]. apply Rmax_lub; tauto.
Qed.
Print Assumptions C58_range.

Definition first_itp (_ : Z) (_ ys : list R) (_ : R) : R := nth 0 ys 0.
Definition small : code := Code 0 2 2 [1; 2] [0; 0; 1; 1] [None; None] None.
Lemma small_ok : code_initialize 2 2 [1; 2] [0; 0; 1; 1] 0 = Ok small. Proof. apply (two_ok 1 2 2); [lra|lia|cbn; lia]. Qed.
Lemma small_value : forall q xi, 1 <= q <= 2 -> code_value first_itp 0 2 2 [1; 2] [0; 0; 1; 1] q xi = Rmax 0 (- xi).
Proof.
  intros q xi H. unfold code_value. cbn [nth Nat.sub]. rewrite Rmin_left, Rmax_right by lra. destruct (Rlt_dec q 1); [lra|]. destruct (Rlt_dec 2 q); [lra|].
  f_equal. rewrite !sum_S. unfold mode, first_itp. cbn. lra.
Qed.
Example C58_example : exists o', code_eval first_itp small 1 (-1 / 2) = Ok (o', 1 / 2).
Proof.
  destruct (C58_eval first_itp _ _ _ _ _ _ 1 (-1 / 2) small_ok ltac:(lia)) as (o' & E). exists o'. rewrite E, small_value by lra. rewrite Rmax_right by lra. do 2 f_equal. lra.
Qed.

(** * C59: history *)
(** After any number of evaluations the value depends on the point alone. *)
Theorem C59_evaluations : forall itp np nleg p f method o (h : list (R * R)) q xi, code_initialize np nleg p f method = Ok o -> (2 <= nleg)%nat ->
  exists o1 o2, code_calls itp o (map (fun x => CallEval (fst x) (snd x)) h) = Ok o1 /\ code_eval itp o1 q xi = Ok (o2, code_value itp method np nleg p f q xi).
Proof.
  intros itp np nleg p f method o h q xi E L. destruct (initialize_sound _ _ _ _ _ _ E L) as (S & C & E1 & E2 & E3 & E4 & E5).
  assert (CO : clean o) by (split; [exact S|exists None; exact C]). assert (D : same_data o o) by apply same_refl.
  assert (W : forall h o1, clean o1 -> same_data o o1 -> exists o2, code_calls itp o1 (map (fun x => CallEval (fst x) (snd x)) h) = Ok o2 /\ clean o2 /\ same_data o o2).
  { clear h. induction h as [|[a b] h IH]; intros o1 C1 D1; [exists o1; split; [reflexivity|]; split; assumption|].
    cbn [map fst snd code_calls code_call]. destruct (clean_eval itp o1 a b C1) as (o2 & X2 & C2 & D2). rewrite X2. cbn [obind fst]. apply IH; [exact C2|].
    apply (same_trans o o1 o2 D1 D2). }
  destruct (W h o CO D) as (o1 & X1 & C1 & D1). destruct (clean_eval itp o1 q xi C1) as (o2 & X2 & _ & _). exists o1, o2. split; [exact X1|].
  rewrite X2. destruct (same_value itp o o1 D1) as (V & _). rewrite V. unfold value_of. rewrite E1, E2, E3, E4, E5. reflexivity.
Qed.
Print Assumptions C59_evaluations.

(** After any calls: the value at the point, except at the pitch evaluated last if
    ToMomentumSpace has been called since; there it is the value at pitch one. *)
Theorem C59_history : forall itp np nleg p f method o h q xi, code_initialize np nleg p f method = Ok o -> (2 <= nleg)%nat ->
  (forall lg u n m, In (CallTable lg u n m) h -> (2 <= n)%nat) ->
  exists o1 o2, code_calls itp o h = Ok o1 /\
    code_eval itp o1 q xi = Ok (o2, code_value itp method np nleg p f q
      (match stale (Rmin (nth 0 p 0) (nth (np - 1) p 0)) (Rmax (nth 0 p 0) (nth (np - 1) p 0)) h None false with
       | (Some x, true) => if Req_EM_T xi x then 1 else xi
       | _ => xi
       end)).
Proof.
  intros itp np nleg p f method o h q xi E L M. destruct (initialize_sound _ _ _ _ _ _ E L) as (S & C & E1 & E2 & E3 & E4 & E5).
  assert (MM : Forall modelled h). { apply Forall_forall. intros c I. destruct c as [a b|lg u n m]; [exact Logic.I|]. apply (M lg u n m I). }
  destruct (calls_step itp h o None false S C MM) as (o1 & X1 & S1 & D1 & C1). unfold first_p, last_p in C1. rewrite E2, E4 in C1.
  destruct (stale (Rmin (nth 0 p 0) (nth (np - 1) p 0)) (Rmax (nth 0 p 0) (nth (np - 1) p 0)) h None false) as [last tabled].
  destruct (eval_step itp o1 last tabled q xi S1 C1) as (o2 & X2 & _). exists o1, o2. split; [exact X1|]. rewrite X2.
  destruct (same_value itp o o1 D1) as (V & _). rewrite V. unfold value_of. rewrite E1, E2, E3, E4, E5.
  destruct last as [x|]; [|reflexivity]. destruct tabled; [reflexivity|]. destruct (Req_EM_T xi x); reflexivity.
Qed.
Print Assumptions C59_history.

Theorem C59_refuted : ~ (forall itp np nleg p f method o h q xi o1 r, code_initialize np nleg p f method = Ok o -> (2 <= nleg)%nat ->
  (forall lg u n m, In (CallTable lg u n m) h -> (2 <= n)%nat) -> code_calls itp o h = Ok o1 -> code_eval itp o1 q xi = Ok r ->
  snd r = code_value itp method np nleg p f q xi).
Proof.
  intro H. set (h := [CallEval 1 (-1 / 2); CallTable false false 2 0]).
  assert (M : forall lg u n m, In (CallTable lg u n m) h -> (2 <= n)%nat) by (intros lg u n m [Q|[Q|[]]]; [discriminate|injection Q as _ _ <- _; lia]).
  destruct (C59_history first_itp 2 2 [1; 2] [0; 0; 1; 1] 0 small h 1 (-1 / 2) small_ok ltac:(lia) M) as (o1 & o2 & E1 & E2).
  specialize (H _ _ _ _ _ _ _ _ _ _ _ _ small_ok ltac:(lia) M E1 E2). cbn [snd nth Nat.sub] in H. rewrite Rmin_left, Rmax_right in H by lra.
  unfold h in H. cbn [stale] in H. destruct (Rlt_dec 1 1); [lra|]. destruct (Rlt_dec 2 1); [lra|]. destruct (Req_EM_T (-1 / 2) (-1 / 2)) as [_|N]; [|apply N; reflexivity].
  rewrite !small_value in H by lra. rewrite Rmax_left, Rmax_right in H by lra. lra.
Qed.
Print Assumptions C59_refuted.

(** A clone has a fresh cache: it never inherits wrong polynomials. *)
Theorem C59_clone : forall itp np nleg p f method o h o1 q xi, code_initialize np nleg p f method = Ok o -> (2 <= nleg)%nat ->
  (forall lg u n m, In (CallTable lg u n m) h -> (2 <= n)%nat) -> code_calls itp o h = Ok o1 ->
  exists c r, code_clone o1 = Ok c /\ code_eval itp c q xi = Ok (r, code_value itp method np nleg p f q xi).
Proof.
  intros itp np nleg p f method o h o1 q xi E L M X. destruct (initialize_sound _ _ _ _ _ _ E L) as (S & C & E1 & E2 & E3 & E4 & E5).
  assert (MM : Forall modelled h). { apply Forall_forall. intros c I. destruct c as [a b|lg u n m]; [exact Logic.I|]. apply (M lg u n m I). }
  destruct (calls_step itp h o None false S C MM) as (o1' & X1 & S1 & D1 & C1). rewrite X in X1. injection X1 as <-.
  destruct D1 as (D1 & D2 & D3 & D4 & D5). unfold code_clone. rewrite D1, D2, D3, D4, D5, E1, E2, E3, E4, E5, E.
  destruct (C58_eval itp np nleg p f method o q xi E L) as (o' & E'). exists o, o'. split; [reflexivity|exact E'].
Qed.
Print Assumptions C59_clone.
Example C59_example : exists o1 o2, code_calls first_itp small [CallEval 1 (-1 / 2); CallTable false false 3 0] = Ok o1 /\
  code_eval first_itp o1 1 (-1 / 4) = Ok (o2, 1 / 4).
Proof.
  destruct (C59_history first_itp 2 2 [1; 2] [0; 0; 1; 1] 0 small [CallEval 1 (-1 / 2); CallTable false false 3 0] 1 (-1 / 4) small_ok ltac:(lia)) as (o1 & o2 & E1 & E2).
  - intros lg u n m [Q|[Q|[]]]; [discriminate|injection Q as _ _ <- _; lia].
  - exists o1, o2. split; [exact E1|]. rewrite E2. cbn [nth Nat.sub]. rewrite Rmin_left, Rmax_right by lra. cbn [stale]. destruct (Rlt_dec 1 1); [lra|].
    destruct (Rlt_dec 2 1); [lra|]. destruct (Req_EM_T (-1 / 4) (-1 / 2)); [lra|]. rewrite small_value by lra. rewrite Rmax_right by lra. do 2 f_equal. lra.
Qed.

(** * C84: conversion to a numeric momentum distribution *)
(** The pitch grid starts at -1, ends at 1 and increases. *)
Theorem C84_grid : forall u n, (2 <= n)%nat -> pitch u n 0 = -1 /\ pitch u n (n - 1) = 1 /\
  (forall i j, (i < j < n)%nat -> pitch u n i < pitch u n j) /\
  (u = true -> forall i, (i < n)%nat -> pitch u n i = cos (PI - INR i * (PI / INR (n - 1)))) /\
  (u = false -> forall i, (i < n)%nat -> pitch u n i = -1 + INR i * (2 / INR (n - 1))).
Proof.
  intros u n H. assert (N : INR n - 1 <> 0) by (pose proof (le_INR 2 n H) as Q; cbn in Q; lra).
  split; [apply pitch_first; exact H|]. split; [apply pitch_last; exact H|]. split; [intros i j IJ; apply pitch_increasing; assumption|]. split.
  - intros -> i I. unfold pitch. f_equal. rewrite !minus_INR by lia. change (INR 1) with 1. field. exact N.
  - intros -> i I. unfold pitch. rewrite minus_INR by lia. change (INR 1) with 1. field. exact N.
Qed.
Print Assumptions C84_grid.

(** Node (j, i) of the table holds the Legendre series there; a logarithmic table holds the
    logarithm of its positive part, so that it is never refused. *)
Theorem C84_table : forall itp np nleg p f method o h o1 lg u n m, code_initialize np nleg p f method = Ok o -> (2 <= nleg)%nat ->
  (forall lg u n m, In (CallTable lg u n m) h -> (2 <= n)%nat) -> code_calls itp o h = Ok o1 -> (2 <= n)%nat ->
  (m = 0%Z \/ (4 <= np /\ 4 <= n)%nat) ->
  exists o2 t, to_momentum o1 lg u n m = Ok (o2, Ok t) /\ ms_p t = firstn np p /\ ms_xi t = map (pitch u n) (seq 0 n) /\ ms_log t = lg /\
    ms_flip t = false /\ ms_cubic t = negb (m =? 0)%Z /\
    tabulates (ms_f t) np n (fun j i =>
      let s := sum nleg (fun k => nth (k * np + j) f 0 * legendre k (- pitch u n i)) in if lg then safe_log (Rmax 0 s) else Fin s).
Proof.
  intros itp np nleg p f method o h o1 lg u n m E L M X N ME. destruct (initialize_sound _ _ _ _ _ _ E L) as (S & C & E1 & E2 & E3 & E4 & E5).
  assert (GP : mesh m (firstn np p) /\ mesh m (map (pitch u n) (seq 0 n))).
  { assert (T : exists o, code_initialize np nleg p f method = Ok o) by (exists o; exact E). apply initialize_iff in T; [|lia]. destruct T as (_ & (TN & TL) & _ & (TA & _)).
    unfold mesh. rewrite firstn_length_le by exact TL. rewrite map_length, seq_length.
    assert (AP : ascending (map (pitch u n) (seq 0 n))).
    { intros i j a b IJ A B. assert (J : (j < n)%nat) by (rewrite <- (seq_length n 0), <- (map_length (pitch u n)); apply nth_error_Some; rewrite B; discriminate).
      rewrite nth_map_seq in A by lia. rewrite nth_map_seq in B by lia. injection A as <-. injection B as <-. apply pitch_increasing; lia. }
    split; (split; [assumption|]); destruct (m =? 0)%Z eqn:MZ; try lia; apply Z.eqb_neq in MZ; lia. }
  destruct GP as [GP GX].
  assert (MM : Forall modelled h). { apply Forall_forall. intros c I. destruct c as [a b|lg' u' n' m']; [exact Logic.I|]. apply (M lg' u' n' m' I). }
  destruct (calls_step itp h o None false S C MM) as (o1' & X1 & S1 & D1 & C1). rewrite X in X1. injection X1 as <-.
  destruct (stale (first_p o) (last_p o) h None false) as [last tabled].
  destruct (table_step o1 last tabled lg u n m S1 C1 N) as (o2 & ff & T & _ & _ & _ & TF).
  assert (D1' := D1). destruct D1' as (Y1 & Y2 & Y3 & Y4 & Y5). destruct S1 as (SA & (SB1 & SB2) & SC & SD). rewrite Y2, E2, Y4, E4 in *.
  assert (LP : length (firstn np p) = np) by (apply firstn_length_le; exact SB2).
  assert (LX : length (map (pitch u n) (seq 0 n)) = n) by (rewrite map_length; apply seq_length).
  assert (P0 : nth_error (firstn np p) 0 = Some (nth 0 p 0)).
  { rewrite (nth_error_nth' _ 0) by lia. f_equal. destruct p, np; cbn in *; try lia; reflexivity. }
  assert (P1 : nth_error (firstn np p) (length (firstn np p) - 1) = Some (nth (np - 1) p 0)).
  { rewrite LP. rewrite <- (nth_error_app1 _ (skipn np p)) by lia. rewrite firstn_skipn. apply nth_error_nth'. lia. }
  assert (X0 : nth_error (map (pitch u n) (seq 0 n)) 0 = Some (-1)) by (rewrite nth_map_seq by lia; f_equal; apply pitch_first; exact N).
  assert (X1 : nth_error (map (pitch u n) (seq 0 n)) (length (map (pitch u n) (seq 0 n)) - 1) = Some 1) by (rewrite LX, nth_map_seq by lia; f_equal; apply pitch_last; exact N).
  assert (PP : nth 0 p 0 <= nth (np - 1) p 0).
  { destruct (grid_ends _ _ GP) as (a & b & A & B & AB). rewrite P0 in A. rewrite P1 in B. injection A as ->. injection B as ->. lra. }
  destruct TF as [TL TV]. destruct lg.
  - assert (LT : (length (firstn np p) * length (map (pitch u n) (seq 0 n)) <= length ff)%nat) by (rewrite LP, LX, TL; lia).
    assert (NN : forall i v, (i < length (firstn np p) * length (map (pitch u n) (seq 0 n)))%nat -> nth_error ff i = Some v -> 0 <= v).
    { intros i v I V. rewrite LP, LX in I. destruct (index_split np n i I) as (I1 & I2 & I3). rewrite I3, Nat.add_comm, (TV _ _ I1 I2) in V.
      injection V as <-. unfold table_value. apply Rmax_l. }
    unfold ms_initialize_log in T. rewrite (log_table_ok _ _ LT NN) in T. cbn [obind] in T.
    rewrite (ms_initialize_do true false _ _ _ m _ _ _ _ P0 P1 X0 X1 PP ltac:(lra)) in T by (try assumption; rewrite LP, LX, map_length, firstn_length, TL, Nat.min_id; lia).
    eexists _, _. split; [exact T|]. cbn [ms_p ms_xi ms_log ms_flip ms_cubic ms_f]. repeat (split; [reflexivity|]).
    rewrite LP, LX. rewrite (firstn_all2 ff) by lia. rewrite firstn_all2 by (rewrite map_length; lia). split; [rewrite map_length; exact TL|].
    intros j i J I. rewrite nth_error_map, (TV j i J I). cbn [option_map]. f_equal. unfold table_value. rewrite ?Y2, ?Y3, ?Y5, ?E2, ?E3, ?E5. apply xlog_nonneg. apply Rmax_l.
  - rewrite (ms_initialize_do false false _ _ _ m _ _ _ _ P0 P1 X0 X1 PP ltac:(lra)) in T by (try assumption; rewrite LP, LX, map_length, TL; lia).
    eexists _, _. split; [exact T|]. cbn [ms_p ms_xi ms_log ms_flip ms_cubic ms_f]. repeat (split; [reflexivity|]).
    rewrite LP, LX. rewrite firstn_all2 by (rewrite map_length; lia). split; [rewrite map_length; exact TL|].
    intros j i J I. rewrite nth_error_map, (TV j i J I). cbn [option_map]. f_equal. unfold table_value. rewrite ?Y2, ?Y3, ?Y5, ?E2, ?E3, ?E5. reflexivity.
Qed.
Print Assumptions C84_table.
(** A cubic interpolation with fewer than four momenta or pitches ends the program. *)
Theorem C84_few : forall itp np nleg p f method o h o1 lg u n m, code_initialize np nleg p f method = Ok o -> (2 <= nleg)%nat ->
  (forall lg u n m, In (CallTable lg u n m) h -> (2 <= n)%nat) -> code_calls itp o h = Ok o1 -> (2 <= n)%nat ->
  m <> 0%Z -> (np < 4 \/ n < 4)%nat -> exists o2, to_momentum o1 lg u n m = Ok (o2, UB).
Proof.
  intros itp np nleg p f method o h o1 lg u n m E L M X N MZ FW. destruct (initialize_sound _ _ _ _ _ _ E L) as (S & C & E1 & E2 & E3 & E4 & E5).
  assert (T : exists o, code_initialize np nleg p f method = Ok o) by (exists o; exact E). apply initialize_iff in T; [|lia]. destruct T as (_ & (TN & TLP) & _ & (TA & _)).
  assert (MM : Forall modelled h). { apply Forall_forall. intros c I. destruct c as [a b|lg' u' n' m']; [exact Logic.I|]. apply (M lg' u' n' m' I). }
  destruct (calls_step itp h o None false S C MM) as (o1' & X1 & S1 & D1 & C1). rewrite X in X1. injection X1 as <-.
  destruct (stale (first_p o) (last_p o) h None false) as [last tabled].
  destruct (table_step o1 last tabled lg u n m S1 C1 N) as (o2 & ff & TM & _ & _ & _ & TF).
  assert (D1' := D1). destruct D1' as (Y1 & Y2 & Y3 & Y4 & Y5). destruct S1 as (SA & (SB1 & SB2) & SC & SD). rewrite Y2, E2, Y4, E4 in *.
  assert (LP : length (firstn np p) = np) by (apply firstn_length_le; exact SB2).
  assert (LX : length (map (pitch u n) (seq 0 n)) = n) by (rewrite map_length; apply seq_length).
  assert (P0 : nth_error (firstn np p) 0 = Some (nth 0 p 0)).
  { rewrite (nth_error_nth' _ 0) by lia. f_equal. destruct p, np; cbn in *; try lia; reflexivity. }
  assert (P1 : nth_error (firstn np p) (length (firstn np p) - 1) = Some (nth (np - 1) p 0)).
  { rewrite LP. rewrite <- (nth_error_app1 _ (skipn np p)) by lia. rewrite firstn_skipn. apply nth_error_nth'. lia. }
  assert (X0 : nth_error (map (pitch u n) (seq 0 n)) 0 = Some (-1)) by (rewrite nth_map_seq by lia; f_equal; apply pitch_first; exact N).
  assert (X1 : nth_error (map (pitch u n) (seq 0 n)) (length (map (pitch u n) (seq 0 n)) - 1) = Some 1) by (rewrite LX, nth_map_seq by lia; f_equal; apply pitch_last; exact N).
  assert (PP : nth 0 p 0 <= nth (np - 1) p 0).
  { left. apply (TA 0%nat (length (firstn np p) - 1)%nat); [lia|exact P0|exact P1]. }
  destruct TF as [TL TV].
  assert (W : forall lg' ff', ms_initialize lg' false (firstn np p) (map (pitch u n) (seq 0 n)) ff' m = UB).
  { intros lg' ff'. destruct (ms_initialize lg' false (firstn np p) (map (pitch u n) (seq 0 n)) ff' m) as [t| |] eqn:Q; [| |reflexivity]; exfalso.
    - destruct (ms_initialize_ok _ _ _ _ _ _ _ Q) as (a & b & c & d & _ & _ & _ & _ & _ & _ & _ & ((_ & G1) & (_ & G2)) & _).
      rewrite LP in G1. rewrite LX in G2. apply Z.eqb_neq in MZ. rewrite MZ in G1, G2. lia.
    - destruct (rejected_shape _ _ _ _ _ _ Q) as (t & _ & _ & _ & _ & _ & _ & RV & Q0 & Q1 & Q2 & Q3).
      rewrite P0 in Q0. rewrite P1 in Q1. rewrite X0 in Q2. rewrite X1 in Q3. injection Q0 as Q0. injection Q1 as Q1. injection Q2 as Q2. injection Q3 as Q3. lra. }
  exists o2. rewrite TM. f_equal. f_equal. destruct lg; [|apply W]. unfold ms_initialize_log. rewrite log_table_ok.
  - cbn [obind]. apply W.
  - rewrite LP, LX, TL. lia.
  - intros i v I V. rewrite LP, LX in I. destruct (index_split np n i I) as (I1 & I2 & I3). rewrite I3, Nat.add_comm, (TV _ _ I1 I2) in V.
    injection V as <-. unfold table_value. apply Rmax_l.
Qed.
Print Assumptions C84_few.

(** If the interpolation reproduces its data, the CODE distribution has, at every momentum of
    the grid, the positive part of the same series as its value. *)
Theorem C84_agrees : forall itp method np nleg p f j xi, (np <= length p)%nat -> (j < np)%nat ->
  Rmin (nth 0 p 0) (nth (np - 1) p 0) <= nth j p 0 <= Rmax (nth 0 p 0) (nth (np - 1) p 0) ->
  (forall ys, itp method (firstn np p) (firstn np ys) (nth j p 0) = nth j ys 0) ->
  code_value itp method np nleg p f (nth j p 0) xi = Rmax 0 (sum nleg (fun k => nth (k * np + j) f 0 * legendre k (- xi))).
Proof.
  intros itp method np nleg p f j xi L J [H1 H2] IT. unfold code_value. destruct (Rlt_dec (nth j p 0) (Rmin (nth 0 p 0) (nth (np - 1) p 0))); [lra|].
  destruct (Rlt_dec (Rmax (nth 0 p 0) (nth (np - 1) p 0)) (nth j p 0)); [lra|]. f_equal. apply sum_ext. intros k _. unfold mode. rewrite IT. f_equal.
  clear. rewrite Nat.add_comm. revert f. generalize (k * np)%nat. induction n as [|n IH]; intro f; [cbn; rewrite Nat.add_0_r; reflexivity|].
  destruct f as [|a f]; [cbn; destruct j; destruct (_ + _)%nat; reflexivity|]. cbn [skipn]. rewrite IH. rewrite Nat.add_succ_r. reflexivity.
Qed.
Print Assumptions C84_agrees.
Example C84_example : exists o2 t, to_momentum small true false 3 0 = Ok (o2, Ok t) /\ nth_error (ms_f t) 0 = Some (Fin 0) /\ nth_error (ms_f t) 5 = Some NInf.
Proof.
  destruct (C84_table first_itp 2 2 [1; 2] [0; 0; 1; 1] 0 small [] small true false 3 0 small_ok ltac:(lia)) as (o2 & t & E & _ & _ & _ & _ & _ & _ & T).
  - intros lg u n m [].
  - reflexivity.
  - lia.
  - left. reflexivity.
  - exists o2, t. split; [exact E|]. split.
    + change 0%nat with (0 + 0 * 2)%nat. rewrite (T 0%nat 0%nat) by lia. rewrite (pitch_first false 3) by lia. f_equal. cbv zeta iota.
      rewrite !sum_S. cbn. unfold safe_log. rewrite Rmax_right by lra. destruct (Rle_dec _ 0); [lra|]. f_equal. replace (0 + 0 * 1 + 1 * - -1) with 1 by lra. apply ln_1.
    + change 5%nat with (1 + 2 * 2)%nat. rewrite (T 1%nat 2%nat) by lia. change (pitch false 3 2) with (pitch false 3 (3 - 1)). rewrite (pitch_last false 3) by lia. f_equal. cbv zeta iota.
      rewrite !sum_S. cbn. unfold safe_log. rewrite Rmax_left by lra. destruct (Rle_dec 0 0); [reflexivity|lra].
Qed.

(** * C63: GO+CODE *)
(** With two radii, every evaluation is defined, after any evaluations before. *)
Theorem C63_defined : forall itp rho cs h r p xi s, Forall fresh cs -> length cs = length rho -> (2 <= length rho)%nat ->
  exists g e, gocode_evals itp (Gocode rho cs) h = Ok g /\ gocode_eval itp g r p xi s = Ok e.
Proof.
  intros itp rho cs h r p xi s F LC L. destruct (evals_total itp h (Gocode rho cs) (fresh_all _ F) LC L) as (g & E & R1 & S1).
  destruct (eval_total itp g r p xi s (same_codes_clean _ _ S1)) as (g' & v & E' & _).
  - rewrite R1, (same_codes_length _ _ S1). exact LC.
  - rewrite R1. exact L.
  - exists g, (g', v). split; [exact E|exact E'].
Qed.
Print Assumptions C63_defined.
(** Between neighbouring radii, the ends included: the straight line, whatever was evaluated before. *)
Theorem C63_between : forall itp rho cs h g i r0 r1 c0 c1 r p xi s, Forall fresh cs -> length cs = length rho -> ascending rho ->
  gocode_evals itp (Gocode rho cs) h = Ok g ->
  nth_error rho i = Some r0 -> nth_error rho (S i) = Some r1 -> nth_error cs i = Some c0 -> nth_error cs (S i) = Some c1 ->
  r0 <= r - s <= r1 -> (i = 0%nat -> r0 <> 0) ->
  exists g', gocode_eval itp g r p xi s = Ok (g', Some (through r0 (code_at itp c0 p xi) r1 (code_at itp c1 p xi) (r - s))).
Proof.
  intros itp rho cs h g i r0 r1 c0 c1 r p xi s F LC G E R0 R1 C0 C1 H NZ.
  assert (L : (S i < length rho)%nat) by (apply nth_error_Some; rewrite R1; discriminate).
  destruct (evals_total itp h (Gocode rho cs) (fresh_all _ F) LC ltac:(cbn; lia)) as (g1 & E' & RG & S1). rewrite E in E'. injection E' as <-. cbn [g_rho g_code] in *.
  destruct (same_codes_nth _ _ _ _ S1 C0) as (d0 & D0 & _ & SD0). destruct (same_codes_nth _ _ _ _ S1 C1) as (d1 & D1 & _ & SD1).
  destruct (between_ok itp g (same_codes_clean _ _ S1) i r0 r1 d0 d1 r p xi s) as (g' & E2 & _); try (rewrite ?RG; assumption).
  - rewrite RG, (same_codes_length _ _ S1). exact LC.
  - exists g'. rewrite E2. destruct (same_value itp c0 d0 SD0) as (V0 & _). destruct (same_value itp c1 d1 SD1) as (V1 & _). rewrite V0, V1. reflexivity.
Qed.
Print Assumptions C63_between.
(** Outside the grid, below it as well as above, the two outermost distributions are used, with
    the slope of the numeric distribution function. *)
Theorem C63_outside : forall itp rho cs h g a rl rb cl cb r p xi s, Forall fresh cs -> length cs = length rho -> ascending rho -> (2 <= length rho)%nat ->
  gocode_evals itp (Gocode rho cs) h = Ok g -> nth_error rho 0 = Some a ->
  nth_error rho (length rho - 1) = Some rl -> nth_error rho (length rho - 2) = Some rb ->
  nth_error cs (length rho - 1) = Some cl -> nth_error cs (length rho - 2) = Some cb ->
  (r - s < a \/ rl < r - s) ->
  exists g', gocode_eval itp g r p xi s = Ok (g', if Req_EM_T (2 * rl - rb) 0 then None
      else Some (code_at itp cl p xi + (r - s - rl) * ((code_at itp cl p xi - code_at itp cb p xi) / (2 * rl - rb)))).
Proof.
  intros itp rho cs h g a rl rb cl cb r p xi s F LC G L E A RL RB C0 C1 H.
  destruct (evals_total itp h (Gocode rho cs) (fresh_all _ F) LC L) as (g1 & E' & RG & S1). rewrite E in E'. injection E' as <-. cbn [g_rho g_code] in *.
  destruct (same_codes_nth _ _ _ _ S1 C0) as (d0 & D0 & _ & SD0). destruct (same_codes_nth _ _ _ _ S1 C1) as (d1 & D1 & _ & SD1).
  destruct (last_ok itp g (same_codes_clean _ _ S1) rl rb d0 d1 r p xi s) as (g' & E2 & _); try (rewrite ?RG; assumption).
  - rewrite RG. destruct H as [H|H].
    + left. apply (find_below _ _ a L A H).
    + right. apply (find_above _ _ a rl L A RL); [|exact H]. pose proof (ascending_le rho 0 (length rho - 1) a rl G ltac:(lia) A RL). lra.
  - exists g'. rewrite E2. destruct (same_value itp cl d0 SD0) as (V0 & _). destruct (same_value itp cb d1 SD1) as (V1 & _). rewrite V0, V1. reflexivity.
Qed.
Print Assumptions C63_outside.
Lemma small_fresh : fresh small. Proof. exists 2%nat, 2%nat, [1; 2], [0; 0; 1; 1], 0%Z. split; [exact small_ok|lia]. Qed.
Definition flat : code := Code 0 2 2 [1; 2] [5; 5; 0; 0] [None; None] None.
Lemma flat_fresh : fresh flat. Proof. exists 2%nat, 2%nat, [1; 2], [5; 5; 0; 0], 0%Z. split; [apply (two_ok 1 2 2); [lra|lia|cbn; lia]|lia]. Qed.
Lemma flat_value : forall q xi, 1 <= q <= 2 -> code_at first_itp flat q xi = 5.
Proof.
  intros q xi H. unfold code_at, code_value. cbn [flat c_method c_np c_nleg c_p c_f nth Nat.sub]. rewrite Rmin_left, Rmax_right by lra. destruct (Rlt_dec q 1); [lra|]. destruct (Rlt_dec 2 q); [lra|].
  rewrite !sum_S. unfold mode, first_itp. cbn. rewrite Rmax_right; lra.
Qed.
Lemma small_zero : code_at first_itp small 1 0 = 0.
Proof. unfold code_at. cbn [small c_method c_np c_nleg c_p c_f]. rewrite small_value by lra. apply Rmax_left. lra. Qed.
Lemma asc_123 : ascending [1; 2; 3].
Proof.
  intros i j u v LT U V. destruct i as [|[|[|i]]], j as [|[|[|j]]]; cbn in U, V; try discriminate; try lia;
    try (destruct i; discriminate); try (destruct j; discriminate); injection U as <-; injection V as <-; lra.
Qed.
Lemma three_fresh : Forall fresh [flat; flat; small].
Proof. repeat constructor; apply flat_fresh || apply small_fresh. Qed.
(** So the first line is not continued below the grid. *)
Theorem C63_below_refuted : ~ (forall itp rho cs r0 r1 c0 c1 r p xi s g' v, Forall fresh cs -> ascending rho -> length cs = length rho ->
  nth_error rho 0 = Some r0 -> nth_error rho 1 = Some r1 -> nth_error cs 0 = Some c0 -> nth_error cs 1 = Some c1 ->
  r0 <> 0 -> r - s < r0 -> gocode_eval itp (Gocode rho cs) r p xi s = Ok (g', v) -> v = Some (through r0 (code_at itp c0 p xi) r1 (code_at itp c1 p xi) (r - s))).
Proof.
  intro H.
  destruct (C63_outside first_itp [1; 2; 3] [flat; flat; small] [] _ 1 3 2 small flat (1 / 2) 1 0 0 three_fresh eq_refl asc_123 ltac:(cbn; lia) eq_refl eq_refl eq_refl eq_refl eq_refl eq_refl ltac:(lra)) as (g' & E).
  specialize (H first_itp _ _ 1 2 flat flat (1 / 2) 1 0 0 g' _ three_fresh asc_123 eq_refl eq_refl eq_refl eq_refl eq_refl ltac:(lra) ltac:(lra) E).
  destruct (Req_EM_T (2 * 3 - 2) 0); [lra|]. injection H as H. rewrite small_zero, !flat_value in H by lra. unfold through in H. lra.
Qed.
Print Assumptions C63_below_refuted.
(** A single radius: every evaluation reads outside the arrays. *)
Theorem C63_single : forall itp r0 c r p xi s, gocode_eval itp (Gocode [r0] [c]) r p xi s = UB.
Proof. reflexivity. Qed.
Print Assumptions C63_single.
(** A clone consists of new distributions with the same values. *)
Theorem C63_clone : forall itp rho cs h g, Forall fresh cs -> length cs = length rho -> (2 <= length rho)%nat -> gocode_evals itp (Gocode rho cs) h = Ok g ->
  gocode_clone g = Ok (Gocode rho cs).
Proof.
  intros itp rho cs h g F LC L E. destruct (evals_total itp h (Gocode rho cs) (fresh_all _ F) LC L) as (g1 & E' & RG & S1). rewrite E in E'. injection E' as <-.
  cbn [g_rho g_code] in *. unfold gocode_clone. rewrite RG, (fill_list _ _ _ cs LC); [reflexivity|].
  intros i c N. destruct (same_codes_nth _ _ _ _ S1 N) as (d & D & _ & (D1 & D2 & D3 & D4 & D5)). unfold dget. rewrite D. cbn [obind].
  rewrite Forall_forall in F. destruct (F c (nth_error_In _ _ N)) as (np & nleg & p & f & m & EI & LL).
  destruct (initialize_sound _ _ _ _ _ _ EI LL) as (_ & _ & E1 & E2 & E3 & E4 & E5). unfold code_clone. rewrite D1, D2, D3, D4, D5, E1, E2, E3, E4, E5. exact EI.
Qed.
Print Assumptions C63_clone.
Example C63_example : exists g', gocode_eval first_itp (Gocode [1; 2; 3] [flat; flat; small]) (5 / 2) 1 0 0 = Ok (g', Some (5 / 2)).
Proof.
  destruct (C63_between first_itp [1; 2; 3] [flat; flat; small] [] _ 1 2 3 flat small (5 / 2) 1 0 0 three_fresh eq_refl asc_123 eq_refl eq_refl eq_refl eq_refl eq_refl ltac:(lra) ltac:(discriminate)) as (g' & E).
  exists g'. rewrite E. do 3 f_equal. rewrite flat_value, small_zero by lra. unfold through. lra.
Qed.

(** * C60: time indices of CODE and GO+CODE files *)
(** The slice a time index stands for is the one that is used; the momenta and the modes are
    scaled by the reference values. *)
Theorem C60_code : forall m ys delta nref Tref nleg nt g time t method, describes m ys delta nref Tref nleg nt g -> (Z.of_nat nleg < 2 ^ 31)%Z -> 0 < Tref ->
  ys <> [] -> slice_of nt time t ->
  code_load m time method = code_initialize (length ys) nleg (map (fun y => y * delta) ys)
    (map (fun i => g t i * (nref / Rpower (2 * PI * electron_mass * Tref) (3 / 2))) (seq 0 (length ys * nleg))) method.
Proof.
  intros m ys delta nref Tref nleg nt g time t method (Y & D & NR & TR & NX & f & F & ST) LN TP NY SL. assert (RY := vector_rows _ _ Y NY).
  destruct (vector_ok _ _ Y) as (y & EY & VL & VY). destruct (number_ok _ _ D) as (d & ED & SD). destruct (number_ok _ _ NX) as (x & EX & SX).
  unfold code_load. rewrite EY. cbn [need obind]. rewrite VL. cbn [obind]. rewrite ED. cbn [need obind]. rewrite SD. cbn [obind].
  rewrite (number_or_one_ok _ _ NR). cbn [obind]. rewrite (number_or_one_ok _ _ TR). cbn [obind]. rewrite EX. cbn [need obind]. rewrite SX. cbn [obind].
  rewrite (int_of_nat nleg LN). cbn [obind].
  rewrite (fill_list _ _ _ (map (fun y => y * delta) ys)); [|apply map_length|].
  2: { intros i v E. rewrite nth_error_map in E. destruct (nth_error ys i) as [w|] eqn:W; [|discriminate]. injection E as <-.
       assert (I : (i < length ys)%nat) by (apply nth_error_Some; rewrite W; discriminate). rewrite (VY i I). cbn [obind]. rewrite (nth_error_nth ys i 0 W). reflexivity. }
  cbn [obind]. rewrite F. cbn [need obind]. assert (ST' := ST). destruct ST' as (R1 & C1 & _ & _). rewrite R1, C1.
  replace (Z.of_nat nleg <? 0)%Z with false by (symmetry; apply Z.ltb_ge; lia). rewrite Nat2Z.inj_mul, Z.eqb_refl. cbn [negb]. rewrite (slice_ok nt time t SL). cbn [obind orb].
  replace (ma_rows y =? 0)%nat with false by (symmetry; apply Nat.eqb_neq; exact (RY y EY)).
  destruct (Rle_dec Tref 0); [lra|]. rewrite !Nat2Z.id. rewrite (fill_ok _ _ _ (fun i => g t i * code_norm nref Tref)).
  2: { intros i I. rewrite (aget_ok _ _ _ _ _ _ _ ST); [reflexivity|apply SL|exact I]. }
  cbn [obind]. rewrite norm_power by exact TP. reflexivity.
Qed.
Print Assumptions C60_code.
(** Any other index is refused. *)
Theorem C60_code_refused : forall m ys delta nref Tref nleg nt g time method, describes m ys delta nref Tref nleg nt g -> (Z.of_nat nleg < 2 ^ 31)%Z ->
  (time < - Z.of_nat nt \/ Z.of_nat nt <= time)%Z -> code_load m time method = Throw.
Proof.
  intros m ys delta nref Tref nleg nt g time method (Y & D & NR & TR & NX & f & F & ST) LN SL.
  destruct (vector_ok _ _ Y) as (y & EY & VL & VY). destruct (number_ok _ _ D) as (d & ED & SD). destruct (number_ok _ _ NX) as (x & EX & SX).
  unfold code_load. rewrite EY. cbn [need obind]. rewrite VL. cbn [obind]. rewrite ED. cbn [need obind]. rewrite SD. cbn [obind].
  rewrite (number_or_one_ok _ _ NR). cbn [obind]. rewrite (number_or_one_ok _ _ TR). cbn [obind]. rewrite EX. cbn [need obind]. rewrite SX. cbn [obind].
  rewrite (int_of_nat nleg LN). cbn [obind].
  rewrite (fill_ok _ _ _ (fun i => nth i ys 0 * delta)) by (intros i I; rewrite (VY i I); reflexivity).
  cbn [obind]. rewrite F. cbn [need obind]. assert (ST' := ST). destruct ST' as (R1 & C1 & _ & _). rewrite R1, C1.
  rewrite Nat2Z.inj_mul, Z.eqb_refl. cbn [negb]. rewrite (slice_no nt time SL). reflexivity.
Qed.
Print Assumptions C60_code_refused.
(** GO+CODE: the groups of that slice are read, each with its first time. *)
Theorem C60_gocode : forall magic r rs nt files axis time t method cs, magic <> Some false -> vector r rs -> rs <> [] -> ascending rs ->
  (Z.of_nat nt < 2 ^ 31)%Z -> slice_of nt time t ->
  Forall2 (fun i c => code_load (files (Z.of_nat t) i) 0 method = Ok c) (seq 0 (length rs)) cs ->
  gocode_load magic r (Some (INR nt)) files axis time method = Ok (Gocode (map (fun v => v + axis) rs) cs).
Proof.
  intros magic r rs nt files axis time t method cs MG V NE A LN SL FS. destruct (vector_ok _ _ V) as (a & -> & VL & VA).
  assert (Q : gocode_load magic (Some a) (Some (INR nt)) files axis time method = gocode_load None (Some a) (Some (INR nt)) files axis time method) by (destruct magic as [[|]|]; [reflexivity|congruence|reflexivity]).
  rewrite Q. unfold gocode_load. cbn [need obind]. rewrite VL. cbn [obind].
  rewrite (fill_list _ _ _ (map (fun v => v + axis) rs)); [|apply map_length|].
  2: { intros i v E. rewrite nth_error_map in E. destruct (nth_error rs i) as [w|] eqn:W; [|discriminate]. injection E as <-.
       assert (I : (i < length rs)%nat) by (apply nth_error_Some; rewrite W; discriminate). rewrite (VA i I). cbn [obind]. rewrite (nth_error_nth rs i 0 W). reflexivity. }
  cbn [obind]. rewrite monotone_up. assert (A' : ascending (map (fun v => v + axis) rs)).
  { intros i j u v IJ U W. rewrite nth_error_map in U, W. destruct (nth_error rs i) as [u0|] eqn:U0; [|discriminate]. destruct (nth_error rs j) as [w0|] eqn:W0; [|discriminate].
    injection U as <-. injection W as <-. pose proof (A i j u0 w0 IJ U0 W0). lra. }
  replace (increasing (map (fun v => v + axis) rs)) with true by (symmetry; apply increasing_ok; exact A'). cbn [negb].
  destruct rs as [|r0 rs]; [congruence|]. change (dget (map (fun v => v + axis) (r0 :: rs)) 0) with (Ok (r0 + axis)). cbn [obind].
  rewrite (int_of_nat nt LN). cbn [obind]. rewrite (slice_ok nt time t SL). cbn [obind].
  rewrite (fill_list _ _ _ cs); [reflexivity| |].
  - rewrite <- (Forall2_len _ _ _ _ _ FS). apply seq_length.
  - intros i c E. assert (W : forall k l m, Forall2 (fun i c => code_load (files (Z.of_nat t) i) 0 method = Ok c) (seq k l) m -> forall i c, nth_error m i = Some c -> code_load (files (Z.of_nat t) (k + i)%nat) 0 method = Ok c).
    { clear. intros k l. revert k. induction l as [|l IH]; intros k m H i c E; inversion H as [|u v l' m' H1 H2]; subst; [destruct i; discriminate|].
      destruct i as [|i]; cbn in E; [injection E as <-; rewrite Nat.add_0_r; exact H1|]. rewrite Nat.add_succ_r. apply (IH (S k) m' H2 i c E). }
    apply (W 0%nat _ cs FS i c E).
Qed.
Print Assumptions C60_gocode.
Theorem C60_gocode_refused : forall magic r rs nt files axis time method, vector r rs -> rs <> [] ->
  (Z.of_nat nt < 2 ^ 31)%Z -> (time < - Z.of_nat nt \/ Z.of_nat nt <= time)%Z ->
  gocode_load magic r (Some (INR nt)) files axis time method = Throw.
Proof.
  intros magic r rs nt files axis time method V NE LN SL. destruct (vector_ok _ _ V) as (a & -> & VL & VA).
  assert (W : gocode_load None (Some a) (Some (INR nt)) files axis time method = Throw).
  { unfold gocode_load. cbn [need obind]. rewrite VL. cbn [obind].
    rewrite (fill_ok _ _ _ (fun i => nth i rs 0 + axis)) by (intros i I; rewrite (VA i I); reflexivity). cbn [obind].
    destruct (monotone true _); cbn [negb]; [|reflexivity]. destruct rs as [|r0 rs]; [congruence|]. cbn [length seq map dget nth_error obind].
    rewrite (int_of_nat nt LN). cbn [obind]. rewrite (slice_no nt time SL). reflexivity. }
  destruct magic as [[|]|]; [exact W|reflexivity|exact W].
Qed.
Print Assumptions C60_gocode_refused.

(** * C85: what the loaders refuse *)
(** A file without a required variable, with one of the wrong size, or with a table that does
    not have one column per momentum and mode is refused. *)
Theorem C85_required : forall m time method, (cf_y m = None \/ (cf_delta m = None /\ exists l, vector (cf_y m) l)) -> code_load m time method = Throw.
Proof.
  intros m time method [H|[H (l & V)]]; unfold code_load; [rewrite H; reflexivity|]. destruct (vector_ok _ _ V) as (y & EY & VL & _). rewrite EY. cbn [need obind]. rewrite VL. cbn [obind].
  rewrite H. reflexivity.
Qed.
Print Assumptions C85_required.
Theorem C85_matrix : forall m y time method, cf_y m = Some y -> ma_rows y <> 1%nat -> ma_cols y <> 1%nat -> code_load m time method = Throw.
Proof.
  intros m y time method E H1 H2. unfold code_load. rewrite E. cbn [need obind]. unfold vector_length. apply Nat.eqb_neq in H1, H2. rewrite H1, H2. reflexivity.
Qed.
Print Assumptions C85_matrix.
Theorem C85_size : forall m ys delta nref Tref nleg f time method, vector (cf_y m) ys -> number (cf_delta m) delta -> number_or_one (cf_nref m) nref ->
  number_or_one (cf_Tref m) Tref -> number (cf_Nxi m) (INR nleg) -> (Z.of_nat nleg < 2 ^ 31)%Z -> cf_f m = Some f -> ma_cols f <> (length ys * nleg)%nat ->
  code_load m time method = Throw.
Proof.
  intros m ys delta nref Tref nleg f time method Y D NR TR NX LN F SZ.
  destruct (vector_ok _ _ Y) as (y & EY & VL & VY). destruct (number_ok _ _ D) as (d & ED & SD). destruct (number_ok _ _ NX) as (x & EX & SX).
  unfold code_load. rewrite EY. cbn [need obind]. rewrite VL. cbn [obind]. rewrite ED. cbn [need obind]. rewrite SD. cbn [obind].
  rewrite (number_or_one_ok _ _ NR). cbn [obind]. rewrite (number_or_one_ok _ _ TR). cbn [obind]. rewrite EX. cbn [need obind]. rewrite SX. cbn [obind].
  rewrite (int_of_nat nleg LN). cbn [obind].
  rewrite (fill_ok _ _ _ (fun i => nth i ys 0 * delta)) by (intros i I; rewrite (VY i I); reflexivity).
  cbn [obind]. rewrite F. cbn [need obind]. replace (Z.of_nat (ma_cols f) =? Z.of_nat (length ys) * Z.of_nat nleg)%Z with false by (symmetry; apply Z.eqb_neq; lia).
  reflexivity.
Qed.
Print Assumptions C85_size.
(** GO+CODE: a wrong type, a missing or two-dimensional grid, or radii out of order are refused. *)
Theorem C85_gocode : forall magic r nt files axis time method,
  magic = Some false \/ r = None \/ (exists a, r = Some a /\ ma_rows a <> 1%nat /\ ma_cols a <> 1%nat) \/ (exists rs, vector r rs /\ ~ ascending rs) ->
  gocode_load magic r nt files axis time method = Throw.
Proof.
  intros magic r nt files axis time method H. destruct (match magic with Some false => true | _ => false end) eqn:MG; [destruct magic as [[|]|]; try discriminate; reflexivity|].
  assert (Q : gocode_load magic r nt files axis time method = gocode_load None r nt files axis time method) by (destruct magic as [[|]|]; [reflexivity|discriminate MG|reflexivity]).
  rewrite Q. destruct H as [->|[->|[(a & -> & H1 & H2)|(rs & V & NA)]]]; [discriminate MG|reflexivity| |].
  - unfold gocode_load. cbn [need obind]. unfold vector_length. apply Nat.eqb_neq in H1, H2. rewrite H1, H2. reflexivity.
  - destruct (vector_ok _ _ V) as (a & -> & VL & VA). unfold gocode_load. cbn [need obind]. rewrite VL. cbn [obind].
    rewrite (fill_list _ _ _ (map (fun v => v + axis) rs)); [|apply map_length|].
    2: { intros i v E. rewrite nth_error_map in E. destruct (nth_error rs i) as [w|] eqn:W; [|discriminate]. injection E as <-.
         assert (I : (i < length rs)%nat) by (apply nth_error_Some; rewrite W; discriminate). rewrite (VA i I). cbn [obind]. rewrite (nth_error_nth rs i 0 W). reflexivity. }
    cbn [obind]. rewrite monotone_up. destruct (increasing (map (fun v => v + axis) rs)) eqn:I; [|reflexivity]. exfalso. apply NA.
    apply increasing_ok in I. intros i j u v IJ U W. assert (u + axis < v + axis); [|lra]. apply (I i j); [exact IJ| |]; rewrite nth_error_map; [rewrite U|rewrite W]; reflexivity.
Qed.
Print Assumptions C85_gocode.
(** A grid given without any radius is not refused before its first element is read. *)
Theorem C85_empty : forall magic a nt files axis time method, magic <> Some false -> ma_rows a = 1%nat -> ma_cols a = 0%nat ->
  gocode_load magic (Some a) nt files axis time method = UB.
Proof.
  intros magic a nt files axis time method MG R1 C1. assert (W : gocode_load None (Some a) nt files axis time method = UB).
  { unfold gocode_load. cbn [need obind]. unfold vector_length. rewrite R1, C1. reflexivity. }
  destruct magic as [[|]|]; [exact W|congruence|exact W].
Qed.
Print Assumptions C85_empty.
Lemma int_part_eq : forall x z, IZR z <= x < IZR z + 1 -> Int_part x = z.
Proof. intros x z [H1 H2]. destruct (base_Int_part x) as [B1 B2]. assert (IZR (Int_part x) < IZR (z + 1)) by (rewrite plus_IZR; lra). assert (IZR z < IZR (Int_part x + 1)) by (rewrite plus_IZR; lra). apply lt_IZR in H, H0. lia. Qed.
Lemma int_of_fraction : forall x z, without_fraction x z -> int_of x = int_of (IZR z).
Proof.
  intros x z [P N]. unfold int_of. destruct (Rlt_dec x 0) as [L|L].
  - destruct N as [N1 N2]; [lra|]. assert (Z0 : (z <= 0)%Z). { apply le_IZR. assert (IZR (z - 1) < IZR 0) by (rewrite minus_IZR; lra). apply lt_IZR in H. apply IZR_le. lia. }
    destruct (Rlt_dec (IZR z) 0) as [LZ|LZ].
    + destruct (Rle_dec x (-2147483649)) as [A|A]; destruct (Rle_dec (IZR z) (-2147483649)) as [B|B]; try reflexivity.
      * exfalso. apply B. apply IZR_le. assert (IZR (z - 1) < IZR (-2147483649)) by (rewrite minus_IZR; lra). apply lt_IZR in H. lia.
      * exfalso. apply A. lra.
      * do 2 f_equal. rewrite (int_part_eq (- x) (- z)) by (rewrite opp_IZR; lra). rewrite (int_part_eq (- IZR z) (- z)) by (rewrite opp_IZR; lra). reflexivity.
    + assert (z = 0)%Z by (apply Z.le_antisymm; [exact Z0|apply le_IZR; lra]). subst z.
      destruct (Rle_dec x (-2147483649)) as [A|A]; [lra|]. destruct (Rle_dec 2147483648 (IZR 0)) as [B|B]; [lra|].
      rewrite (int_part_eq (- x) 0) by lra. rewrite (int_part_eq (IZR 0) 0) by lra. reflexivity.
  - destruct P as [P1 P2]; [lra|]. assert (Z0 : (0 <= z)%Z). { assert (IZR (-1) < IZR z) by lra. apply lt_IZR in H. lia. }
    destruct (Rlt_dec (IZR z) 0) as [LZ|LZ]; [apply IZR_le in Z0; lra|].
    destruct (Rle_dec 2147483648 x) as [A|A]; destruct (Rle_dec 2147483648 (IZR z)) as [B|B]; try reflexivity.
    + exfalso. apply B. apply IZR_le. assert (IZR 2147483648 < IZR (z + 1)) by (rewrite plus_IZR; lra). apply lt_IZR in H. lia.
    + lra.
    + rewrite (int_part_eq x z) by lra. rewrite (int_part_eq (IZR z) z) by lra. reflexivity.
Qed.
(** Numbers of modes and of times that are not integers count without their fraction. *)
Theorem C85_fraction : forall x z, without_fraction x z ->
  (forall y delta nref Tref f time method, code_load (CFile y delta nref Tref (Some (MArray 1 1 [x])) f) time method
     = code_load (CFile y delta nref Tref (Some (MArray 1 1 [IZR z])) f) time method) /\
  (forall magic r files axis time method, gocode_load magic r (Some x) files axis time method = gocode_load magic r (Some (IZR z)) files axis time method).
Proof.
  intros x z H. pose proof (int_of_fraction x z H) as E. split.
  - intros. unfold code_load. cbn [cf_y cf_delta cf_nref cf_Tref cf_Nxi cf_f need obind]. unfold scalar at 2 4. cbn [ma_rows ma_cols Nat.eqb andb].
    change (aget (MArray 1 1 [x]) 0 0) with (Ok x). change (aget (MArray 1 1 [IZR z]) 0 0) with (Ok (IZR z)). cbn [obind]. rewrite E. reflexivity.
  - intros. unfold gocode_load. cbn [need obind]. rewrite E. reflexivity.
Qed.
Print Assumptions C85_fraction.
Example C85_fraction_example : without_fraction (5 / 2) 2 /\ without_fraction (- 1 / 2) 0.
Proof. unfold without_fraction. lra. Qed.
Definition example_file : cfile := CFile (Some (MArray 2 1 [1; 2])) (Some (MArray 1 1 [3])) None None (Some (MArray 1 1 [2])) (Some (MArray 2 4 [0; 0; 0; 0; 7; 7; 7; 7])).
Example C60_example : exists x y z w, code_load example_file (-1) 0 = Ok (Code 0 2 2 [1 * 3; 2 * 3] [x; y; z; w] [None; None] None) /\ 0 < x.
Proof.
  set (g := fun j i : nat => if Nat.eqb j 0 then 0 else 7).
  assert (D : describes example_file [1; 2] 3 1 1 2 2 g).
  { split; [|split; [|split; [|split; [|split]]]].
    - eexists. split; [reflexivity|]. right. split; [reflexivity|]. split; [reflexivity|]. split; [reflexivity|]. intros j i J I. destruct i as [|i]; [|lia]. destruct j as [|[|j]]; [reflexivity|reflexivity|cbn in J; lia].
    - eexists. split; [reflexivity|]. split; [reflexivity|]. split; [reflexivity|]. split; [reflexivity|]. intros j i J I. destruct i as [|i]; [|lia]. destruct j as [|j]; [reflexivity|lia].
    - left. split; reflexivity.
    - left. split; reflexivity.
    - eexists. split; [reflexivity|]. split; [reflexivity|]. split; [reflexivity|]. split; [reflexivity|]. intros j i J I. destruct i as [|i]; [|lia]. destruct j as [|j]; [|lia]. cbn. f_equal.
    - eexists. split; [reflexivity|]. split; [reflexivity|]. split; [reflexivity|]. split; [reflexivity|]. intros j i J I. cbn in I.
      destruct j as [|[|j]]; [| |lia]; destruct i as [|[|[|[|i]]]]; try lia; reflexivity. }
  rewrite (C60_code _ _ _ _ _ _ _ _ (-1)%Z 1%nat 0%Z D); [|cbn; lia|lra|discriminate|split; [lia|right; reflexivity]].
  eexists _, _, _, _. split; [apply (two_ok (1 * 3) (2 * 3) 2); [lra|lia|cbn; lia]|]. cbn [g Nat.eqb]. apply Rmult_lt_0_compat; [lra|]. apply Rdiv_lt_0_compat; [lra|]. apply exp_pos.
Qed.
