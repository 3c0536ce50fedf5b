(** Proofs about whole histories of calls and about dense output. *)
From Coq Require Import ZArith Reals Lra Lia.
From Coquelicot Require Import Coquelicot.
From Verif Require Import Base AlgebraModel IntegratorModel IntegratorSpec IntegratorProofs StepProofs.
Local Open Scope R_scope.

Section Dense.
Variable N : nat.
Hypothesis HN : (1 <= N)%nat.
Variable f : R -> vec -> vec.
Hypothesis Hf : reads_components N f.

(** Sizes of the coefficient arrays. *)
Record dsize (r : dense) (alloc : Z) : Prop := DSize
  { ds_alloc : (0 <= r_alloc r <= alloc)%Z;
    ds_1 : b_size (r_c1 r) = (Z.of_nat N * r_alloc r)%Z;
    ds_2 : b_size (r_c2 r) = (Z.of_nat N * r_alloc r)%Z;
    ds_3 : b_size (r_c3 r) = (Z.of_nat N * r_alloc r)%Z;
    ds_4 : b_size (r_c4 r) = (Z.of_nat N * r_alloc r)%Z;
    ds_5 : b_size (r_c5 r) = (Z.of_nat N * r_alloc r)%Z }.

Definition five (r : dense) (off : Z) (v1 v2 v3 v4 v5 : vec) : Prop :=
  holds (r_c1 r) off N v1 /\ holds (r_c2 r) off N v2 /\ holds (r_c3 r) off N v3 /\
  holds (r_c4 r) off N v4 /\ holds (r_c5 r) off N v5.

Lemma prepare_dense_inv : forall n alloc r h y1 y2 q1 q2 a, (2 <= n <= alloc)%Z -> (Z.of_nat N * alloc < 2 ^ 32)%Z ->
  dsize r alloc -> exists r', prepare_dense N n alloc r h y1 y2 q1 q2 a = Ok r' /\ dsize r' alloc /\
    five r' ((n - 2) * Z.of_nat N) (coef1 h y1 y2 q1 q2 a) (coef2 h y1 y2 q1 q2 a) (coef3 h y1 y2 q1 q2 a)
         (coef4 h y1 y2 q1 q2 a) (coef5 h y1 y2 q1 q2 a) /\
    forall off v1 v2 v3 v4 v5, (off + Z.of_nat N <= (n - 2) * Z.of_nat N)%Z ->
      five r off v1 v2 v3 v4 v5 -> five r' off v1 v2 v3 v4 v5.
Proof.
  intros n alloc r h y1 y2 q1 q2 a Hn HB D. unfold prepare_dense.
  assert (Ew : w32 ((n - 2) * Z.of_nat N) = ((n - 2) * Z.of_nat N)%Z).
  { apply w32_small. split; [nia|]. apply Z.le_lt_trans with (Z.of_nat N * alloc)%Z; [nia|exact HB]. }
  rewrite Ew. cbv zeta.
  set (r1 := if (r_alloc r <? alloc)%Z then _ else r).
  assert (I1 : dsize r1 alloc /\ r_alloc r1 = alloc /\
     forall off v1 v2 v3 v4 v5, five r off v1 v2 v3 v4 v5 -> five r1 off v1 v2 v3 v4 v5).
  { unfold r1. destruct D as [D0 D1 D2 D3 D4 D5]. destruct (Z.ltb_spec (r_alloc r) alloc) as [Hlt|Hge].
    - split; [|split; [reflexivity|]].
      + constructor; cbn [r_alloc r_c1 r_c2 r_c3 r_c4 r_c5 realloc b_size]; lia.
      + intros off v1 v2 v3 v4 v5 (A1 & A2 & A3 & A4 & A5). unfold five. cbn [r_c1 r_c2 r_c3 r_c4 r_c5].
        split; [|split; [|split; [|split]]]; (apply holds_realloc; [nia|assumption]).
    - split; [constructor; lia|]. split; [lia|]. intros; assumption. }
  clearbody r1. destruct I1 as ([D0 D1 D2 D3 D4 D5] & Ea & F1). clear D.
  assert (L0 : (0 <= (n - 2) * Z.of_nat N)%Z) by nia.
  assert (L1 : ((n - 2) * Z.of_nat N + Z.of_nat N <= Z.of_nat N * r_alloc r1)%Z) by (rewrite Ea; nia).
  destruct (write_vec_spec N (r_c1 r1) ((n - 2) * Z.of_nat N) (coef1 h y1 y2 q1 q2 a) L0 ltac:(lia)) as (x1 & E1 & S1 & H1 & O1).
  destruct (write_vec_spec N (r_c2 r1) ((n - 2) * Z.of_nat N) (coef2 h y1 y2 q1 q2 a) L0 ltac:(lia)) as (x2 & E2 & S2 & H2 & O2).
  destruct (write_vec_spec N (r_c3 r1) ((n - 2) * Z.of_nat N) (coef3 h y1 y2 q1 q2 a) L0 ltac:(lia)) as (x3 & E3 & S3 & H3 & O3).
  destruct (write_vec_spec N (r_c4 r1) ((n - 2) * Z.of_nat N) (coef4 h y1 y2 q1 q2 a) L0 ltac:(lia)) as (x4 & E4 & S4 & H4 & O4).
  destruct (write_vec_spec N (r_c5 r1) ((n - 2) * Z.of_nat N) (coef5 h y1 y2 q1 q2 a) L0 ltac:(lia)) as (x5 & E5 & S5 & H5 & O5).
  rewrite E1; cbn [obind]. rewrite E2; cbn [obind]. rewrite E3; cbn [obind]. rewrite E4; cbn [obind]. rewrite E5; cbn [obind].
  eexists. split; [reflexivity|]. split; [|split].
  - constructor; cbn [r_alloc r_c1 r_c2 r_c3 r_c4 r_c5]; lia.
  - unfold five. cbn [r_c1 r_c2 r_c3 r_c4 r_c5]. auto 6.
  - intros off v1 v2 v3 v4 v5 Hoff F. apply F1 in F. destruct F as (A1 & A2 & A3 & A4 & A5).
    unfold five. cbn [r_c1 r_c2 r_c3 r_c4 r_c5].
    split; [|split; [|split; [|split]]].
    + eapply holds_frame; [exact S1|exact O1|left; exact Hoff|exact A1].
    + eapply holds_frame; [exact S2|exact O2|left; exact Hoff|exact A2].
    + eapply holds_frame; [exact S3|exact O3|left; exact Hoff|exact A3].
    + eapply holds_frame; [exact S4|exact O4|left; exact Hoff|exact A4].
    + eapply holds_frame; [exact S5|exact O5|left; exact Hoff|exact A5].
Qed.

(** The coefficients of every interval are in place. *)
Definition drep (r : dense) (l : list point) : Prop :=
  forall i t y yp t' y' yp', nth_error l i = Some (t, y, yp) -> nth_error l (S i) = Some (t', y', yp') ->
    let h := t' - t in let a := inner_step f t h y yp in
    five r (Z.of_nat i * Z.of_nat N) (coef1 h y y' yp yp' a) (coef2 h y y' yp yp' a) (coef3 h y y' yp yp' a)
         (coef4 h y y' yp yp' a) (coef5 h y y' yp yp' a).

Record rkinv (P : Z) (s : rk) (l : list point) : Prop := RKInv
  { ri_eqn : k_eqn s = Some f;
    ri_par : good_params (k_par s);
    ri_store : sinv N P (k_store s) l;
    ri_opt : 0 < c_opt (k_ctrl s);
    ri_traj : trajectory N f l;
    ri_dense : dsize (k_dense s) (s_alloc (k_store s)) }.

(** What holds before the first initial value is set. *)
Record rkpre (P : Z) (s : rk) : Prop := RKPre
  { rp_eqn : k_eqn s = Some f; rp_par : good_params (k_par s); rp_store : exists l, sinv N P (k_store s) l;
    rp_opt : 0 < c_opt (k_ctrl s); rp_dense : dsize (k_dense s) (s_alloc (k_store s)) }.
Lemma rkinv_pre : forall P s l, rkinv P s l -> rkpre P s.
Proof. intros P s l [A B C D E F]. constructor; try assumption. exists l. exact C. Qed.

Lemma init_inv : forall P s y0, (Z.of_nat N * (P + 1000) < 2 ^ 32)%Z -> (1 <= P)%Z -> rkpre P s ->
  exists s', rk_initial_value N s y0 = Ok s' /\ rkinv P s' [(0, y0, f 0 y0)] /\ drep (k_dense s') [(0, y0, f 0 y0)] /\
    k_on s' = k_on s /\ k_ctrl s' = k_ctrl s.
Proof.
  intros P s y0 HB HP [A B (l & C) D E]. unfold rk_initial_value, initial_value. rewrite A.
  destruct (store_solution_inv N HN P _ [] 0 y0 (f 0 y0) HB (sinv_reset N HN P _ _ C)) as (st & Es & Is & Hal); [cbn; lia|].
  rewrite Es. cbn [obind]. eexists. split; [reflexivity|]. cbn [k_dense k_on k_ctrl].
  split; [|split; [|split; reflexivity]].
  - cbn [app] in Is. constructor; cbn [k_eqn k_par k_store k_ctrl k_dense]; try reflexivity; try assumption.
    + apply traj_start. reflexivity.
    + destruct E. cbn [s_alloc] in Hal. constructor; lia.
  - intros i t y yp t' y' yp' E1 E2. destruct i; discriminate E2.
Qed.

Lemma snoc_inv : forall {A} (l : list A), l <> [] -> exists l' x, l = l' ++ [x].
Proof.
  intros A l H. destruct (exists_last H) as (l' & x & E). exists l', x. exact E.
Qed.

Lemma step_inv : forall P eps fuel s l o s', (Z.of_nat N * (P + 1000) < 2 ^ 32)%Z -> rkinv P s l -> (Z.of_nat (length l) < P)%Z ->
  rk_step N eps fuel s = Some (o, s') ->
  k_on s' = k_on s /\
  ((o = Throw /\ k_store s' = k_store s /\ k_dense s' = k_dense s /\ rkinv P s' l) \/
   (exists l0 t y yp h y' yp', l = l0 ++ [(t, y, yp)] /\ o = Ok (t + h) /\ 0 < h /\ c_h (k_ctrl s') = h /\
      h <= c_opt (k_ctrl s) /\
      rkinv P s' (l ++ [(t + h, y', yp')]) /\
      (k_on s = true -> drep (k_dense s) l -> drep (k_dense s') (l ++ [(t + h, y', yp')])))).
Proof.
  intros P eps fuel s l o s' HB I Hl H. destruct I as [A B C D E F].
  destruct (snoc_inv l (traj_nonempty _ _ _ E)) as (l0 & ((t, y), yp) & El).
  assert (C' : sinv N P (k_store s) (l0 ++ [(t, y, yp)])) by (rewrite <- El; exact C).
  destruct (last_reads N HN P (k_store s) l0 t y yp (k_y s) HB C') as (ET & (vy & Ey & Hy) & _).
  destruct (last_reads N HN P (k_store s) l0 t y yp (k_dydx s) HB C') as (_ & _ & (vd & Ed & Hd)).
  unfold rk_step in H. rewrite A, Ey, Ed, ET in H. cbv zeta in H.
  set (c := Control (c_opt (k_ctrl s)) (c_opt (k_ctrl s)) (c_errold (k_ctrl s)) (c_rejected (k_ctrl s))) in *.
  destruct (try_steps _ _ eps (k_par s) fuel c t vy vd) as [(o1, c')|] eqn:Et; [|discriminate H].
  apply (try_steps_spec _ _ eps (k_par s) B) in Et; [|exact D].
  cbn [c c_h] in Et. destruct Et as (Hh & Ho & Hm).
  destruct o1 as [a| |].
  - destruct Hm as (Ea & _ & _).
    destruct (store_solution_inv N HN P (k_store s) l (t + c_h c') (a_yout a) (a_dydxout a) HB C Hl) as (st & Es & Is & Hal).
    rewrite Es in H.
    assert (Hext : forall j, (j < N)%nat -> a_yout a j = a_yout (inner_step f t (c_h c') y yp) j /\
      a_dydxout a j = a_dydxout (inner_step f t (c_h c') y yp) j /\ a_k3 a j = a_k3 (inner_step f t (c_h c') y yp) j /\
      a_k4 a j = a_k4 (inner_step f t (c_h c') y yp) j /\ a_k5 a j = a_k5 (inner_step f t (c_h c') y yp) j /\
      a_k6 a j = a_k6 (inner_step f t (c_h c') y yp) j).
    { rewrite Ea. apply (inner_step_ext N f t (c_h c') vy y vd yp Hf Hy Hd). }
    assert (Tr : trajectory N f (l ++ [((t + c_h c')%R, a_yout a, a_dydxout a)])).
    { rewrite El, <- app_assoc. cbn [app]. apply traj_step.
      - rewrite <- El. exact E.
      - lra.
      - intros j Hj. exact (proj1 (Hext j Hj)).
      - intros j Hj. rewrite Ea at 1. rewrite inner_step_fsal. rewrite Ea. reflexivity. }
    pose proof (sv_n _ _ _ _ Is) as En. pose proof (sv_le _ _ _ _ Is) as Hle. pose proof (sv_alloc _ _ _ _ Is) as Hall.
    rewrite app_length in En. cbn [length] in En.
    assert (Hl1 : (1 <= length l)%nat) by (rewrite El, app_length; cbn [length]; lia).
    assert (F' : dsize (k_dense s) (s_alloc st)) by (destruct F; constructor; lia).
    destruct (k_on s && (1 <? s_n st)%Z)%bool eqn:Eon.
    + destruct (prepare_dense_inv (s_n st) (s_alloc st) (k_dense s) (c_h c') vy (a_yout a) vd (a_dydxout a) a)
        as (r' & Er & Dr & Fr & Kr); [lia|nia|exact F'|].
      rewrite Er in H. injection H as H1 H2. subst o s'. cbn [k_on k_store k_dense k_ctrl].
      split; [reflexivity|]. right. exists l0, t, y, yp, (c_h c'), (a_yout a), (a_dydxout a).
      split; [exact El|]. split; [reflexivity|]. split; [lra|]. split; [reflexivity|]. split; [lra|].
      split; [constructor; cbn [k_eqn k_par k_store k_ctrl k_dense]; try reflexivity; assumption|].
      intros _ Hdr i t1 y1 yp1 t2 y2 yp2 E1 E2. cbv zeta.
      pose proof (nth_error_lt _ _ _ E2) as Hlt. rewrite app_length in Hlt. cbn [length] in Hlt.
      destruct (Nat.eq_dec (S i) (length l)) as [Ei|Ei].
      * rewrite nth_error_app1 in E1 by lia. rewrite nth_error_app2 in E2 by lia.
        rewrite Ei, Nat.sub_diag in E2. cbn in E2. injection E2 as B1 B2 B3. subst t2 y2 yp2.
        assert (E1' : (t1, y1, yp1) = (t, y, yp)).
        { rewrite El in E1, Ei. rewrite app_length in Ei. cbn [length] in Ei.
          rewrite nth_error_app2 in E1 by lia. replace (i - length l0)%nat with 0%nat in E1 by lia. cbn in E1.
          injection E1 as E1 E1b E1c. congruence. }
        injection E1' as B1 B2 B3. subst t1 y1 yp1.
        replace (Z.of_nat i * Z.of_nat N)%Z with ((s_n st - 2) * Z.of_nat N)%Z by (rewrite En; f_equal; lia).
        replace (t + c_h c' - t) with (c_h c') by ring.
        destruct Fr as (G1 & G2 & G3 & G4 & G5).
        split; [|split; [|split; [|split]]]; (eapply holds_ext; [|eassumption]); intros j Hj;
          unfold coef1, coef2, coef3, coef4, coef5; destruct (Hext j Hj) as (X1 & X2 & X3 & X4 & X5 & X6);
          rewrite ?(Hy j Hj), ?(Hd j Hj), ?X3, ?X4, ?X5, ?X6; reflexivity.
      * rewrite nth_error_app1 in E1 by lia. rewrite nth_error_app1 in E2 by lia.
        apply Kr; [rewrite En; nia|]. exact (Hdr i t1 y1 yp1 t2 y2 yp2 E1 E2).
    + injection H as H1 H2. subst o s'. cbn [k_on k_store k_dense k_ctrl].
      split; [reflexivity|]. right. exists l0, t, y, yp, (c_h c'), (a_yout a), (a_dydxout a).
      split; [exact El|]. split; [reflexivity|]. split; [lra|]. split; [reflexivity|]. split; [lra|].
      split; [constructor; cbn [k_eqn k_par k_store k_ctrl k_dense]; try reflexivity; assumption|].
      intros Hon. exfalso. rewrite Hon in Eon. cbn [andb] in Eon. apply Z.ltb_ge in Eon. lia.
  - injection H as H1 H2. subst o s'. cbn [k_on k_store k_dense]. split; [reflexivity|]. left.
    split; [reflexivity|]. split; [reflexivity|]. split; [reflexivity|].
    constructor; cbn [k_eqn k_par k_store k_ctrl k_dense]; try reflexivity; assumption.
  - contradiction.
Qed.

(** * Histories *)

Lemma calls_inv : forall P eps fuel cs s l o, (Z.of_nat N * (P + 1000) < 2 ^ 32)%Z -> rkinv P s l ->
  (Z.of_nat (length l + length cs) <= P)%Z -> (forall c, In c cs -> good_call c) ->
  do_calls N eps fuel s cs = Some o ->
  exists s' l', o = Ok s' /\ rkinv P s' l' /\ (length l' <= length l + length cs)%nat /\
    ((forall c, In c cs -> keeps_dense c) -> k_on s = true -> drep (k_dense s) l -> k_on s' = true /\ drep (k_dense s') l').
Proof.
  intros P eps fuel cs. induction cs as [|c cs IH]; intros s l o HB I HP Hg H; cbn [do_calls] in H.
  - injection H as H. subst o. exists s, l. split; [reflexivity|]. split; [exact I|]. split; [lia|]. auto.
  - cbn [length] in HP. pose proof (Hg c (or_introl eq_refl)) as Hc.
    assert (Hg' : forall c0, In c0 cs -> good_call c0) by (intros c0 H0; apply Hg; right; exact H0).
    assert (Hl1 : (1 <= length l)%nat) by (pose proof (traj_nonempty N f l (ri_traj _ _ _ I)); destruct l; [congruence|cbn [length]; lia]).
    destruct c as [y0| |b|p]; cbn [do_call] in H.
    + destruct (init_inv P s y0 HB ltac:(lia) (rkinv_pre _ _ _ I)) as (s1 & E1 & I1 & D1 & O1 & _).
      rewrite E1 in H. destruct (IH s1 [(0, y0, f 0 y0)] o HB I1) as (s' & l' & Eo & I' & Hlen & K); [cbn [length]; lia|exact Hg'|exact H|].
      exists s', l'. split; [exact Eo|]. split; [exact I'|].
      split; [rewrite ?app_length in Hlen; cbn [length] in Hlen |- *; lia|]. intros Hk Hon _. apply K; [|congruence|exact D1].
      intros c0 H0; apply Hk; right; exact H0.
    + destruct (rk_step N eps fuel s) as [(o1, s1)|] eqn:Es; [|discriminate H].
      destruct (step_inv P eps fuel s l o1 s1 HB I ltac:(lia) Es) as (Eon & [(E1 & E2 & E3 & I1)|(l0 & t & y & yp & h & y' & yp' & El & Eo1 & Hh & _ & _ & I1 & D1)]).
      * subst o1. destruct (IH s1 l o HB I1) as (s' & l' & Eo & I' & Hlen & K); [lia|exact Hg'|exact H|].
        exists s', l'. split; [exact Eo|]. split; [exact I'|].
      split; [rewrite ?app_length in Hlen; cbn [length] in Hlen |- *; lia|]. intros Hk Hon Hd. apply K; [|congruence|rewrite E3; exact Hd].
        intros c0 H0; apply Hk; right; exact H0.
      * subst o1. destruct (IH s1 (l ++ [((t + h)%R, y', yp')]) o HB I1) as (s' & l' & Eo & I' & Hlen & K);
          [rewrite app_length; cbn [length]; lia|exact Hg'|exact H|].
        exists s', l'. split; [exact Eo|]. split; [exact I'|].
      split; [rewrite ?app_length in Hlen; cbn [length] in Hlen |- *; lia|]. intros Hk Hon Hd. apply K; [|congruence|apply D1; assumption].
        intros c0 H0; apply Hk; right; exact H0.
    + assert (I1 : rkinv P (toggle_dense s b) l) by (destruct I; constructor; assumption).
      destruct (IH (toggle_dense s b) l o HB I1) as (s' & l' & Eo & I' & Hlen & K); [lia|exact Hg'|exact H|].
      exists s', l'. split; [exact Eo|]. split; [exact I'|].
      split; [rewrite ?app_length in Hlen; cbn [length] in Hlen |- *; lia|]. intros Hk Hon Hd. apply K; [| |exact Hd].
      * intros c0 H0; apply Hk; right; exact H0.
      * exact (Hk (CToggle b) (or_introl eq_refl)).
    + assert (I1 : rkinv P (set_params s p) l) by (destruct I; constructor; assumption).
      destruct (IH (set_params s p) l o HB I1) as (s' & l' & Eo & I' & Hlen & K); [lia|exact Hg'|exact H|].
      exists s', l'. split; [exact Eo|]. split; [exact I'|].
      split; [rewrite ?app_length in Hlen; cbn [length] in Hlen |- *; lia|]. intros Hk Hon Hd. apply K; [|exact Hon|exact Hd].
      intros c0 H0; apply Hk; right; exact H0.
Qed.

Lemma default_good : forall tol, good_params (default_params tol).
Proof. intro tol. unfold good_params, default_params. cbn [g_safe g_alpha g_minscale g_maxscale]. lra. Qed.

Lemma new_pre : forall P tol, (0 <= P)%Z -> rkpre P (set_equation (new_rk tol) f).
Proof.
  intros P tol HP. constructor; cbn [set_equation new_rk k_eqn k_par k_store k_ctrl k_dense new_control c_opt].
  - reflexivity.
  - apply default_good.
  - exists []. apply sinv_new; [exact HN|exact HP].
  - lra.
  - constructor; cbn; lia.
Qed.

(** * Dense output *)
Lemma dense_components_eq : forall r it s v1 v2 v3 v4 v5 m, (m <= N)%nat -> (0 <= it)%Z ->
  (it * Z.of_nat N + Z.of_nat N < 2 ^ 32)%Z ->
  five r (it * Z.of_nat N) v1 v2 v3 v4 v5 ->
  dense_components N m r it s = Ok (map (fun j => dense_poly s (v1 j) (v2 j) (v3 j) (v4 j) (v5 j)) (seq 0 m)).
Proof.
  intros r it s v1 v2 v3 v4 v5 m. induction m as [|m IH]; intros Hm Hit HB F; [reflexivity|].
  cbn [dense_components]. rewrite IH by (try assumption; lia). cbn [obind]. cbv zeta.
  assert (Ew : w32 (w32 (it * Z.of_nat N) + Z.of_nat m) = (it * Z.of_nat N + Z.of_nat m)%Z).
  { rewrite (w32_small (it * Z.of_nat N)) by nia. apply w32_small. nia. }
  rewrite Ew. destruct F as (F1 & F2 & F3 & F4 & F5).
  rewrite (bread_holds _ _ _ _ m F1) by lia. cbn [obind].
  rewrite (bread_holds _ _ _ _ m F2) by lia. cbn [obind].
  rewrite (bread_holds _ _ _ _ m F3) by lia. cbn [obind].
  rewrite (bread_holds _ _ _ _ m F4) by lia. cbn [obind].
  rewrite (bread_holds _ _ _ _ m F5) by lia. cbn [obind].
  rewrite seq_S, map_app. reflexivity.
Qed.

Lemma interpolant_poly : forall t y yp t' y' yp' j T, t < t' ->
  let h := t' - t in let a := inner_step f t h y yp in
  dense_poly ((T - t) / (t' - t)) (coef1 h y y' yp yp' a j) (coef2 h y y' yp yp' a j) (coef3 h y y' yp yp' a j)
    (coef4 h y y' yp yp' a j) (coef5 h y y' yp yp' a j) = interpolant f (t, y, yp) (t', y', yp') j T.
Proof.
  intros t y yp t' y' yp' j T Ht. cbv zeta. unfold interpolant.
  set (th := (T - t) / (t' - t)). set (a := inner_step f t (t' - t) y yp).
  unfold dense_poly, coef1, coef2, coef3, coef4, coef5. ring.
Qed.

Section Output.
Variable P : Z.
Variable s : rk.
Variable l : list point.
Hypothesis HB : (Z.of_nat N * (P + 1000) < 2 ^ 32)%Z.
Hypothesis I : rkinv P s l.
Hypothesis D : drep (k_dense s) l.

Lemma read_time : forall i p, nth_error l i = Some p -> bread (s_time (k_store s)) (Z.of_nat i) = Ok (time_of p).
Proof.
  intros i ((t, y), yp) E. destruct (sv_pts _ _ _ _ (ri_store _ _ _ I) i t y yp E) as (A & _). apply bread_holds1. exact A.
Qed.

Lemma times_mono : forall i k p q, (i <= k)%nat -> nth_error l i = Some p -> nth_error l k = Some q -> time_of p <= time_of q.
Proof.
  intros i k p q H Ep Eq. destruct (Nat.eq_dec i k) as [E|E].
  - subst. rewrite Ep in Eq. injection Eq as Eq. subst. apply Rle_refl.
  - left. apply (traj_increasing N f l (ri_traj _ _ _ I) i k); [lia|exact Ep|exact Eq].
Qed.

Lemma get_point : forall i, (i < length l)%nat -> exists p, nth_error l i = Some p.
Proof. intros i H. destruct (nth_error l i) as [p|] eqn:E; [exists p; reflexivity|]. apply nth_error_None in E. lia. Qed.

(** The interval chosen when the search starts at [it]. *)
Definition chosen (it : nat) (T : R) (k : nat) : Prop :=
  (it <= k)%nat /\ (S k < length l)%nat /\
  (k = it \/ exists p, nth_error l k = Some p /\ time_of p < T) /\
  ((exists q, nth_error l (S k) = Some q /\ T <= time_of q) \/ length l = S (S k)).

Lemma advance_eq : forall n it T, (S it < length l)%nat -> n = (length l - (it + 2))%nat ->
  exists k, advance n (k_store s) (Z.of_nat it) T = Ok (Z.of_nat k) /\ chosen it T k.
Proof.
  induction n as [|n IH]; intros it T Hit Hn; cbn [advance].
  - exists it. split; [reflexivity|]. split; [lia|]. split; [exact Hit|]. split; [left; reflexivity|]. right. lia.
  - destruct (get_point (S it) Hit) as (q & Eq).
    replace (Z.of_nat it + 1)%Z with (Z.of_nat (S it)) by lia.
    rewrite (read_time _ _ Eq). cbn [obind]. destruct (Rlt_dec (time_of q) T) as [Hlt|Hge].
    + destruct (IH (S it) T ltac:(lia) ltac:(lia)) as (k & Ek & (K1 & K2 & K3 & K4)).
      exists k. split; [exact Ek|]. split; [lia|]. split; [exact K2|]. split; [|exact K4].
      right. destruct K3 as [K3|K3]; [|exact K3]. subst k. exists q. split; assumption.
    + exists it. split; [reflexivity|]. split; [lia|]. split; [exact Hit|]. split; [left; reflexivity|].
      left. exists q. split; [exact Eq|]. lra.
Qed.

(** Intervals used for a list of requests. *)
Fixpoint used (it : nat) (ts : list R) (ks : list nat) : Prop :=
  match ts, ks with
  | [], [] => True
  | T :: ts', k :: ks' => (it <= k)%nat /\ (k = it \/ exists p, nth_error l k = Some p /\ time_of p < T) /\
      (exists q, nth_error l (S k) = Some q /\ T <= time_of q) /\ used k ts' ks'
  | _, _ => False
  end.
Definition row (k : nat) (T : R) : list R :=
  match nth_error l k, nth_error l (S k) with
  | Some p, Some q => interpolant_row N f p q T
  | _, _ => []
  end.
Fixpoint rows (ts : list R) (ks : list nat) : list (list R) :=
  match ts, ks with T :: ts', k :: ks' => row k T :: rows ts' ks' | _, _ => [] end.

Variable e : R.
Hypothesis He : end_time l e.
Lemma end_point : forall k q, length l = S (S k) -> nth_error l (S k) = Some q -> time_of q = e.
Proof.
  intros k q Hk Eq. destruct He as (l' & p & El & Ep). rewrite El in Hk, Eq. rewrite app_length in Hk. cbn [length] in Hk.
  rewrite nth_error_app2 in Eq by lia. replace (S k - length l')%nat with 0%nat in Eq by lia. cbn in Eq. injection Eq as Eq.
  subst. reflexivity.
Qed.
Lemma end_max : forall i q, nth_error l i = Some q -> time_of q <= e.
Proof.
  intros i q Eq. pose proof He as He'. destruct He' as (l' & p & El & Ep). rewrite <- Ep.
  apply (times_mono i (length l')); [|exact Eq|rewrite El; rewrite nth_error_app2 by lia; rewrite Nat.sub_diag; reflexivity].
  apply nth_error_lt in Eq. rewrite El, app_length in Eq. cbn [length] in Eq. lia.
Qed.

Lemma row_eq : forall k p q T, nth_error l k = Some p -> nth_error l (S k) = Some q ->
  dense_components N N (k_dense s) (Z.of_nat k) ((T - time_of p) / (time_of q - time_of p)) = Ok (row k T).
Proof.
  intros k p q T Ep Eq. unfold row. rewrite Ep, Eq. destruct p as ((t, y), yp), q as ((t', y'), yp'). cbn [time_of fst].
  pose proof (D k t y yp t' y' yp' Ep Eq) as F. cbv zeta in F.
  pose proof (nth_error_lt _ _ _ Eq) as Hlt.
  pose proof (sv_n _ _ _ _ (ri_store _ _ _ I)). pose proof (sv_le _ _ _ _ (ri_store _ _ _ I)). pose proof (sv_alloc _ _ _ _ (ri_store _ _ _ I)).
  assert (Bd : (Z.of_nat k * Z.of_nat N + Z.of_nat N < 2 ^ 32)%Z).
  { apply Z.le_lt_trans with (Z.of_nat N * (P + 1000))%Z; [|exact HB].
    replace (Z.of_nat k * Z.of_nat N + Z.of_nat N)%Z with (Z.of_nat N * (Z.of_nat k + 1))%Z by ring.
    apply Z.mul_le_mono_nonneg_l; lia. }
  rewrite (dense_components_eq _ _ _ _ _ _ _ _ N (le_n N) (Zle_0_nat k) Bd F).
  f_equal. unfold interpolant_row. apply map_ext. intro j. apply (interpolant_poly t y yp t' y' yp' j T).
  exact (proj1 (traj_consecutive N f l (ri_traj _ _ _ I) k _ _ _ _ _ _ Ep Eq)).
Qed.

Lemma output_ok : forall ts it, (S it < length l)%nat -> (forall T, In T ts -> T <= e) ->
  exists ks, used it ts ks /\ output_dense N s (Z.of_nat it) ts = Ok (rows ts ks).
Proof.
  induction ts as [|T ts IH]; intros it Hit Hle.
  - exists []. split; [exact Logic.I|reflexivity].
  - cbn [output_dense]. cbv zeta.
    pose proof (sv_n _ _ _ _ (ri_store _ _ _ I)) as En.
    destruct (advance_eq (length l - (it + 2)) it T Hit eq_refl) as (k & Ek & (K1 & K2 & K3 & K4)).
    replace (Z.to_nat (s_n (k_store s) - (Z.of_nat it + 2))) with (length l - (it + 2))%nat by (rewrite En; lia).
    rewrite Ek. cbn [obind]. destruct (get_point (S k) K2) as (q & Eq). destruct (get_point k ltac:(lia)) as (p & Ep).
    replace (Z.of_nat k + 1)%Z with (Z.of_nat (S k)) by lia. rewrite (read_time _ _ Eq). cbn [obind].
    assert (Hq : T <= time_of q).
    { destruct K4 as [(q' & Eq' & Hq')|K4].
      - rewrite Eq in Eq'. injection Eq' as Eq'. subst. exact Hq'.
      - rewrite (end_point k q K4 Eq). apply Hle. left. reflexivity. }
    destruct (Rlt_dec (time_of q) T) as [Hlt|_]; [lra|].
    rewrite (read_time _ _ Ep). cbn [obind]. rewrite (row_eq k p q T Ep Eq). cbn [obind].
    destruct (IH k K2) as (ks & U & Eo); [intros T' HT'; apply Hle; right; exact HT'|].
    rewrite Eo. cbn [obind]. exists (k :: ks). cbn [used rows]. split; [|reflexivity].
    split; [exact K1|]. split; [exact K3|]. split; [exists q; split; assumption|exact U].
Qed.

Lemma output_throw : forall ts it, (S it < length l)%nat -> (exists T, In T ts /\ e < T) ->
  output_dense N s (Z.of_nat it) ts = Throw.
Proof.
  induction ts as [|T ts IH]; intros it Hit (T' & Hin & HT'); [destruct Hin|].
  cbn [output_dense]. cbv zeta.
  pose proof (sv_n _ _ _ _ (ri_store _ _ _ I)) as En.
  destruct (advance_eq (length l - (it + 2)) it T Hit eq_refl) as (k & Ek & (K1 & K2 & K3 & K4)).
  replace (Z.to_nat (s_n (k_store s) - (Z.of_nat it + 2))) with (length l - (it + 2))%nat by (rewrite En; lia).
  rewrite Ek. cbn [obind]. destruct (get_point (S k) K2) as (q & Eq). destruct (get_point k ltac:(lia)) as (p & Ep).
  replace (Z.of_nat k + 1)%Z with (Z.of_nat (S k)) by lia. rewrite (read_time _ _ Eq). cbn [obind].
  destruct (Rlt_dec (time_of q) T) as [Hlt|Hge]; [reflexivity|].
  destruct Hin as [E|Hin].
  - subst T'. exfalso. pose proof (end_max _ _ Eq). lra.
  - rewrite (read_time _ _ Ep). cbn [obind]. rewrite (row_eq k p q T Ep Eq). cbn [obind].
    rewrite (IH k K2) by (exists T'; split; assumption). reflexivity.
Qed.

Lemma used_length : forall ts it ks, used it ts ks -> length ks = length ts.
Proof.
  induction ts as [|T ts IH]; intros it ks U; destruct ks as [|k ks]; cbn [used] in U; try contradiction; [reflexivity|].
  cbn [length]. f_equal. destruct U as (_ & _ & _ & U). eapply IH. exact U.
Qed.

Lemma rows_nth : forall ts it ks i T, used it ts ks -> nth_error ts i = Some T ->
  exists k, nth_error ks i = Some k /\ nth_error (rows ts ks) i = Some (row k T).
Proof.
  induction ts as [|T0 ts IH]; intros it ks i T U E; [destruct i; discriminate E|].
  destruct ks as [|k ks]; [contradiction|]. cbn [used] in U. destruct U as (_ & _ & _ & U). destruct i as [|i].
  - cbn in E. injection E as E. subst. exists k. split; reflexivity.
  - cbn in E. destruct (IH k ks i T U E) as (k' & A & B). exists k'. split; assumption.
Qed.
Lemma rows_length : forall ts it ks, used it ts ks -> length (rows ts ks) = length ts.
Proof.
  induction ts as [|T0 ts IH]; intros it ks U; [destruct ks; reflexivity|].
  destruct ks as [|k ks]; [contradiction|]. cbn [used] in U. destruct U as (_ & _ & _ & U). cbn [rows length]. f_equal. eapply IH. exact U.
Qed.

Lemma used_spec : forall ts it ks i k, used it ts ks -> nth_error ks i = Some k ->
  (it <= k)%nat /\
  (k = it \/ exists m T, (m <= i)%nat /\ nth_error ts m = Some T /\ in_interval l k T) /\
  (forall m T k', (m <= i)%nat -> nth_error ts m = Some T -> in_interval l k' T -> (k' <= k)%nat).
Proof.
  induction ts as [|T0 ts IH]; intros it ks i k U E; (destruct ks as [|k0 ks]; [try contradiction; destruct i; discriminate E|]); [contradiction|].
  cbn [used] in U. destruct U as (U1 & U2 & (q & Eq & Hq) & U).
  assert (Hint : forall k', in_interval l k' T0 -> (k' <= k0)%nat).
  { intros k' (p1 & p2 & E1 & E2 & H1 & H2). destruct H2 as [H2|H2]; [lia|].
    destruct (Nat.le_gt_cases k' k0) as [Hk|Hk]; [exact Hk|]. exfalso.
    pose proof (times_mono (S k0) k' q p1 Hk Eq E1). lra. }
  assert (Hin0 : k0 = it \/ in_interval l k0 T0).
  { destruct U2 as [U2|(p & Ep & Hp)]; [left; exact U2|]. right. exists p, q. repeat split; try assumption. right. exact Hp. }
  destruct i as [|i].
  - cbn in E. injection E as E. subst k. split; [exact U1|]. split.
    + destruct Hin0 as [H|H]; [left; exact H|]. right. exists 0%nat, T0. split; [lia|]. split; [reflexivity|exact H].
    + intros m T k' Hm ET Hk'. assert (m = 0)%nat by lia. subst m. cbn in ET. injection ET as ET. subst. apply Hint. exact Hk'.
  - cbn in E. destruct (IH k0 ks i k U E) as (A & B & C). split; [lia|]. split.
    + destruct B as [B|(m & T & Hm & ET & HT)].
      * subst k. destruct Hin0 as [H|H]; [left; exact H|]. right. exists 0%nat, T0. split; [lia|]. split; [reflexivity|exact H].
      * right. exists (S m), T. split; [lia|]. split; [exact ET|exact HT].
    + intros m T k' Hm ET Hk'. destruct m as [|m].
      * cbn in ET. injection ET as ET. subst. specialize (Hint k' Hk'). lia.
      * cbn in ET. apply (C m T k'); [lia|exact ET|exact Hk'].
Qed.

Lemma used_first : forall ts ks i, used 0 ts ks -> nth_error ks i = Some 0%nat ->
  exists m T, (m <= i)%nat /\ nth_error ts m = Some T /\ in_interval l 0 T.
Proof.
  intros ts ks i U E. destruct ts as [|T ts]; (destruct ks as [|k0 ks]; [destruct i; discriminate E|]); [contradiction|].
  cbn [used] in U. destruct U as (U1 & U2 & (q & Eq & Hq) & U).
  assert (k0 = 0%nat).
  { destruct i as [|i]; cbn in E; [injection E as E; exact E|].
    destruct (used_spec ts k0 ks i 0 U E) as (A & _). lia. }
  subst k0. destruct (get_point 0) as (p & Ep); [apply nth_error_lt in Eq; lia|].
  exists 0%nat, T. split; [lia|]. split; [reflexivity|]. exists p, q. split; [exact Ep|]. split; [exact Eq|]. split; [exact Hq|]. left. reflexivity.
Qed.
End Output.
End Dense.
