(** Proofs for C124. *)
From Coq Require Import ZArith Reals Lra Lia.
From Verif Require Import Base AlgebraModel IntegratorModel IntegratorSpec IntegratorProofs StepProofs DenseProofs IntegratorUse EquationSpec.
Local Open Scope R_scope.

(** [rkinv] of an integrator whose points come from anywhere. *)
Record xinv (N : nat) (f : R -> vec -> vec) (P : Z) (s : rk) (l : list point) : Prop := XInv
  { xi_eqn : k_eqn s = Some f;
    xi_par : good_params (k_par s);
    xi_store : sinv N P (k_store s) l;
    xi_opt : 0 < c_opt (k_ctrl s);
    xi_some : l <> [];
    xi_dense : dsize N (k_dense s) (s_alloc (k_store s)) }.
Lemma rk_x : forall N f P s l, rkinv N f P s l -> xinv N f P s l.
Proof. intros N f P s l [A B C D E F]. constructor; try assumption. apply (traj_nonempty N f l E). Qed.
Lemma x_set : forall N f g P s l, xinv N f P s l -> xinv N g P (set_equation s g) l.
Proof. intros N f g P s l [A B C D E F]. constructor; try assumption. reflexivity. Qed.

Section Step.
Variable N : nat.
Hypothesis HN : (1 <= N)%nat.
Variable f : R -> vec -> vec.
Hypothesis Hf : reads_components N f.

Lemma xstep : forall P eps fuel s l o s', (Z.of_nat N * (P + 1000) < 2 ^ 32)%Z -> xinv N f P s l -> (Z.of_nat (length l) < P)%Z ->
  rk_step N eps fuel s = Some (o, s') ->
  (o = Throw /\ xinv N f P s' l) \/
  (exists l0 p t' y' yp', l = l0 ++ [p] /\ o = Ok t' /\ dp_step N f p (t', y', yp') /\ xinv N f P s' (l ++ [(t', y', yp')])).
Proof.
  intros P eps fuel s l o s' HB I Hl H. destruct I as [A B C D E F].
  destruct (snoc_inv l E) as (l0 & ((t, y), yp) & El).
  assert (C' : sinv N P (k_store s) (l0 ++ [(t, y, yp)])) by (rewrite <- El; exact C).
  destruct (last_reads N HN P (k_store s) l0 t y yp (k_y s) HB C') as (ET & (vy & Ey & Hy) & _).
  destruct (last_reads N HN P (k_store s) l0 t y yp (k_dydx s) HB C') as (_ & _ & (vd & Ed & Hd)).
  unfold rk_step in H. rewrite A, Ey, Ed, ET in H. cbv zeta in H.
  set (c := Control (c_opt (k_ctrl s)) (c_opt (k_ctrl s)) (c_errold (k_ctrl s)) (c_rejected (k_ctrl s))) in *.
  destruct (try_steps _ _ eps (k_par s) fuel c t vy vd) as [(o1, c')|] eqn:Et; [|discriminate H].
  apply (try_steps_spec _ _ eps (k_par s) B) in Et; [|exact D].
  cbn [c c_h] in Et. destruct Et as (Hh & Ho & Hm).
  destruct o1 as [a| |].
  - destruct Hm as (Ea & _ & _).
    destruct (store_solution_inv N HN P (k_store s) l (t + c_h c') (a_yout a) (a_dydxout a) HB C Hl) as (st & Es & Is & Hal).
    rewrite Es in H.
    assert (ST : dp_step N f (t, y, yp) (t + c_h c', a_yout a, a_dydxout a)).
    { cbn [dp_step]. split; [lra|]. intros j Hj. replace (t + c_h c' - t) with (c_h c') by ring. split.
      - rewrite Ea. apply (inner_step_ext N f t (c_h c') vy y vd yp Hf Hy Hd j Hj).
      - rewrite Ea at 1. rewrite inner_step_fsal. rewrite Ea. reflexivity. }
    pose proof (sv_n _ _ _ _ Is) as En. pose proof (sv_le _ _ _ _ Is) as Hle. pose proof (sv_alloc _ _ _ _ Is) as Hall.
    rewrite app_length in En. cbn [length] in En.
    assert (Hl1 : (1 <= length l)%nat) by (rewrite El, app_length; cbn [length]; lia).
    assert (F' : dsize N (k_dense s) (s_alloc st)) by (destruct F; constructor; lia).
    right. exists l0, (t, y, yp), (t + c_h c'), (a_yout a), (a_dydxout a). split; [exact El|].
    destruct (k_on s && (1 <? s_n st)%Z)%bool eqn:Eon.
    + destruct (prepare_dense_inv N HN (s_n st) (s_alloc st) (k_dense s) (c_h c') vy (a_yout a) vd (a_dydxout a) a)
        as (r' & Er & Dr & Fr & Kr); [lia|nia|exact F'|].
      rewrite Er in H. injection H as H1 H2. subst o s'.
      split; [reflexivity|]. split; [exact ST|].
      constructor; cbn [k_eqn k_par k_store k_ctrl k_dense]; try reflexivity; try assumption. destruct l; discriminate.
    + injection H as H1 H2. subst o s'.
      split; [reflexivity|]. split; [exact ST|].
      constructor; cbn [k_eqn k_par k_store k_ctrl k_dense]; try reflexivity; try assumption. destruct l; discriminate.
  - injection H as H1 H2. subst o s'. left. split; [reflexivity|].
    constructor; cbn [k_eqn k_par k_store k_ctrl k_dense]; try reflexivity; assumption.
  - contradiction.
Qed.

Lemma xinit : forall P s l y0, (Z.of_nat N * (P + 1000) < 2 ^ 32)%Z -> (1 <= P)%Z -> xinv N f P s l ->
  exists s', rk_initial_value N s y0 = Ok s' /\ rkinv N f P s' [(0, y0, f 0 y0)].
Proof.
  intros P s l y0 HB HP [A B C D E F].
  destruct (init_inv N HN f P s y0 HB HP) as (s' & E1 & I & _); [constructor; try assumption; exists l; exact C|]. exists s'. split; assumption.
Qed.
End Step.

(** ** Histories *)
Lemma equation_cons : forall f c cs, equation_after f (c :: cs) = equation_after (match c with ESet g => g | ECall _ => f end) cs.
Proof. intros f c cs. reflexivity. Qed.

Lemma xcalls : forall N (E : (R -> vec -> vec) -> Prop), (1 <= N)%nat -> (forall g, E g -> reads_components N g) ->
  forall P eps fuel cs s l f o, (Z.of_nat N * (P + 1000) < 2 ^ 32)%Z -> xinv N f P s l -> E f -> (forall g, In (ESet g) cs -> E g) ->
  (Z.of_nat (length l + length cs) <= P)%Z -> (forall c, In c cs -> good_ecall N c) -> switched N E l ->
  do_ecalls N eps fuel s cs = Some o ->
  exists s' l', o = Ok s' /\ xinv N (equation_after f cs) P s' l' /\ switched N E l' /\ (length l' <= length l + length cs)%nat /\
    ((forall c, In c cs -> goes_on c) -> exists l2, l' = l ++ l2) /\
    ((forall c, In c cs -> goes_on c /\ forall g, c <> ESet g) -> exists l0 p l2, l = l0 ++ [p] /\ l' = l ++ l2 /\ steps_from N f p l2).
Proof.
  intros N E HN HE P eps fuel cs. induction cs as [|c cs IH]; intros s l f o HB I EF ES HP Hg SW H; cbn [do_ecalls] in H.
  - injection H as H. subst o. exists s, l. split; [reflexivity|]. split; [exact I|]. split; [exact SW|]. split; [lia|]. split; [intros _; exists []; symmetry; apply app_nil_r|].
    intros _. destruct (snoc_inv l (xi_some _ _ _ _ _ I)) as (l0 & p & El). exists l0, p, []. split; [exact El|]. split; [symmetry; apply app_nil_r|exact Logic.I].
  - cbn [length] in HP. rewrite equation_cons. pose proof (Hg c (or_introl eq_refl)) as Hc.
    assert (Hg' : forall c0, In c0 cs -> good_ecall N c0) by (intros c0 H0; apply Hg; right; exact H0).
    assert (ES' : forall g, In (ESet g) cs -> E g) by (intros g G; apply ES; right; exact G).
    assert (Hl1 : (1 <= length l)%nat) by (pose proof (xi_some _ _ _ _ _ I); destruct l; [congruence|cbn [length]; lia]).
    assert (SAME : forall s1, xinv N f P s1 l -> do_ecalls N eps fuel s1 cs = Some o ->
      exists s' l', o = Ok s' /\ xinv N (equation_after f cs) P s' l' /\ switched N E l' /\ (length l' <= length l + length (c :: cs))%nat /\
      ((forall c0, In c0 (c :: cs) -> goes_on c0) -> exists l2, l' = l ++ l2) /\
      ((forall c0, In c0 (c :: cs) -> goes_on c0 /\ forall g, c0 <> ESet g) -> exists l0 p l2, l = l0 ++ [p] /\ l' = l ++ l2 /\ steps_from N f p l2)).
    { intros s1 I1 H1. destruct (IH s1 l f o HB I1 EF ES' ltac:(lia) Hg' SW H1) as (s' & l' & Eo & I' & SW' & Hlen & K1 & K2).
      exists s', l'. split; [exact Eo|]. split; [exact I'|]. split; [exact SW'|]. split; [cbn [length]; lia|].
      split; intros G; [apply K1|apply K2]; intros c0 H0; apply G; right; exact H0. }
    destruct c as [[y0| |b|p]|g]; cbn [do_ecall do_call] in H.
    + destruct (xinit N HN f P s l y0 HB ltac:(lia) I) as (s1 & E1 & I1). rewrite E1 in H.
      destruct (IH s1 [(0, y0, f 0 y0)] f o HB (rk_x _ _ _ _ _ I1) EF ES') as (s' & l' & Eo & I' & SW' & Hlen & K1 & K2); [cbn [length]; lia|exact Hg'| |exact H|].
      { apply (sw_start N E f); [exact EF|]. intros j Hj. reflexivity. }
      exists s', l'. split; [exact Eo|]. split; [exact I'|]. split; [exact SW'|]. split; [cbn [length] in *; lia|].
      split; intros G; exfalso; [apply (G (ECall (CInit y0))); left; reflexivity|apply (proj1 (G (ECall (CInit y0)) (or_introl eq_refl)))].
    + destruct (rk_step N eps fuel s) as [(o1, s1)|] eqn:Es; [|discriminate H].
      destruct (xstep N HN f (HE f EF) P eps fuel s l o1 s1 HB I ltac:(lia) Es) as [(E1 & I1)|(l0 & p & t' & y' & yp' & El & Eo1 & ST & I1)].
      * subst o1. exact (SAME s1 I1 H).
      * subst o1. assert (SW1 : switched N E (l ++ [(t', y', yp')])).
        { rewrite El, <- app_assoc. cbn [app]. apply (sw_step N E f); [exact EF| |exact ST]. rewrite <- El. exact SW. }
        destruct (IH s1 (l ++ [(t', y', yp')]) f o HB I1 EF ES') as (s' & l' & Eo & I' & SW' & Hlen & K1 & K2);
          [rewrite app_length; cbn [length]; lia|exact Hg'|exact SW1|exact H|].
        exists s', l'. split; [exact Eo|]. split; [exact I'|]. split; [exact SW'|]. split; [rewrite app_length in Hlen; cbn [length] in *; lia|].
        split; intros G.
        -- destruct K1 as (l2 & K1); [intros c0 H0; apply G; right; exact H0|]. exists ((t', y', yp') :: l2). rewrite K1, <- app_assoc. reflexivity.
        -- destruct K2 as (l3 & p3 & l2 & A1 & A2 & A3); [intros c0 H0; apply G; right; exact H0|]. apply app_inj_tail in A1. destruct A1 as (_ & A1).
           exists l0, p, ((t', y', yp') :: l2). split; [exact El|]. split; [rewrite A2, <- app_assoc; reflexivity|]. split; [exact ST|]. rewrite A1. exact A3.
    + apply (SAME (toggle_dense s b)); [destruct I; constructor; assumption|exact H].
    + apply (SAME (set_params s p)); [destruct I; constructor; assumption|exact H].
    + destruct (IH (set_equation s g) l g o HB (x_set _ _ _ _ _ _ I) (ES g (or_introl eq_refl)) ES' ltac:(lia) Hg' SW H) as (s' & l' & Eo & I' & SW' & Hlen & K1 & K2).
      exists s', l'. split; [exact Eo|]. split; [exact I'|]. split; [exact SW'|]. split; [cbn [length]; lia|].
      split; intros G; [apply K1; intros c0 H0; apply G; right; exact H0|]. exfalso. apply (proj2 (G (ESet g) (or_introl eq_refl)) g). reflexivity.
Qed.
