(** Lemmas about the GO+CODE distribution functions. *)
From Coq Require Import Reals Lra Lia List.
From Verif Require Import Base DomainModel AnalyticalModel NumericModel NumericSpec NumericArrays DistributionModel DistributionSpec DistributionProofs DistributionUse CodeModel CodeSpec CodeProofs CodeUse.
Import ListNotations.
Local Open Scope R_scope.

(** An object whose cached polynomials belong to its cached pitch. *)
Definition clean (o : code) : Prop := sound o /\ exists last, cached o last false.
(** The same distributions, apart from their caches. *)
Definition same_codes (cs cs' : list code) : Prop := Forall2 (fun c c' => clean c' /\ same_data c c') cs cs'.

Lemma same_refl : forall o, same_data o o. Proof. intro o. repeat split. Qed.
Lemma same_codes_refl : forall cs, Forall clean cs -> same_codes cs cs.
Proof. induction 1; constructor; [split; [assumption|apply same_refl]|assumption]. Qed.
Lemma same_codes_nth : forall cs cs' i c, same_codes cs cs' -> nth_error cs i = Some c -> exists c', nth_error cs' i = Some c' /\ clean c' /\ same_data c c'.
Proof.
  intros cs cs' i c H. revert i. induction H as [|x y l m [H1 H2] _ IH]; intros [|i] E; cbn in E |- *; try discriminate.
  - injection E as <-. exists y. split; [reflexivity|]. split; assumption.
  - apply IH. exact E.
Qed.
Lemma same_codes_update : forall cs cs' i c c', same_codes cs cs' -> nth_error cs i = Some c -> clean c' -> same_data c c' -> same_codes cs (update cs' i c').
Proof.
  intros cs cs' i c c' H. revert i. induction H as [|x y l m [H1 H2] H3 IH]; intros [|i] E C D; cbn in E |- *; try discriminate.
  - injection E as <-. constructor; [split; assumption|exact H3].
  - constructor; [split; assumption|]. apply IH; assumption.
Qed.

Section Gocode.
  Variable itp : Z -> list R -> list R -> R -> R.
  Lemma clean_eval : forall o p xi, clean o -> exists o', code_eval itp o p xi = Ok (o', value_of itp o p xi) /\ clean o' /\ same_data o o'.
  Proof.
    intros o p xi [S (last & C)]. destruct (eval_step itp o last false p xi S C) as (o' & E & S' & D & C').
    exists o'. split.
    - rewrite E. destruct last as [x|]; [destruct (Req_EM_T xi x)|]; reflexivity.
    - split; [|exact D]. split; [exact S'|]. cbn [stale] in C'. destruct (Rlt_dec p (first_p o)); [exists last; exact C'|].
      destruct (Rlt_dec (last_p o) p); [exists last; exact C'|]. destruct last as [x|]; [destruct (Req_EM_T xi x)|]; eexists; exact C'.
  Qed.
  Lemma at_ok : forall cs cs' i c p xi, same_codes cs cs' -> nth_error cs i = Some c ->
    exists cs'', gocode_at itp cs' i p xi = Ok (cs'', value_of itp c p xi) /\ same_codes cs cs''.
  Proof.
    intros cs cs' i c p xi H E. destruct (same_codes_nth cs cs' i c H E) as (c' & E' & C & D). unfold gocode_at, dget. rewrite E'. cbn [obind].
    destruct (clean_eval c' p xi C) as (c2 & E2 & C2 & D2). rewrite E2. cbn [obind fst snd]. destruct (same_value itp c c' D) as (V & _). rewrite V.
    eexists. split; [reflexivity|]. apply (same_codes_update cs cs' i c c2 H E C2). apply (same_trans c c' c2 D D2).
  Qed.

  Variable g : gocode.
  Hypothesis CL : Forall clean (g_code g).
  Lemma first_ok : forall r0 r1 c0 c1 r p xi s, (1 <= length (g_rho g))%nat -> find_nearest (g_rho g) (r - s) = Ok 0%Z ->
    nth_error (g_rho g) 0 = Some r0 -> nth_error (g_rho g) 1 = Some r1 -> nth_error (g_code g) 0 = Some c0 -> nth_error (g_code g) 1 = Some c1 -> r1 - r0 <> 0 ->
    exists g', gocode_eval itp g r p xi s = Ok (g', if Req_EM_T r0 0 then None else Some (through r0 (value_of itp c0 p xi) r1 (value_of itp c1 p xi) (r - s))) /\
      g_rho g' = g_rho g /\ same_codes (g_code g) (g_code g').
  Proof.
    intros r0 r1 c0 c1 r p xi s L F R0 R1 C0 C1 N. unfold gocode_eval. replace (length (g_rho g) =? 0)%nat with false by (symmetry; apply Nat.eqb_neq; lia).
    rewrite F. cbn [obind]. change (0 =? 0)%Z with true. cbv iota. unfold dget. rewrite R0, R1. cbn [obind].
    destruct (at_ok _ _ 0 c0 p xi (same_codes_refl _ CL) C0) as (k1 & E1 & S1). rewrite E1. cbn [obind fst snd].
    destruct (at_ok _ _ 1 c1 p xi S1 C1) as (k2 & E2 & S2). rewrite E2. cbn [obind fst snd].
    exists (Gocode (g_rho g) k2). split; [|split; [reflexivity|exact S2]]. do 2 f_equal. unfold ediv at 1. destruct (Req_EM_T (r1 - r0) 0); [contradiction|].
    destruct (Req_EM_T r0 0) as [Q|Q].
    - unfold line, olift, ediv. destruct (Req_EM_T (r0 - 0) 0); [reflexivity|lra].
    - rewrite line_ok by lra. f_equal. unfold through. field. split; lra.
  Qed.
  Lemma last_ok : forall rl rb cl cb r p xi s, (2 <= length (g_rho g))%nat ->
    find_nearest (g_rho g) (r - s) = Ok (-1)%Z \/ find_nearest (g_rho g) (r - s) = Ok (Z.of_nat (length (g_rho g) - 1)) ->
    nth_error (g_rho g) (length (g_rho g) - 1) = Some rl -> nth_error (g_rho g) (length (g_rho g) - 2) = Some rb ->
    nth_error (g_code g) (length (g_rho g) - 1) = Some cl -> nth_error (g_code g) (length (g_rho g) - 2) = Some cb ->
    exists g', gocode_eval itp g r p xi s = Ok (g', if Req_EM_T (2 * rl - rb) 0 then None
        else Some (value_of itp cl p xi + (r - s - rl) * ((value_of itp cl p xi - value_of itp cb p xi) / (2 * rl - rb)))) /\
      g_rho g' = g_rho g /\ same_codes (g_code g) (g_code g').
  Proof.
    intros rl rb cl cb r p xi s L F RL RB CL' CB. unfold gocode_eval. replace (length (g_rho g) =? 0)%nat with false by (symmetry; apply Nat.eqb_neq; lia).
    destruct (at_ok _ _ (length (g_rho g) - 1) cl p xi (same_codes_refl _ CL) CL') as (k1 & E1 & S1).
    destruct (at_ok _ _ (length (g_rho g) - 2) cb p xi S1 CB) as (k2 & E2 & S2).
    assert (Q : exists ir, find_nearest (g_rho g) (r - s) = Ok ir /\ (ir =? 0)%Z = false /\ ((ir <? 0) || (Z.of_nat (length (g_rho g) - 1) <=? ir))%Z%bool = true).
    { destruct F as [F|F]; eexists; (split; [exact F|]); split; try reflexivity.
      - apply Z.eqb_neq. lia.
      - rewrite Z.leb_refl. apply Bool.orb_true_r. }
    destruct Q as (ir & QF & Q0 & Q1). rewrite QF. cbn [obind]. rewrite Q0, Q1. cbv iota. unfold dget. rewrite RL, RB. cbn [obind]. rewrite E1. cbn [obind fst snd]. rewrite E2. cbn [obind fst snd].
    exists (Gocode (g_rho g) k2). split; [|split; [reflexivity|exact S2]]. do 2 f_equal.
    unfold line, olift, ediv. destruct (Req_EM_T (rl + (2 * rl - rb) - rl) 0) as [Q|Q]; destruct (Req_EM_T (2 * rl - rb) 0) as [Q'|Q']; try lra; try reflexivity.
    f_equal. field. lra.
  Qed.
  Lemma middle_ok : forall i r0 r1 c0 c1 r p xi s, (1 <= i)%nat -> (S i < length (g_rho g))%nat -> find_nearest (g_rho g) (r - s) = Ok (Z.of_nat i) ->
    nth_error (g_rho g) i = Some r0 -> nth_error (g_rho g) (S i) = Some r1 -> nth_error (g_code g) i = Some c0 -> nth_error (g_code g) (S i) = Some c1 -> r1 - r0 <> 0 ->
    exists g', gocode_eval itp g r p xi s = Ok (g', Some (through r0 (value_of itp c0 p xi) r1 (value_of itp c1 p xi) (r - s))) /\
      g_rho g' = g_rho g /\ same_codes (g_code g) (g_code g').
  Proof.
    intros i r0 r1 c0 c1 r p xi s I L F R0 R1 C0 C1 N. unfold gocode_eval. replace (length (g_rho g) =? 0)%nat with false by (symmetry; apply Nat.eqb_neq; lia).
    rewrite F. cbn [obind]. replace (Z.of_nat i =? 0)%Z with false by (symmetry; apply Z.eqb_neq; lia).
    replace (Z.of_nat i <? 0)%Z with false by (symmetry; apply Z.ltb_ge; lia). replace (Z.of_nat (length (g_rho g) - 1) <=? Z.of_nat i)%Z with false by (symmetry; apply Z.leb_gt; lia).
    cbn [orb]. cbv iota zeta. rewrite Nat2Z.id, Nat.add_1_r. unfold dget. rewrite R0, R1. cbn [obind].
    destruct (at_ok _ _ i c0 p xi (same_codes_refl _ CL) C0) as (k1 & E1 & S1). rewrite E1. cbn [obind fst snd].
    destruct (at_ok _ _ (S i) c1 p xi S1 C1) as (k2 & E2 & S2). rewrite E2. cbn [obind fst snd].
    exists (Gocode (g_rho g) k2). split; [|split; [reflexivity|exact S2]]. rewrite line_ok by exact N. reflexivity.
  Qed.
  Lemma index_ok : forall i r0 r1 c0 c1 r p xi s, ascending (g_rho g) -> find_nearest (g_rho g) (r - s) = Ok (Z.of_nat i) ->
    nth_error (g_rho g) i = Some r0 -> nth_error (g_rho g) (S i) = Some r1 -> nth_error (g_code g) i = Some c0 -> nth_error (g_code g) (S i) = Some c1 -> (i = 0%nat -> r0 <> 0) ->
    exists g', gocode_eval itp g r p xi s = Ok (g', Some (through r0 (value_of itp c0 p xi) r1 (value_of itp c1 p xi) (r - s))) /\
      g_rho g' = g_rho g /\ same_codes (g_code g) (g_code g').
  Proof.
    intros i r0 r1 c0 c1 r p xi s G F R0 R1 C0 C1 NZ. assert (LT : r0 < r1) by (apply (G i (S i)); [lia|assumption|assumption]).
    assert (L : (S i < length (g_rho g))%nat) by (apply nth_error_Some; rewrite R1; discriminate).
    destruct i as [|i].
    - destruct (first_ok r0 r1 c0 c1 r p xi s ltac:(lia) F R0 R1 C0 C1 ltac:(lra)) as (g' & E & H). exists g'. split; [|exact H]. rewrite E.
      destruct (Req_EM_T r0 0) as [Q|Q]; [exfalso; apply (NZ eq_refl Q)|reflexivity].
    - apply (middle_ok (S i)); try assumption; lia || lra.
  Qed.
  Lemma between_ok : forall i r0 r1 c0 c1 r p xi s, ascending (g_rho g) -> length (g_code g) = length (g_rho g) ->
    nth_error (g_rho g) i = Some r0 -> nth_error (g_rho g) (S i) = Some r1 -> nth_error (g_code g) i = Some c0 -> nth_error (g_code g) (S i) = Some c1 ->
    r0 <= r - s <= r1 -> (i = 0%nat -> r0 <> 0) ->
    exists g', gocode_eval itp g r p xi s = Ok (g', Some (through r0 (value_of itp c0 p xi) r1 (value_of itp c1 p xi) (r - s))) /\
      g_rho g' = g_rho g /\ same_codes (g_code g) (g_code g').
  Proof.
    intros i r0 r1 c0 c1 r p xi s G LC R0 R1 C0 C1 [H1 H2] NZ. assert (LT : r0 < r1) by (apply (G i (S i)); [lia|assumption|assumption]).
    assert (L : (S i < length (g_rho g))%nat) by (apply nth_error_Some; rewrite R1; discriminate).
    destruct H2 as [H2|H2].
    - apply (index_ok i); try assumption. apply (find_at (g_rho g) (r - s) i r0 r1 G R0 R1 H1). left. exact H2.
    - destruct (Nat.eq_dec (i + 2) (length (g_rho g))) as [Q|Q].
      + apply (index_ok i); try assumption. apply (find_at (g_rho g) (r - s) i r0 r1 G R0 R1 H1). right. split; [exact H2|exact Q].
      + destruct (nth_error (g_rho g) (S (S i))) as [r2|] eqn:R2; [|apply nth_error_None in R2; lia].
        destruct (nth_error (g_code g) (S (S i))) as [c2|] eqn:C2; [|apply nth_error_None in C2; lia].
        assert (LT2 : r1 < r2) by (apply (G (S i) (S (S i))); [lia|assumption|assumption]).
        destruct (index_ok (S i) r1 r2 c1 c2 r p xi s G) as (g' & E & H); try assumption; [|discriminate|].
        * apply (find_at (g_rho g) (r - s) (S i) r1 r2 G R1 R2); [lra|left; lra].
        * exists g'. split; [|exact H]. rewrite E. rewrite H2, through_l, through_r by lra. reflexivity.
  Qed.
End Gocode.

Lemma fresh_clean : forall c, fresh c -> clean c.
Proof. intros c (np & nleg & p & f & m & E & L). destruct (initialize_sound _ _ _ _ _ _ E L) as (S & C & _). split; [exact S|exists None; exact C]. Qed.
Lemma fresh_all : forall cs, Forall fresh cs -> Forall clean cs.
Proof. intros cs H. apply (Forall_impl clean fresh_clean H). Qed.
Lemma same_codes_clean : forall cs cs', same_codes cs cs' -> Forall clean cs'.
Proof. intros cs cs' H. induction H as [|x y l m [C _] _ IH]; constructor; assumption. Qed.
Lemma same_codes_length : forall cs cs', same_codes cs cs' -> length cs' = length cs.
Proof. intros cs cs' H. induction H as [|x y l m _ _ IH]; [reflexivity|cbn; rewrite IH; reflexivity]. Qed.
Lemma same_codes_trans : forall a b c, same_codes a b -> same_codes b c -> same_codes a c.
Proof.
  intros a b c H. revert c. induction H as [|x y l m [C D] _ IH]; intros c K; inversion K as [|u v l' m' [C' D'] K']; subst; constructor.
  - split; [exact C'|]. apply (same_trans x y v D D').
  - apply IH. exact K'.
Qed.
Section History.
  Variable itp : Z -> list R -> list R -> R -> R.
  (** Every evaluation is defined if there are two radii, and changes caches only. *)
  Lemma eval_total : forall g r p xi s, Forall clean (g_code g) -> length (g_code g) = length (g_rho g) -> (2 <= length (g_rho g))%nat ->
    exists g' v, gocode_eval itp g r p xi s = Ok (g', v) /\ g_rho g' = g_rho g /\ same_codes (g_code g) (g_code g').
  Proof.
    intros g r p xi s CL LC L. unfold gocode_eval. replace (length (g_rho g) =? 0)%nat with false by (symmetry; apply Nat.eqb_neq; lia).
    destruct (find_total (g_rho g) (r - s)) as (ir & F & I). rewrite F. cbn [obind].
    assert (W : forall i j (k : R -> R -> R -> R -> option R), (i < length (g_rho g))%nat -> (j < length (g_rho g))%nat -> exists g' v,
      obind (dget (g_rho g) i) (fun ri => obind (dget (g_rho g) j) (fun rj => obind (gocode_at itp (g_code g) i p xi) (fun ei => obind (gocode_at itp (fst ei) j p xi) (fun ej =>
        Ok (Gocode (g_rho g) (fst ej), k ri rj (snd ei) (snd ej)))))) = Ok (g', v) /\ g_rho g' = g_rho g /\ same_codes (g_code g) (g_code g')).
    { intros i j k Hi Hj. unfold dget. destruct (nth_error (g_rho g) i) as [ri|] eqn:Ri; [|apply nth_error_None in Ri; lia].
      destruct (nth_error (g_rho g) j) as [rj|] eqn:Rj; [|apply nth_error_None in Rj; lia]. cbn [obind].
      destruct (nth_error (g_code g) i) as [ci|] eqn:Ci; [|apply nth_error_None in Ci; lia]. destruct (nth_error (g_code g) j) as [cj|] eqn:Cj; [|apply nth_error_None in Cj; lia].
      destruct (at_ok itp _ _ i ci p xi (same_codes_refl _ CL) Ci) as (k1 & E1 & S1). rewrite E1. cbn [obind fst snd].
      destruct (at_ok itp _ _ j cj p xi S1 Cj) as (k2 & E2 & S2). rewrite E2. cbn [obind fst snd]. eexists _, _. split; [reflexivity|]. split; [reflexivity|exact S2]. }
    destruct (ir =? 0)%Z eqn:Z0.
    - apply (W 0%nat 1%nat (fun r1 r2 e1 e2 => line 0 r1 (r - s) (ediv (r2 * e1 - r1 * e2) (r2 - r1) Some) (Some e1))); lia.
    - apply Z.eqb_neq in Z0. destruct ((ir <? 0) || (Z.of_nat (length (g_rho g) - 1) <=? ir))%Z%bool eqn:B.
      + apply (W (length (g_rho g) - 1)%nat (length (g_rho g) - 2)%nat (fun r0 rb e0 eb => line r0 (r0 + (2 * r0 - rb)) (r - s) (Some e0) (Some (2 * e0 - eb)))); lia.
      + apply Bool.orb_false_iff in B as [B1 B2]. apply Z.ltb_ge in B1. apply Z.leb_gt in B2. cbv zeta.
        apply (W (Z.to_nat ir) (Z.to_nat ir + 1)%nat (fun r0 r1 e0 e1 => line r0 r1 (r - s) (Some e0) (Some e1))); lia.
  Qed.
  Lemma evals_total : forall h g, Forall clean (g_code g) -> length (g_code g) = length (g_rho g) -> (2 <= length (g_rho g))%nat ->
    exists g', gocode_evals itp g h = Ok g' /\ g_rho g' = g_rho g /\ same_codes (g_code g) (g_code g').
  Proof.
    induction h as [|[[[r p] xi] s] h IH]; intros g CL LC L; [exists g; split; [reflexivity|]; split; [reflexivity|apply same_codes_refl; exact CL]|].
    cbn [gocode_evals]. destruct (eval_total g r p xi s CL LC L) as (g1 & v & E & R1 & S1). rewrite E. cbn [obind fst].
    destruct (IH g1) as (g2 & E2 & R2 & S2); [apply (same_codes_clean _ _ S1)|rewrite R1, (same_codes_length _ _ S1); exact LC|rewrite R1; exact L|].
    exists g2. split; [exact E2|]. split; [rewrite R2; exact R1|apply (same_codes_trans _ _ _ S1 S2)].
  Qed.
End History.

(** * Reading files *)
Lemma slice_ok : forall nt time t, slice_of nt time t -> slice (Z.of_nat nt) time = Ok (Z.of_nat t).
Proof.
  intros nt time t [L H]. unfold slice. destruct (Z.ltb_spec time 0); destruct (Z.leb_spec (Z.of_nat nt) (if (time <? 0)%Z then Z.of_nat nt + time else time)%Z);
    destruct (Z.ltb_spec time 0); try lia.
  - replace (Z.of_nat nt + time <? 0)%Z with false by (symmetry; apply Z.ltb_ge; lia). replace (Z.of_nat nt <=? Z.of_nat nt + time)%Z with false by (symmetry; apply Z.leb_gt; lia).
    cbn [orb]. f_equal. lia.
  - replace (time <? 0)%Z with false by (symmetry; apply Z.ltb_ge; lia). replace (Z.of_nat nt <=? time)%Z with false by (symmetry; apply Z.leb_gt; lia). cbn [orb]. f_equal. lia.
Qed.
Lemma slice_no : forall nt time, (time < - Z.of_nat nt \/ Z.of_nat nt <= time)%Z -> slice (Z.of_nat nt) time = Throw.
Proof.
  intros nt time H. unfold slice. destruct (Z.ltb_spec time 0).
  - replace (Z.of_nat nt + time <? 0)%Z with true by (symmetry; apply Z.ltb_lt; lia). rewrite Bool.orb_true_r. reflexivity.
  - replace (Z.of_nat nt <=? time)%Z with true by (symmetry; apply Z.leb_le; lia). reflexivity.
Qed.
Lemma vector_ok : forall a l, vector a l -> exists m, a = Some m /\ vector_length m = Ok (length l) /\ forall i, (i < length l)%nat -> aget m 0 i = Ok (nth i l 0).
Proof.
  intros a l (m & -> & H). exists m. split; [reflexivity|]. destruct H as [(R1 & C1 & L & V)|(R1 & C1 & L & V)].
  - split; [unfold vector_length; rewrite R1, C1; reflexivity|]. intros i I. unfold aget. rewrite R1. cbn [Nat.ltb Nat.leb]. pose proof (V 0%nat i ltac:(lia) I) as Q. rewrite C1. rewrite Q. reflexivity.
  - split.
    + unfold vector_length. rewrite R1, C1. destruct (Nat.eqb_spec (length l) 1) as [Q|Q]; [rewrite Q; reflexivity|reflexivity].
    + intros i I. unfold aget. rewrite R1. replace (0 <? length l)%nat with true by (symmetry; apply Nat.ltb_lt; lia). rewrite C1. pose proof (V i 0%nat I ltac:(lia)) as Q.
      replace (0 * 1 + i)%nat with (i * 1 + 0)%nat by lia. rewrite Q. reflexivity.
Qed.
Lemma vector_rows : forall a l, vector a l -> l <> [] -> forall m, a = Some m -> ma_rows m <> 0%nat.
Proof.
  intros a l (m & -> & H) N m' E. injection E as <-. destruct l as [|x l]; [congruence|]. destruct H as [(R1 & _)|(R1 & _)]; rewrite R1; cbn; lia.
Qed.
Lemma number_ok : forall a x, number a x -> exists m, a = Some m /\ scalar m = Ok x.
Proof.
  intros a x (m & -> & R1 & C1 & L & V). exists m. split; [reflexivity|]. unfold scalar. rewrite R1, C1. cbn [Nat.eqb andb]. unfold aget. rewrite R1, C1. cbn [Nat.ltb Nat.leb].
  rewrite (V 0%nat 0%nat) by lia. reflexivity.
Qed.
Lemma number_or_one_ok : forall a x, number_or_one a x -> scalar_or_one a = Ok x.
Proof. intros a x [[-> ->]|H]; [reflexivity|]. destruct (number_ok a x H) as (m & -> & E). exact E. Qed.
Lemma int_of_nat : forall n, (Z.of_nat n < 2 ^ 31)%Z -> int_of (INR n) = Ok (Z.of_nat n).
Proof.
  intros n H. unfold int_of. destruct (Rlt_dec (INR n) 0) as [Q|Q]; [pose proof (pos_INR n); lra|].
  destruct (Rle_dec 2147483648 (INR n)) as [P|P]; [|rewrite Int_part_INR; reflexivity].
  exfalso. rewrite INR_IZR_INZ in P. apply le_IZR in P. lia.
Qed.
Lemma norm_power : forall nref Tref, 0 < Tref -> code_norm nref Tref = nref / Rpower (2 * PI * electron_mass * Tref) (3 / 2).
Proof.
  intros nref Tref H. unfold code_norm. cbv zeta. assert (P : 0 < 2 * PI * electron_mass * Tref).
  { apply Rmult_lt_0_compat; [|exact H]. apply Rmult_lt_0_compat; [pose proof PI_RGT_0; lra|]. unfold electron_mass. apply Rdiv_lt_0_compat; [lra|apply pow_lt; lra]. }
  replace (3 / 2) with (/ 2 + 1) by lra. rewrite Rpower_plus, Rpower_sqrt, Rpower_1 by exact P. reflexivity.
Qed.
