(** Proofs about the times of the integrator with rounding. *)
Require Import Reals List ZArith Lia Lra.
From Flocq Require Import Core Relative.
From Verif Require Import Base IntegratorModel IntegratorSpec RoundModel RoundSpec.
Import ListNotations.
Local Open Scope R_scope.

(** * The rounding of doubles *)
Local Notation fmt := (generic_format radix2 (FLT_exp (-1074) 53)).
Local Instance prec53 : Prec_gt_0 53. Proof. reflexivity. Qed.

Lemma b64_le : forall x y, x <= y -> b64 x <= b64 y.
Proof. intros x y H. apply round_le; [apply FLT_exp_valid; exact prec53 | apply valid_rnd_N | exact H]. Qed.
Lemma b64_fmt : forall x, fmt (b64 x).
Proof. intros x. apply generic_format_round; [apply FLT_exp_valid; exact prec53 | apply valid_rnd_N]. Qed.
Lemma b64_id : forall x, fmt x -> b64 x = x.
Proof. intros x H. apply round_generic; [apply valid_rnd_N | exact H]. Qed.
Lemma b64_idem : forall x, b64 (b64 x) = b64 x.
Proof. intros x. apply b64_id, b64_fmt. Qed.
Lemma fmt_of : forall x, b64 x = x -> fmt x.
Proof. intros x H. rewrite <- H. apply b64_fmt. Qed.
Lemma b64_0 : b64 0 = 0.
Proof. apply b64_id, generic_format_0. Qed.
Lemma b64_rounding : rounding b64.
Proof. split; [exact b64_le|]. split; [exact b64_idem|exact b64_0]. Qed.
Lemma b64_bpow : forall e, (-1074 <= e)%Z -> b64 (bpow radix2 e) = bpow radix2 e.
Proof. intros e H. apply b64_id. apply generic_format_FLT_bpow; [exact prec53|exact H]. Qed.
Lemma b64_float : forall m e, (Z.abs m < 2 ^ 53)%Z -> (-1074 <= e)%Z -> b64 (IZR m * bpow radix2 e) = IZR m * bpow radix2 e.
Proof.
  intros m e Hm He. apply b64_id. apply generic_format_FLT. exists (Float radix2 m e); [reflexivity|exact Hm|exact He].
Qed.
Lemma b64_pos : forall x, 0 <= x -> 0 <= b64 x.
Proof. intros x H. rewrite <- b64_0. apply b64_le, H. Qed.
Lemma b64_1 : b64 1 = 1.
Proof. change 1 with (bpow radix2 0). apply b64_bpow. lia. Qed.

(** Adding more than DBL_EPSILON times a time makes a later time. *)
Lemma b64_advances : forall T h, 0 <= T -> b64 T = T -> b64 h = h -> b64 (Rabs T * eps64) < h -> T < b64 (T + h).
Proof.
  intros T h HT FT Fh H.
  assert (U : ulp radix2 (FLT_exp (-1074) 53) T <= h).
  { destruct (Rle_or_lt (bpow radix2 (-1074 + 53 - 1)) (Rabs T)) as [Hn|Hn].
    - pose proof (ulp_FLT_le radix2 (-1074) 53 T Hn) as L.
      apply Rle_trans with (2 := Rlt_le _ _ H).
      rewrite <- (b64_id (ulp radix2 (FLT_exp (-1074) 53) T)); [apply b64_le; exact L|].
      apply generic_format_ulp; typeclasses eauto.
    - rewrite ulp_FLT_small; [|exact prec53|apply Rlt_trans with (1 := Hn); apply bpow_lt; lia].
      assert (P : 0 < h).
      { apply Rle_lt_trans with (2 := H). apply b64_pos. apply Rmult_le_pos; [apply Rabs_pos|]. apply bpow_ge_0. }
      pose proof (succ_le_lt radix2 (FLT_exp (-1074) 53) 0 h (generic_format_0 _ _) (fmt_of h Fh) P) as S.
      rewrite succ_0 in S. rewrite ulp_FLT_0 in S by exact prec53. exact S. }
  apply Rlt_le_trans with (succ radix2 (FLT_exp (-1074) 53) T).
  - rewrite succ_eq_pos by exact HT. pose proof (ulp_ge_0 radix2 (FLT_exp (-1074) 53) T).
    assert (0 < ulp radix2 (FLT_exp (-1074) 53) T); [|lra].
    pose proof (ulp_FLT_gt radix2 (-1074) 53 T) as G. pose proof (Rabs_pos T). pose proof (bpow_gt_0 radix2 (-53)).
    assert (0 <= Rabs T * bpow radix2 (-53)) by (apply Rmult_le_pos; lra). change (-(53))%Z with (-53)%Z in G. lra.
  - rewrite <- (b64_id (succ radix2 (FLT_exp (-1074) 53) T)).
    + apply b64_le. rewrite succ_eq_pos by exact HT. lra.
    + apply generic_format_succ; [apply FLT_exp_valid; exact prec53|apply fmt_of; exact FT].
Qed.

(** Adding at most 2^-54 to a time that is at least 1 changes nothing. *)
Lemma b64_stays : forall T h, 1 <= T -> b64 T = T -> 0 <= h <= bpow radix2 (-54) -> b64 (T + h) = T.
Proof.
  intros T h HT FT Hh. apply Rle_antisym.
  - apply round_N_le_midp; [apply FLT_exp_valid; exact prec53|apply fmt_of; exact FT|].
    rewrite succ_eq_pos by lra. pose proof (ulp_FLT_gt radix2 (-1074) 53 T) as G.
    rewrite (Rabs_pos_eq T) in G by lra. change (- (53))%Z with (-54 + 1)%Z in G. rewrite bpow_plus in G.
    change (bpow radix2 1) with 2 in G. pose proof (bpow_gt_0 radix2 (-54)). nra.
  - rewrite <- FT at 1. apply b64_le. lra.
Qed.

(** * Step sizes that shrink *)
Definition shrink (h : R) (ss : list R) : R := fold_left (fun h s => b64 (h * s)) ss h.
Lemma shrink_cons : forall h s ss, shrink h (s :: ss) = shrink (b64 (h * s)) ss.
Proof. reflexivity. Qed.
Lemma shrink_app : forall h a b, shrink h (a ++ b) = shrink (shrink h a) b.
Proof. intros. apply fold_left_app. Qed.
Definition small (s : R) : Prop := 0 <= s <= 15/16.

Lemma shrink_pos : forall ss h, 0 <= h -> Forall small ss -> 0 <= shrink h ss.
Proof.
  induction ss as [|s ss IH]; intros h Hh F; [exact Hh|]. rewrite shrink_cons.
  inversion F as [|? ? Hs Hss]; subst. apply IH; [|exact Hss]. apply b64_pos. apply Rmult_le_pos; [exact Hh|apply Hs].
Qed.
Lemma pow15 : forall k, (k <= 11)%nat -> (0 < 15 ^ Z.of_nat k < 2 ^ 53)%Z.
Proof.
  intros k Hk. split; [apply Z.pow_pos_nonneg; lia|].
  apply Z.le_lt_trans with (15 ^ 11)%Z; [apply Z.pow_le_mono_r; lia|reflexivity].
Qed.
Lemma shrink_part : forall ss h k j, (k + length ss <= 11)%nat -> (-1030 <= j)%Z -> Forall small ss -> 0 <= h ->
  h <= IZR (15 ^ Z.of_nat k) * bpow radix2 (j - 4 * Z.of_nat k) ->
  shrink h ss <= IZR (15 ^ Z.of_nat (k + length ss)) * bpow radix2 (j - 4 * Z.of_nat (k + length ss)).
Proof.
  induction ss as [|s ss IH]; intros h k j Hk Hj F Hh H.
  - cbn [length]. rewrite Nat.add_0_r. exact H.
  - inversion F as [|? ? Hs Hss]; subst. rewrite shrink_cons. cbn [length] in *.
    replace (k + S (length ss))%nat with (S k + length ss)%nat by lia. apply IH; [lia|exact Hj|exact Hss| |].
    + apply b64_pos. apply Rmult_le_pos; [exact Hh|apply Hs].
    + rewrite <- (b64_float (15 ^ Z.of_nat (S k)) (j - 4 * Z.of_nat (S k))).
      * apply b64_le. apply Rle_trans with (IZR (15 ^ Z.of_nat k) * bpow radix2 (j - 4 * Z.of_nat k) * (15/16)).
        -- apply Rmult_le_compat; [exact Hh|apply Hs|exact H|apply Hs].
        -- rewrite Nat2Z.inj_succ, Z.pow_succ_r by lia. rewrite mult_IZR.
           replace (j - 4 * Z.succ (Z.of_nat k))%Z with (j - 4 * Z.of_nat k + -4)%Z by lia. rewrite bpow_plus.
           change (bpow radix2 (-4)) with (/ 16). right. field.
      * pose proof (pow15 (S k) ltac:(lia)). lia.
      * lia.
Qed.
Lemma shrink_half : forall ss h j, length ss = 11%nat -> (-1030 <= j)%Z -> Forall small ss -> 0 <= h ->
  h <= bpow radix2 j -> shrink h ss <= bpow radix2 (j - 1).
Proof.
  intros ss h j L Hj F Hh H. pose proof (shrink_part ss h 0 j ltac:(lia) Hj F Hh) as P.
  cbn [Nat.add] in P. rewrite L in P. change (Z.of_nat 0) with 0%Z in P. change (15 ^ 0)%Z with 1%Z in P.
  replace (j - 4 * 0)%Z with j in P by lia. specialize (P ltac:(lra)).
  apply Rle_trans with (1 := P). change (Z.of_nat 11) with 11%Z.
  replace (j - 4 * 11)%Z with (j - 1 + -43)%Z by lia. rewrite bpow_plus.
  rewrite <- Rmult_assoc, (Rmult_comm (IZR _)), Rmult_assoc.
  rewrite <- (Rmult_1_r (bpow radix2 (j - 1))) at 2. apply Rmult_le_compat_l; [apply bpow_ge_0|].
  change (bpow radix2 (-43)) with (/ IZR (2 ^ 43)). change (15 ^ 11)%Z with 8649755859375%Z.
  change (2 ^ 43)%Z with 8796093022208%Z. apply Rmult_le_reg_r with 8796093022208; [lra|].
  rewrite Rmult_assoc, Rinv_l by lra. lra.
Qed.
Lemma small_split : forall (ss : list R) n, (n <= length ss)%nat -> Forall small ss ->
  Forall small (firstn n ss) /\ Forall small (skipn n ss) /\ length (firstn n ss) = n /\ ss = firstn n ss ++ skipn n ss.
Proof.
  intros ss n Hn F. rewrite <- (firstn_skipn n ss) in F. apply Forall_app in F.
  split; [apply F|]. split; [apply F|]. split; [apply firstn_length_le; exact Hn|]. symmetry. apply firstn_skipn.
Qed.
Lemma shrink_exact : forall m ss h j, length ss = (11 * m)%nat -> (-1030 <= j - Z.of_nat m)%Z -> Forall small ss -> 0 <= h ->
  h <= bpow radix2 j -> shrink h ss <= bpow radix2 (j - Z.of_nat m).
Proof.
  induction m as [|m IH]; intros ss h j L Hj F Hh H.
  - destruct ss; [|cbn [length] in L; lia]. change (shrink h []) with h. replace (j - Z.of_nat 0)%Z with j by lia. exact H.
  - destruct (small_split ss 11 ltac:(lia) F) as (F1 & F2 & L1 & E).
    rewrite E, shrink_app. replace (j - Z.of_nat (S m))%Z with (j - 1 - Z.of_nat m)%Z by lia.
    apply IH; [rewrite skipn_length; lia|lia|exact F2|apply shrink_pos; assumption|].
    apply shrink_half; try assumption; lia.
Qed.
(** A step that is shrinking does not grow. *)
Lemma shrink_le : forall ss h, 0 <= h -> b64 h = h -> Forall small ss -> shrink h ss <= h.
Proof.
  induction ss as [|s ss IH]; intros h Hh Fh F; [right; reflexivity|]. rewrite shrink_cons.
  inversion F as [|? ? Hs Hss]; subst.
  assert (P : b64 (h * s) <= h). { rewrite <- Fh at 2. apply b64_le. rewrite <- (Rmult_1_r h) at 2. apply Rmult_le_compat_l; [exact Hh|]. destruct Hs. lra. }
  apply Rle_trans with (2 := P). apply IH; [|apply b64_idem|exact Hss]. apply b64_pos. apply Rmult_le_pos; [exact Hh|apply Hs].
Qed.
Lemma shrink_fmt : forall ss h, b64 h = h -> b64 (shrink h ss) = shrink h ss.
Proof. induction ss as [|s ss IH]; intros h H; [exact H|]. rewrite shrink_cons. apply IH, b64_idem. Qed.
Lemma shrink_many : forall m ss h j, (11 * m <= length ss)%nat -> (-1030 <= j - Z.of_nat m)%Z -> Forall small ss -> 0 <= h ->
  b64 h = h -> h <= bpow radix2 j -> shrink h ss <= bpow radix2 (j - Z.of_nat m).
Proof.
  intros m ss h j L Hj F Hh Fh H. destruct (small_split ss (11 * m) L F) as (F1 & F2 & L1 & E).
  rewrite E, shrink_app. apply Rle_trans with (shrink h (firstn (11 * m) ss)).
  - apply shrink_le; [apply shrink_pos; assumption|apply shrink_fmt; exact Fh|exact F2].
  - apply shrink_exact; assumption.
Qed.

(** * The attempts *)
Section Runs.
Variables (rnd : R -> R) (tenth eps minscale maxscale : R).
Local Notation step := (attempt_step rnd tenth eps minscale maxscale).
Local Notation run := (run_attempts rnd tenth eps minscale maxscale).

Lemma run_cons : forall s a r, run s (a :: r) = let (e, s1) := step s a in let (es, s2) := run s1 r in (e :: es, s2).
Proof. reflexivity. Qed.
Lemma run_app : forall l1 l2 s, run s (l1 ++ l2) =
  let (e1, s1) := run s l1 in let (e2, s2) := run s1 l2 in (e1 ++ e2, s2).
Proof.
  induction l1 as [|a l1 IH]; intros l2 s.
  - cbn [app run_attempts]. destruct (run s l2). reflexivity.
  - cbn [app]. rewrite !run_cons. destruct (step s a) as [e s1]. rewrite IH.
    destruct (run s1 l1) as [e1 s1']. destruct (run s1' l2). reflexivity.
Qed.
Lemma run_length : forall l s es s', run s l = (es, s') -> length es = length l.
Proof.
  induction l as [|a l IH]; intros s es s' H.
  - injection H as <- <-. reflexivity.
  - rewrite run_cons in H. destruct (step s a) as [e s1]. destruct (run s1 l) as [es1 s2] eqn:E.
    injection H as <- <-. cbn [length]. f_equal. exact (IH _ _ _ E).
Qed.

Hypothesis Hr : rounding rnd.
Hypothesis H10 : 0 <= tenth.
Hypothesis Hmin : 0 <= minscale.
Hypothesis Hmax : 0 <= maxscale.

Lemma rnd_le : forall x y, x <= y -> rnd x <= rnd y.
Proof. apply Hr. Qed.
Lemma rnd_idem : forall x, rnd (rnd x) = rnd x.
Proof. apply Hr. Qed.
Lemma rnd_pos : forall x, 0 <= x -> 0 <= rnd x.
Proof. intros x H. destruct Hr as (M & _ & Z). rewrite <- Z. apply M, H. Qed.

Definition fine (s : rstate) : Prop := 0 <= r_time s /\ 0 <= r_step s /\ rnd (r_time s) = r_time s /\ rnd (r_step s) = r_step s.

Lemma accept_scale_pos : forall w, 0 <= accept_scale minscale maxscale w.
Proof.
  intros w. unfold accept_scale. destruct (Rlt_dec w minscale); destruct (Rlt_dec maxscale _); lra.
Qed.
Lemma accepted_fine : forall s sc, fine s -> 0 <= sc ->
  exists t, fst (accepted rnd s sc) = Stored t /\ r_time (snd (accepted rnd s sc)) = t /\ r_time s <= t /\ fine (snd (accepted rnd s sc)).
Proof.
  intros s sc (A & B & C & D) Hsc. exists (rnd (r_time s + r_step s)).
  assert (L : r_time s <= rnd (r_time s + r_step s)) by (rewrite <- C at 1; apply rnd_le; lra).
  split; [reflexivity|]. split; [reflexivity|]. split; [exact L|]. unfold accepted; cbn [snd]. unfold fine; cbn [r_time r_step].
  split; [lra|]. split; [|split; apply rnd_idem].
  apply rnd_pos. apply Rmult_le_pos; [exact B|]. destruct (r_rej s); [|exact Hsc]. apply Rmin_glb; lra.
Qed.
Lemma rejected_fine : forall s sc, fine s -> 0 <= sc ->
  (fst (rejected rnd eps s sc) = Retry \/ fst (rejected rnd eps s sc) = Thrown) /\
  r_time (snd (rejected rnd eps s sc)) = r_time s /\ fine (snd (rejected rnd eps s sc)).
Proof.
  intros s sc (A & B & C & D) Hsc. unfold rejected; cbn [fst snd r_time]. split; [destruct (Rle_dec _ _); [right|left]; reflexivity|].
  split; [reflexivity|]. unfold fine; cbn [r_time r_step]. split; [exact A|]. split; [|split; [exact C|apply rnd_idem]].
  apply rnd_pos. apply Rmult_le_pos; assumption.
Qed.
Lemma step_fine : forall s a, fine s -> fine (snd (step s a)) /\
  match fst (step s a) with Stored t => r_time (snd (step s a)) = t /\ r_time s <= t | _ => r_time (snd (step s a)) = r_time s end.
Proof.
  intros s a F. destruct a as [| |w|w]; cbn [attempt_step].
  - destruct (rejected_fine s tenth F H10) as (E & T & F'). split; [exact F'|]. destruct E as [E|E]; rewrite E; exact T.
  - destruct (accepted_fine s maxscale F Hmax) as (t & E & T & L & F'). split; [exact F'|]. rewrite E. split; assumption.
  - destruct (accepted_fine s _ F (accept_scale_pos w)) as (t & E & T & L & F'). split; [exact F'|]. rewrite E. split; assumption.
  - destruct (rejected_fine s (Rmax w minscale) F) as (E & T & F').
    { apply Rle_trans with (1 := Hmin). apply Rmax_r. }
    split; [exact F'|]. destruct E as [E|E]; rewrite E; exact T.
Qed.
Lemma run_fine : forall l s es s', fine s -> run s l = (es, s') ->
  fine s' /\ nondecreasing (r_time s :: stored_times es) /\ r_time s <= r_time s' /\ (forall t, In t (stored_times es) -> r_time s <= t <= r_time s').
Proof.
  induction l as [|a l IH]; intros s es s' F H.
  - injection H as <- <-. split; [exact F|]. split; [|split; [lra|intros t []]].
    intros i j x y Hij Ex Ey. destruct i as [|[|i]]; destruct j as [|[|j]]; cbn in Ex, Ey; try discriminate.
    injection Ex as <-. injection Ey as <-. lra.
  - rewrite run_cons in H. pose proof (step_fine s a F) as P. destruct (step s a) as [e s1]. cbn [fst snd] in P.
    destruct P as (F1 & P). destruct (run s1 l) as [es1 s2] eqn:E. injection H as <- <-.
    destruct (IH _ _ _ F1 E) as (F2 & N & L & A). split; [exact F2|]. destruct e as [t| |]; cbn [stored_times].
    + destruct P as (<- & P). split; [|split; [lra|]].
      * intros i j x y Hij Ex Ey. destruct i as [|i].
        -- cbn [nth_error] in Ex. injection Ex as <-. destruct j as [|j].
           ++ cbn [nth_error] in Ey. injection Ey as <-. lra.
           ++ cbn [nth_error] in Ey. pose proof (N 0%nat j _ y ltac:(lia) eq_refl Ey). lra.
        -- destruct j as [|j]; [lia|]. cbn [nth_error] in Ex, Ey. exact (N i j x y ltac:(lia) Ex Ey).
      * intros t [ <- | Ht ]; [lra|]. specialize (A t Ht). lra.
    + rewrite P in *. split; [exact N|]. split; [exact L|exact A].
    + rewrite P in *. split; [exact N|]. split; [exact L|exact A].
Qed.
End Runs.

(** * The attempts of doubles *)
Section Doubles.
Variables (minscale maxscale : R).
Hypothesis Hmin : 0 <= minscale <= 15/16.
Hypothesis Hmax : 0 <= maxscale.
Local Notation step := (attempt_step b64 (b64 (1/10)) eps64 minscale maxscale).
Local Notation run := (run_attempts b64 (b64 (1/10)) eps64 minscale maxscale).
Local Notation fine64 := (fine b64).

Lemma tenth_small : 0 <= b64 (1/10) <= 15/16.
Proof.
  split; [apply b64_pos; lra|]. rewrite <- (b64_id (15/16)); [apply b64_le; lra|].
  replace (15/16) with (IZR 15 * bpow radix2 (-4)); [|change (bpow radix2 (-4)) with (/16); field].
  apply fmt_of. apply b64_float; reflexivity || lia.
Qed.
Lemma start_fine : fine64 rstart.
Proof. unfold fine, rstart; cbn [r_time r_step]. split; [lra|]. split; [lra|]. split; [apply b64_0|apply b64_1]. Qed.

Definition scale_of (s : rstate) (a : rattempt) : R :=
  match a with
  | ANaN => b64 (1/10)
  | AZero => if r_rej s then Rmin maxscale 1 else maxscale
  | AOk w => if r_rej s then Rmin (accept_scale minscale maxscale w) 1 else accept_scale minscale maxscale w
  | ABad w => Rmax w minscale
  end.
Lemma step_scale : forall s a, r_step (snd (step s a)) = b64 (r_step s * scale_of s a).
Proof. intros s [| |w|w]; reflexivity. Qed.
Lemma scale_small : forall s a, shrinks a \/ refused a -> small (scale_of s a).
Proof.
  intros s [| |w|w] H; cbn [shrinks refused] in H; unfold small; cbn [scale_of].
  - apply tenth_small.
  - destruct H as [[]|[]].
  - destruct H as [H|[]]. assert (0 <= accept_scale minscale maxscale w <= 15/16).
    { unfold accept_scale. destruct (Rlt_dec w minscale); destruct (Rlt_dec maxscale _); lra. }
    destruct (r_rej s); [|assumption]. rewrite Rmin_left by lra. assumption.
  - destruct H as [[]|H]. split; [apply Rle_trans with (1 := proj1 Hmin); apply Rmax_r|apply Rmax_lub; lra].
Qed.
Lemma run_shrink : forall l s es s', Forall (fun a => shrinks a \/ refused a) l -> run s l = (es, s') ->
  exists ss, length ss = length l /\ Forall small ss /\ r_step s' = shrink (r_step s) ss.
Proof.
  induction l as [|a l IH]; intros s es s' F H.
  - injection H as <- <-. exists []. split; [reflexivity|]. split; [constructor|reflexivity].
  - inversion F as [|? ? Fa Fl]; subst. rewrite run_cons in H. pose proof (step_scale s a) as P.
    destruct (step s a) as [e s1]. cbn [snd] in P. destruct (run s1 l) as [es1 s2] eqn:E. injection H as <- <-.
    destruct (IH _ _ _ Fl E) as (ss & L & Fs & Es). exists (scale_of s a :: ss). cbn [length]. split; [lia|].
    split; [constructor; [apply scale_small; exact Fa|exact Fs]|]. rewrite shrink_cons, <- P. exact Es.
Qed.
Lemma run_stored : forall l s es s', Forall shrinks l -> run s l = (es, s') -> ~ In Thrown es /\ ~ In Retry es.
Proof.
  induction l as [|a l IH]; intros s es s' F H.
  - injection H as <- <-. split; intros [].
  - inversion F as [|? ? Fa Fl]; subst. rewrite run_cons in H. destruct a as [| |w|w]; try contradiction.
    cbn [attempt_step accepted] in H. match type of H with context [run ?x l] => destruct (run x l) as [es1 s2] eqn:E end.
    injection H as <- <-. destruct (IH _ _ _ Fl E) as (A & B). split; intros [X|X]; try discriminate; contradiction.
Qed.
Lemma run_refused_time : forall l s es s', Forall refused l -> run s l = (es, s') -> r_time s' = r_time s.
Proof.
  induction l as [|a l IH]; intros s es s' F H.
  - injection H as <- <-. reflexivity.
  - inversion F as [|? ? Fa Fl]; subst. rewrite run_cons in H.
    destruct a as [| |w|w]; try contradiction; cbn [attempt_step rejected] in H;
    match type of H with context [run ?x l] => destruct (run x l) as [es1 s2] eqn:E end;
    injection H as <- <-; exact (IH _ _ _ Fl E).
Qed.
Lemma refused_event : forall s a, refused a -> fst (step s a) =
  if Rle_dec (Rabs (r_step (snd (step s a)))) (b64 (Rabs (r_time s) * eps64)) then Thrown else Retry.
Proof. intros s [| |w|w] H; try contradiction; reflexivity. Qed.
End Doubles.

(** * The search of the dense output *)
Lemma bread_adv : forall k st n t it T,
  (forall i, (0 <= i < n)%Z -> bread (s_time st) i = Ok (t i)) -> (0 <= it)%Z -> Z.of_nat k = (n - (it + 2))%Z -> T <= t (n - 1)%Z ->
  exists m, advance k st it T = Ok m /\ (it <= m <= n - 2)%Z /\ T <= t (m + 1)%Z /\ (m = it \/ t m < T).
Proof.
  induction k as [|k IH]; intros st n t it T Hb Hi Hk HT.
  - exists it. split; [reflexivity|]. split; [lia|]. split; [|left; reflexivity].
    replace (it + 1)%Z with (n - 1)%Z by lia. exact HT.
  - cbn [advance]. rewrite Hb by lia. cbn [obind]. destruct (Rlt_dec (t (it + 1)%Z) T) as [L|L].
    + destruct (IH st n t (it + 1)%Z T Hb ltac:(lia) ltac:(lia) HT) as (m & E & B & U & D).
      exists m. split; [exact E|]. split; [lia|]. split; [exact U|]. right. destruct D as [ -> |D]; assumption.
    + exists it. split; [reflexivity|]. split; [lia|]. split; [lra|left; reflexivity].
Qed.
