(** The sum computed for a peaked function is near its integral. *)
From Coq Require Import Reals ZArith List Lia Lra Psatz.
From Verif Require Import Base PeakModel PeakSpec PeakProps PeakSumSpec.
Local Open Scope R_scope.

Lemma sample_sum_S : forall f a b w m k, sample_sum f a b w m (S k) = sample_sum f a b w m k + (right_sample f b w m (S k) + left_sample f a w m (S k)).
Proof. reflexivity. Qed.
(** Samples on one side only. *)
Fixpoint right_sum (f : R -> R) (b w m : R) (n : nat) : R := match n with O => 0 | S k => right_sum f b w m k + right_sample f b w m n end.
Lemma right_sum_S : forall f b w m k, right_sum f b w m (S k) = right_sum f b w m k + right_sample f b w m (S k).
Proof. reflexivity. Qed.
Definition mirror (f : R -> R) : R -> R := fun x => f (- x).
Lemma left_mirror : forall f a w m k, left_sample f a w m k = right_sample (mirror f) (- a) w (- m) k.
Proof.
  intros f a w m k. unfold left_sample, right_sample, mirror.
  assert (E : forall i, - (- m + INR i * w) = m - INR i * w) by (intro; ring).
  destruct k as [|[|k]]; rewrite ?E; try reflexivity.
  destruct (Rlt_dec a (m - INR (S (S k)) * w)); destruct (Rlt_dec (- m + INR (S (S k)) * w) (- a)); try reflexivity; lra.
Qed.
Lemma sample_sum_split : forall f a b w m n, sample_sum f a b w m n = right_sum f b w m n + right_sum (mirror f) (- a) w (- m) n.
Proof. induction n as [|n IH]; [cbn; lra|]. rewrite sample_sum_S, !right_sum_S, IH, left_mirror. ring. Qed.

Section OneSide.
Variable f Phi : R -> R.
Variables lo b w M K S0 c : R.
Hypothesis W : 0 < w.
Hypothesis Hlo : lo <= b /\ lo <= M.
Hypothesis HM : M <= b + w.
Hypothesis HK : 0 <= K.
Hypothesis Hpos : forall x, lo <= x <= b + 2 * w -> 0 <= f x <= S0.
Hypothesis Hlip : slope_at_most K f lo (b + 2 * w).
Hypothesis Hdec : forall x y, M + w <= x -> x <= y -> y <= b + 2 * w -> f y <= f x.
Hypothesis Hphi : antiderivative_of Phi f lo (b + 2 * w).
Hypothesis Hc : 0 <= c.

Lemma S0_pos : 0 <= S0.
Proof. pose proof (Hpos M ltac:(lra)). lra. Qed.

(** The integral over a piece. *)
Lemma piece : forall x y, lo <= x -> x <= y -> y <= b + 2 * w -> exists z, x <= z <= y /\ Phi y - Phi x = f z * (y - x).
Proof.
  intros x y Hx Hxy Hy. destruct (Rle_lt_or_eq_dec x y Hxy) as [Hlt| <-]; [|exists x; split; [lra|ring]].
  destruct (MVT_cor2 Phi f x y Hlt) as (z & E & Hz). { intros z Hz. apply Hphi. lra. }
  exists z. split; [lra|exact E].
Qed.

(** The trapezoidal rule without limits. *)
Fixpoint plain (q : nat) : R := match q with O => 0 | S k => plain k + f (M + INR q * w) end.
Lemma plain_S : forall k, plain (S k) = plain k + f (M + INR (S k) * w). Proof. reflexivity. Qed.
Lemma cells : forall q, M + INR (S q) * w <= b + 2 * w ->
  Rabs (w * (1 / 2 * f M + plain q + 1 / 2 * f (M + INR (S q) * w)) - (Phi (M + INR (S q) * w) - Phi M)) <= K * w * (INR (S q) * w).
Proof.
  assert (Cell : forall x, lo <= x -> x + w <= b + 2 * w -> Rabs (w * (1 / 2 * f x + 1 / 2 * f (x + w)) - (Phi (x + w) - Phi x)) <= K * w * w).
  { intros x Hx Hy. destruct (piece x (x + w) Hx ltac:(lra) Hy) as (z & Hz & E). rewrite E.
    replace (w * (1 / 2 * f x + 1 / 2 * f (x + w)) - f z * (x + w - x)) with (w * (1 / 2 * (f x - f z) + 1 / 2 * (f (x + w) - f z))) by field.
    pose proof (Hlip x z ltac:(lra) ltac:(lra)) as L1. pose proof (Hlip (x + w) z ltac:(lra) ltac:(lra)) as L2.
    rewrite Rabs_mult, (Rabs_pos_eq w) by lra.
    assert (Rabs (x - z) <= w) by (apply Rabs_le; lra). assert (Rabs (x + w - z) <= w) by (apply Rabs_le; lra).
    assert (K * Rabs (x - z) <= K * w) by (apply Rmult_le_compat_l; assumption).
    assert (K * Rabs (x + w - z) <= K * w) by (apply Rmult_le_compat_l; assumption).
    pose proof (Rabs_triang (1 / 2 * (f x - f z)) (1 / 2 * (f (x + w) - f z))) as T. rewrite !Rabs_mult, (Rabs_pos_eq (1 / 2)) in T by lra.
    replace (K * w * w) with (w * (K * w)) by ring. apply Rmult_le_compat_l; lra. }
  induction q as [|q IH]; intro Hq.
  - cbn [plain INR] in *. rewrite Rmult_1_l in *. rewrite Rplus_0_r. apply Cell; lra.
  - set (x := M + INR (S q) * w). assert (E : M + INR (S (S q)) * w = x + w) by (unfold x; rewrite (S_INR (S q)); ring).
    rewrite E in *. pose proof (pos_INR (S q)) as P. assert (Hx : M <= x) by (unfold x; nra).
    specialize (IH ltac:(unfold x in *; lra)). specialize (Cell x ltac:(lra) Hq). rewrite plain_S. fold x in IH |- *.
    replace (w * (1 / 2 * f M + (plain q + f x) + 1 / 2 * f (x + w)) - (Phi (x + w) - Phi M))
      with ((w * (1 / 2 * f M + plain q + 1 / 2 * f x) - (Phi x - Phi M)) + (w * (1 / 2 * f x + 1 / 2 * f (x + w)) - (Phi (x + w) - Phi x))) by field.
    eapply Rle_trans; [apply Rabs_triang|]. rewrite (S_INR (S q)). lra.
Qed.

(** The samples within the limit are those of the function, and the others are zero. *)
Lemma inside : forall n, (n = 0%nat \/ n = 1%nat \/ M + INR n * w < b) -> right_sum f b w M n = plain n /\ (n = 0%nat \/ right_sample f b w M n = f (M + INR n * w)).
Proof.
  induction n as [|n IH]; intro H; [split; [reflexivity|left; reflexivity]|].
  assert (R : right_sample f b w M (S n) = f (M + INR (S n) * w)).
  { unfold right_sample. destruct n as [|n]; [reflexivity|]. destruct (Rlt_dec _ b) as [L|L]; [reflexivity|]. exfalso. apply L. destruct H as [H|[H|H]]; [discriminate|lia|exact H]. }
  split; [|right; exact R]. rewrite right_sum_S, plain_S, R. destruct IH as (-> & _); [|reflexivity].
  destruct H as [H|[H|H]]; [discriminate|left; lia|]. right. right. rewrite S_INR in H. lra.
Qed.
Lemma outside_limit : forall n, (1 <= n)%nat -> exists q, (1 <= q <= n)%nat /\ (q = 1%nat \/ M + INR q * w < b) /\ (q = n \/ b <= M + INR (S q) * w) /\ right_sum f b w M n = plain q.
Proof.
  induction n as [|n IH]; intro Hn; [lia|]. destruct n as [|n].
  - exists 1%nat. split; [lia|]. split; [left; reflexivity|]. split; [left; reflexivity|]. apply inside. right. left. reflexivity.
  - destruct (Rlt_dec (M + INR (S (S n)) * w) b) as [L|L].
    + exists (S (S n)). split; [lia|]. split; [right; exact L|]. split; [left; reflexivity|]. apply inside. right. right. exact L.
    + destruct (IH ltac:(lia)) as (q & Hq & A & B & E). exists q. split; [lia|]. split; [exact A|]. split.
      * right. destruct B as [-> |B]; [lra|exact B].
      * rewrite right_sum_S, E. unfold right_sample. destruct (Rlt_dec _ b); [contradiction|ring].
Qed.

Lemma one_side : forall n, right_sample f b w M (S n) <= c ->
  Rabs (w * (1 / 2 * f M + right_sum f b w M n + 1 / 2 * right_sample f b w M (S n)) - (Phi b - Phi M)) <=
  (K * w + c) * (b - M + 2 * w) + 5 / 2 * w * S0.
Proof.
  intros n Hn. pose proof S0_pos as SP. assert (KW : 0 <= K * w) by (apply Rmult_le_pos; lra).
  (* from the last sample to the limit *)
  assert (Rest : forall q, (1 <= q)%nat -> (q = 1%nat \/ M + INR q * w < b) -> b - (M + INR q * w) <= w ->
     Rabs (Phi b - Phi (M + INR q * w)) <= 2 * w * S0 /\ INR q * w <= b - M + 2 * w /\ M + INR q * w <= b + 2 * w).
  { intros q Hq Hv Hgap. assert (Q1 : q = 1%nat -> INR q * w = w) by (intros ->; cbn [INR]; ring).
    assert (Q0 : w <= INR q * w). { assert (1 <= INR q) by (apply (le_INR 1); lia). nra. }
    assert (Hle : M + INR q * w <= b + 2 * w) by (destruct Hv as [Hv|Hv]; [rewrite (Q1 Hv); lra|lra]).
    split; [|split; [destruct Hv as [Hv|Hv]; [rewrite (Q1 Hv); lra|lra]|exact Hle]].
    destruct (Rle_lt_dec (M + INR q * w) b) as [L|L].
    - destruct (piece (M + INR q * w) b ltac:(lra) L ltac:(lra)) as (z & Hz & E). rewrite E. pose proof (Hpos z ltac:(lra)) as P.
      rewrite Rabs_pos_eq by (apply Rmult_le_pos; lra).
      assert (f z * (b - (M + INR q * w)) <= S0 * (2 * w)) by (apply Rmult_le_compat; lra). lra.
    - destruct Hv as [Hv|Hv]; [|lra]. rewrite (Q1 Hv) in *.
      destruct (piece b (M + w) ltac:(lra) ltac:(lra) ltac:(lra)) as (z & Hz & E). rewrite Rabs_minus_sym, E. pose proof (Hpos z ltac:(lra)) as P.
      rewrite Rabs_pos_eq by (apply Rmult_le_pos; lra).
      assert (f z * (M + w - b) <= S0 * (2 * w)) by (apply Rmult_le_compat; lra). lra. }
  assert (KWM : forall x, x <= b - M + 2 * w -> K * w * x <= K * w * (b - M + 2 * w)) by (intros; apply Rmult_le_compat_l; assumption).
  assert (WS : 0 <= w * S0) by (apply Rmult_le_pos; lra).
  assert (CC : 0 <= c * (b - M + 2 * w)) by (apply Rmult_le_pos; lra).
  destruct (Rlt_dec (M + INR (S n) * w) b) as [L|L].
  - (* all samples within the limit *)
    destruct (inside (S n) (or_intror (or_intror L))) as (_ & [X|R]); [discriminate|]. rewrite R in *.
    destruct (inside n) as (E & _); [right; right; rewrite S_INR in L; lra|]. rewrite E.
    pose proof (cells n ltac:(lra)) as C. set (y := M + INR (S n) * w) in *.
    assert (Hy : M + w <= y). { unfold y. assert (1 <= INR (S n)) by (apply (le_INR 1); lia). nra. }
    destruct (piece y b ltac:(lra) ltac:(lra) ltac:(lra)) as (z & Hz & Ez).
    pose proof (Hdec y z Hy ltac:(lra) ltac:(lra)) as D. pose proof (Hpos z ltac:(lra)) as P.
    assert (B : 0 <= Phi b - Phi y <= c * (b - M + 2 * w)).
    { rewrite Ez. split; [apply Rmult_le_pos; lra|]. apply Rmult_le_compat; lra. }
    specialize (KWM (INR (S n) * w) ltac:(unfold y in *; lra)).
    replace (w * (1 / 2 * f M + plain n + 1 / 2 * f y) - (Phi b - Phi M)) with ((w * (1 / 2 * f M + plain n + 1 / 2 * f y) - (Phi y - Phi M)) + - (Phi b - Phi y)) by ring.
    eapply Rle_trans; [apply Rabs_triang|]. rewrite Rabs_Ropp, (Rabs_pos_eq (Phi b - Phi y)) by lra. lra.
  - destruct n as [|n].
    + (* only the first sample *)
      cbn [right_sum]. change (right_sample f b w M 1) with (f (M + INR 1 * w)). pose proof (cells 0 ltac:(cbn [INR]; lra)) as C.
      cbn [plain] in C. destruct (Rest 1%nat (le_n 1) (or_introl eq_refl) ltac:(lra)) as (A & B & _). specialize (KWM _ B).
      set (y := M + INR 1 * w) in *.
      replace (w * (1 / 2 * f M + 0 + 1 / 2 * f y) - (Phi b - Phi M)) with ((w * (1 / 2 * f M + 0 + 1 / 2 * f y) - (Phi y - Phi M)) + - (Phi b - Phi y)) by ring.
      eapply Rle_trans; [apply Rabs_triang|]. rewrite Rabs_Ropp. lra.
    + (* the samples end at the limit *)
      assert (R0 : right_sample f b w M (S (S n)) = 0) by (unfold right_sample; destruct (Rlt_dec _ b); [contradiction|reflexivity]). rewrite R0.
      destruct (outside_limit (S n) ltac:(lia)) as (q & Hq & Hv & Hgap & E). rewrite E.
      assert (Hgap' : b <= M + INR (S q) * w) by (destruct Hgap as [-> |Hgap]; [lra|exact Hgap]). rewrite S_INR in Hgap'.
      destruct (Rest q ltac:(lia) Hv ltac:(lra)) as (A & B & B2). specialize (KWM _ B).
      destruct q as [|q]; [lia|]. pose proof (cells q B2) as C. rewrite plain_S. set (y := M + INR (S q) * w) in *.
      assert (Hy : M <= y). { unfold y. pose proof (pos_INR (S q)). nra. }
      pose proof (Hpos y ltac:(lra)) as P.
      assert (WF : 0 <= w * f y <= w * S0) by (split; [apply Rmult_le_pos; lra|apply Rmult_le_compat_l; lra]).
      replace (w * (1 / 2 * f M + (plain q + f y) + 1 / 2 * 0) - (Phi b - Phi M))
        with ((w * (1 / 2 * f M + plain q + 1 / 2 * f y) - (Phi y - Phi M)) + (1 / 2 * (w * f y) + - (Phi b - Phi y))) by field.
      eapply Rle_trans; [apply Rabs_triang|]. pose proof (Rabs_triang (1 / 2 * (w * f y)) (- (Phi b - Phi y))) as T.
      rewrite Rabs_Ropp, (Rabs_pos_eq (1 / 2 * (w * f y))) in T by lra. lra.
Qed.
End OneSide.

(** * Both sides *)
Section Peaked.
Variables f Phi : R -> R.
Variables a b w cutoff top K lo hi : R.
Hypothesis W : 0 < w.
Hypothesis HC : 0 <= cutoff <= 1.
Hypothesis Htop : a <= top <= b.
Hypothesis Hlo : lo <= a - 2 * w.
Hypothesis Hhi : b + 2 * w <= hi.
Hypothesis Hpk : peaked f lo top hi.
Hypothesis Hnn : nonnegative f lo hi.

Lemma below_top : forall x, lo <= x <= hi -> 0 <= f x <= f top.
Proof.
  intros x Hx. split; [exact (Hnn x Hx)|]. destruct Hpk as (U & D). destruct (Rtotal_order x top) as [L|[-> |L]]; [|lra|].
  - pose proof (U x top ltac:(lra) L ltac:(lra)). lra.
  - pose proof (D top x ltac:(lra) L ltac:(lra)). lra.
Qed.
Lemma decreasing : forall x y, top <= x -> x <= y -> y <= hi -> f y <= f x.
Proof. intros x y Hx Hy Hh. destruct (Rle_lt_or_eq_dec x y Hy) as [L| <-]; [|lra]. pose proof (proj2 Hpk x y Hx L Hh). lra. Qed.
Lemma increasing : forall x y, lo <= x -> x <= y -> y <= top -> f x <= f y.
Proof. intros x y Hx Hy Hh. destruct (Rle_lt_or_eq_dec x y Hy) as [L| <-]; [|lra]. pose proof (proj1 Hpk x y Hx L Hh). lra. Qed.

(** The state of the loop at a peak candidate [M]; it does not leave the neighbourhood of the limits. *)
Definition near (M : R) : Prop := a - w <= M <= b + w.
Definition state (g : R -> R) (fuel : nat) (M peak : R) (k : nat) : option R :=
  peak_loop g a b w cutoff fuel M peak (peak + sample_sum g a b w M (Nat.pred k)) (INR k * w) (right_sample g b w M k) (left_sample g a w M k).
Lemma state_S : forall g fuel m peak k, (1 <= k)%nat -> state g (S fuel) m peak k =
    if Rlt_dec (peak * cutoff) (Rmax (right_sample g b w m k) (left_sample g a w m k)) then
      if Rlt_dec peak (right_sample g b w m k) then state g fuel (m + INR k * w) (right_sample g b w m k) 1
      else if Rlt_dec peak (left_sample g a w m k) then state g fuel (m - INR k * w) (left_sample g a w m k) 1
      else state g fuel m peak (S k)
    else Some (trapezoid g a b w m peak (Nat.pred k)).
Proof. intros g. exact (at_S g a b w cutoff). Qed.

Lemma right_restart : forall M k, near M -> (1 <= k)%nat -> f M < right_sample f b w M k ->
  right_sample f b w M k = f (M + INR k * w) /\ near (M + INR k * w).
Proof.
  intros M k HM Hk Hlt. unfold near in *. pose proof (Hnn M ltac:(lra)) as P.
  assert (Q : 0 <= INR k * w) by (apply Rmult_le_pos; [apply pos_INR|lra]).
  unfold right_sample in *. destruct k as [|[|k]]; [lia| |].
  - split; [reflexivity|]. cbn [INR] in *. rewrite Rmult_1_l in *. split; [lra|]. destruct (Rle_lt_dec M b) as [L|L]; [lra|].
    pose proof (decreasing M (M + w) ltac:(lra) ltac:(lra) ltac:(lra)). lra.
  - destruct (Rlt_dec _ b) as [L|L]; [|lra]. split; [reflexivity|lra].
Qed.
Lemma left_restart : forall M k, near M -> (1 <= k)%nat -> f M < left_sample f a w M k ->
  left_sample f a w M k = f (M - INR k * w) /\ near (M - INR k * w).
Proof.
  intros M k HM Hk Hlt. unfold near in *. pose proof (Hnn M ltac:(lra)) as P.
  assert (Q : 0 <= INR k * w) by (apply Rmult_le_pos; [apply pos_INR|lra]).
  unfold left_sample in *. destruct k as [|[|k]]; [lia| |].
  - split; [reflexivity|]. cbn [INR] in *. rewrite Rmult_1_l in *. split; [|lra]. destruct (Rle_lt_dec a M) as [L|L]; [lra|].
    pose proof (increasing (M - w) M ltac:(lra) ltac:(lra) ltac:(lra)). lra.
  - destruct (Rlt_dec a _) as [L|L]; [|lra]. split; [reflexivity|lra].
Qed.

Lemma final_state : forall fuel M k v, near M -> (1 <= k)%nat ->
  (forall i, (1 <= i < k)%nat -> Rmax (right_sample f b w M i) (left_sample f a w M i) <= f M) -> state f fuel M (f M) k = Some v ->
  exists M' n, near M' /\ v = trapezoid f a b w M' (f M') n /\
    (forall i, (1 <= i <= n)%nat -> Rmax (right_sample f b w M' i) (left_sample f a w M' i) <= f M') /\
    Rmax (right_sample f b w M' (S n)) (left_sample f a w M' (S n)) <= f M' * cutoff.
Proof.
  induction fuel as [|fuel IH]; intros M k v HM Hk G H; [discriminate|]. rewrite (state_S f fuel M (f M) k Hk) in H.
  destruct (Rlt_dec (f M * cutoff) _) as [C|C].
  - destruct (Rlt_dec (f M) (right_sample f b w M k)) as [A|A].
    + destruct (right_restart M k HM Hk A) as (E & Hn). rewrite E in H. apply (IH _ 1%nat v Hn (le_n 1)) in H; [exact H|]. intros i Hi. lia.
    + destruct (Rlt_dec (f M) (left_sample f a w M k)) as [B|B].
      * destruct (left_restart M k HM Hk B) as (E & Hn). rewrite E in H. apply (IH _ 1%nat v Hn (le_n 1)) in H; [exact H|]. intros i Hi. lia.
      * apply (IH M (S k) v HM ltac:(lia)) in H; [exact H|]. intros i Hi. destruct (Nat.eq_dec i k) as [-> |N]; [|apply G; lia]. apply Rmax_lub; lra.
  - injection H as <-. exists M, (Nat.pred k). split; [exact HM|]. split; [reflexivity|]. replace (S (Nat.pred k)) with k by lia.
    split; [|lra]. intros i Hi. apply G. lia.
Qed.

(** The values outside the neighbourhood do not matter, and so the loop ends. *)
Lemma same_samples : forall g, (forall x, lo <= x <= hi -> g x = f x) -> forall M k, near M -> (1 <= k)%nat ->
  right_sample g b w M k = right_sample f b w M k /\ left_sample g a w M k = left_sample f a w M k.
Proof.
  intros g Hg M k HM Hk. unfold near in HM. assert (Q : w <= INR k * w). { assert (1 <= INR k) by (apply (le_INR 1); lia). nra. }
  unfold right_sample, left_sample. destruct k as [|[|k]]; [lia| |].
  - cbn [INR] in *. rewrite !Rmult_1_l in *. split; apply Hg; lra.
  - split.
    + destruct (Rlt_dec _ b); [apply Hg; lra|reflexivity].
    + destruct (Rlt_dec a _); [apply Hg; lra|reflexivity].
Qed.
Lemma same_sums : forall g, (forall x, lo <= x <= hi -> g x = f x) -> forall M n, near M -> sample_sum g a b w M n = sample_sum f a b w M n.
Proof.
  intros g Hg M n HM. induction n as [|n IH]; [reflexivity|]. rewrite !sample_sum_S, IH.
  destruct (same_samples g Hg M (S n) HM ltac:(lia)) as (-> & ->). reflexivity.
Qed.
Lemma same_state : forall g, (forall x, lo <= x <= hi -> g x = f x) -> forall fuel M k, near M -> (1 <= k)%nat -> state g fuel M (f M) k = state f fuel M (f M) k.
Proof.
  intros g Hg. induction fuel as [|fuel IH]; intros M k HM Hk; [reflexivity|]. rewrite !state_S by exact Hk.
  destruct (same_samples g Hg M k HM Hk) as (-> & ->).
  destruct (Rlt_dec (f M * cutoff) _) as [C|C].
  - destruct (Rlt_dec (f M) (right_sample f b w M k)) as [A|A].
    + destruct (right_restart M k HM Hk A) as (-> & Hn). apply IH; [exact Hn|lia].
    + destruct (Rlt_dec (f M) (left_sample f a w M k)) as [B|B].
      * destruct (left_restart M k HM Hk B) as (-> & Hn). apply IH; [exact Hn|lia].
      * apply IH; [exact HM|lia].
  - f_equal. unfold trapezoid. destruct (same_samples g Hg M (S (Nat.pred k)) HM ltac:(lia)) as (-> & ->). rewrite (same_sums g Hg M _ HM). reflexivity.
Qed.
Lemma evaluate_state : forall g fuel M peak, peak_evaluate g a b w cutoff fuel M peak = Ok (state g fuel M peak 1).
Proof.
  intros g fuel M peak. unfold peak_evaluate. destruct (Req_EM_T w 0); [lra|]. f_equal. exact (at_first g a b w cutoff fuel M peak).
Qed.
Lemma loop_ends : forall M, near M -> exists N v, forall fuel, (N <= fuel)%nat -> peak_evaluate f a b w cutoff fuel M (f M) = Ok (Some v).
Proof.
  intros M HM. set (g := fun x => if Rle_dec lo x then if Rle_dec x hi then f x else 0 else 0).
  assert (Hg : forall x, lo <= x <= hi -> g x = f x).
  { intros x Hx. unfold g. destruct (Rle_dec lo x); [|lra]. destruct (Rle_dec x hi); [reflexivity|lra]. }
  unfold near in HM. pose proof (Hnn M ltac:(lra)) as P.
  set (J := up (Rmax (hi - M) (M - lo) / w)).
  destruct (C90_terminates g a b w cutoff M (f M) J W (proj1 HC) P) as (N & v & H).
  { intros j Hj. assert (Hfar : Rmax (hi - M) (M - lo) < IZR (Z.abs j) * w).
    { apply (Rmult_lt_reg_r (/ w)); [apply Rinv_0_lt_compat; exact W|]. rewrite Rmult_assoc, Rinv_r, Rmult_1_r by lra.
      destruct (archimed (Rmax (hi - M) (M - lo) / w)) as (U & _). fold J in U. apply IZR_lt in Hj. unfold Rdiv in U. lra. }
    pose proof (Rmax_l (hi - M) (M - lo)). pose proof (Rmax_r (hi - M) (M - lo)). unfold g.
    destruct (Rle_dec lo _); [|exact P]. destruct (Rle_dec _ hi); [|exact P]. exfalso.
    destruct (Z.abs_eq_or_opp j) as [E|E]; rewrite E in Hfar; [|rewrite opp_IZR in Hfar]; nra. }
  exists N, v. intros fuel L. specialize (H fuel L). rewrite evaluate_state in *. rewrite (same_state g Hg fuel M 1 HM (le_n 1)) in H. exact H.
Qed.

Hypothesis Hlip : slope_at_most K f lo hi.
Hypothesis Hphi : antiderivative_of Phi f lo hi.

Lemma slope_pos : 0 <= K.
Proof.
  pose proof (Hlip lo hi ltac:(lra) ltac:(lra)) as Q. pose proof (Rabs_pos (f lo - f hi)) as P.
  rewrite (Rabs_left (lo - hi)) in Q by lra. apply Rnot_lt_le. intro N. nra.
Qed.

Lemma final_sum : forall M n, near M ->
  (forall i, (1 <= i <= n)%nat -> Rmax (right_sample f b w M i) (left_sample f a w M i) <= f M) ->
  Rmax (right_sample f b w M (S n)) (left_sample f a w M (S n)) <= f M * cutoff ->
  Rabs (trapezoid f a b w M (f M) n - (Phi b - Phi a)) <= sum_error a b w cutoff K (f top).
Proof.
  intros M n HM G T. unfold near in HM. pose proof slope_pos as HK. pose proof (below_top M ltac:(lra)) as PM.
  assert (F1 : f M * cutoff <= f M) by nra.
  assert (F2 : f M * cutoff <= cutoff * f top) by nra.
  assert (One : Rmax (f (M + w)) (f (M - w)) <= f M).
  { destruct n as [|n].
    - unfold right_sample, left_sample in T. cbn [INR] in T. rewrite Rmult_1_l in T. lra.
    - specialize (G 1%nat ltac:(lia)). unfold right_sample, left_sample in G. cbn [INR] in G. rewrite Rmult_1_l in G. exact G. }
  pose proof (Rmax_l (f (M + w)) (f (M - w))) as M1. pose proof (Rmax_r (f (M + w)) (f (M - w))) as M2.
  assert (T1 : top <= M + w). { apply Rnot_lt_le. intro L. pose proof (proj1 Hpk M (M + w) ltac:(lra) ltac:(lra) ltac:(lra)). lra. }
  assert (T2 : M - w <= top). { apply Rnot_lt_le. intro L. pose proof (proj2 Hpk (M - w) M ltac:(lra) ltac:(lra) ltac:(lra)). lra. }
  pose proof (Rmax_l (right_sample f b w M (S n)) (left_sample f a w M (S n))) as R1. pose proof (Rmax_r (right_sample f b w M (S n)) (left_sample f a w M (S n))) as R2.
  set (c := cutoff * f top) in *. assert (C0 : 0 <= c) by (unfold c; nra).
  assert (SR : Rabs (w * (1 / 2 * f M + right_sum f b w M n + 1 / 2 * right_sample f b w M (S n)) - (Phi b - Phi M)) <= (K * w + c) * (b - M + 2 * w) + 5 / 2 * w * f top).
  { apply (one_side f Phi (a - 2 * w) b w M K (f top) c); try lra.
    - intros x Hx. apply below_top. lra.
    - intros x y Hx Hy. apply Hlip; lra.
    - intros x y Hx Hy Hz. apply decreasing; lra.
    - intros x Hx. apply Hphi. lra. }
  assert (SL : Rabs (w * (1 / 2 * mirror f (- M) + right_sum (mirror f) (- a) w (- M) n + 1 / 2 * right_sample (mirror f) (- a) w (- M) (S n)) - ((- Phi (- - a)) - (- Phi (- - M)))) <=
     (K * w + c) * (- a - - M + 2 * w) + 5 / 2 * w * f top).
  { apply (one_side (mirror f) (fun x => - Phi (- x)) (- (b + 2 * w)) (- a) w (- M) K (f top) c); try lra.
    - intros x Hx. unfold mirror. apply below_top. lra.
    - intros x y Hx Hy. unfold mirror. replace (Rabs (x - y)) with (Rabs (- x - - y)) by (rewrite <- Rabs_Ropp; f_equal; ring). apply Hlip; lra.
    - intros x y Hx Hy Hz. unfold mirror. apply increasing; lra.
    - intros x Hx. unfold mirror. replace (f (- x)) with (- (f (- x) * (-1))) by ring.
      apply (derivable_pt_lim_opp (fun x => Phi (- x))). apply (derivable_pt_lim_comp (fun x => - x) Phi).
      + replace (-1) with (- (1)) by ring. apply (derivable_pt_lim_opp id). apply derivable_pt_lim_id.
      + apply Hphi. lra.
    - rewrite <- left_mirror. lra. }
  rewrite <- left_mirror in SL. rewrite !Ropp_involutive in SL. replace (mirror f (- M)) with (f M) in SL by (unfold mirror; rewrite Ropp_involutive; reflexivity).
  unfold trapezoid. rewrite sample_sum_split. unfold sum_error. fold c.
  set (x1 := right_sum f b w M n) in *. set (x2 := right_sample f b w M (S n)) in *. set (x3 := right_sum (mirror f) (- a) w (- M) n) in *. set (x4 := left_sample f a w M (S n)) in *.
  replace (w * (f M + (x1 + x3) + 1 / 2 * (x2 + x4)) - (Phi b - Phi a))
    with ((w * (1 / 2 * f M + x1 + 1 / 2 * x2) - (Phi b - Phi M)) + (w * (1 / 2 * f M + x3 + 1 / 2 * x4) - (- Phi a - - Phi M))) by field.
  eapply Rle_trans; [apply Rabs_triang|]. lra.
Qed.

Lemma evaluate_near : forall m fuel v, a <= m <= b -> peak_evaluate f a b w cutoff fuel m (f m) = Ok (Some v) ->
  Rabs (v - (Phi b - Phi a)) <= sum_error a b w cutoff K (f top).
Proof.
  intros m fuel v Hm H. rewrite evaluate_state in H. injection H as H.
  destruct (final_state fuel m 1 v ltac:(unfold near; lra) (le_n 1) ltac:(intros i Hi; lia) H) as (M & n & HM & -> & G & T).
  exact (final_sum M n HM G T).
Qed.
End Peaked.
