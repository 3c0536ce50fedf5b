(** C106: the lines printed by the progress tracker. *)
From Verif Require Import Base SettingsModel SettingsProofs SdtModel NumText SFileModel SFileProofs TimeModel TimeProofs ProgModel ProgSpec ProgProofs.
From Coq Require Import ZArith Znumtheory Lia.
Local Open Scope Z_scope.

(** Whatever is reported and whatever the clock shows, the lines are those of the
    specification, numbered 1, 2, ...; the clock is read for these lines only. *)
Theorem C106_lines : forall clk n total colors est items, 0 <= n -> 1 <= total ->
  exists g, new_progress clk n total colors est = Ok g /\
  exists g', report_all clk g items = Ok (map (line_at clk colors est total) (seq 1 (lines_due n total 1 items)), g') /\
    g_reads g' = (2 + per_line est * lines_due n total 1 items)%nat.
Proof.
  intros clk n total colors est items Hn Ht. destruct (new_progress_at clk n total colors est Hn ltac:(lia)) as (g & E & St).
  exists g. split; [exact E|]. destruct (report_all_at clk n total colors est Hn ltac:(lia) items 1%nat g ltac:(lia) St) as (g' & E' & St').
  exists g'. split; [exact E'|]. destruct St' as (_ & _ & _ & _ & _ & Rd & _). rewrite Rd. unfold first_reading.
  change (Z.of_nat 1) with 1. do 2 f_equal. lia.
Qed.
Print Assumptions C106_lines.

(** Reporting 1, 2, ..., n prints every line exactly once. *)
Theorem C106_all_lines : forall clk n total colors est, 1 <= total <= n ->
  exists g g', new_progress clk n total colors est = Ok g /\
    report_all clk g (upto 1 (Z.to_nat n)) = Ok (map (line_at clk colors est total) (seq 1 (Z.to_nat total)), g').
Proof.
  intros clk n total colors est H. destruct (C106_lines clk n total colors est (upto 1 (Z.to_nat n)) ltac:(lia) ltac:(lia)) as (g & E & g' & E' & _).
  exists g, g'. split; [exact E|]. rewrite E'. do 4 f_equal.
  destruct (schedule_one_based n total ltac:(lia) ltac:(lia)) as (t & Et & Sched).
  destruct (new_tracker_at n total ltac:(lia) ltac:(lia)) as (t' & Et' & A & _). rewrite Et in Et'. injection Et' as <-.
  rewrite (lines_due_reports n total ltac:(lia) ltac:(lia) _ 1 t ltac:(lia) A), Sched.
  assert (L : forall c k, length (messages n total k c) = c) by (induction c as [|c IH]; intro k; cbn [messages length]; [reflexivity|now rewrite IH]).
  apply L.
Qed.
Print Assumptions C106_all_lines.

(** Colours change the look only. *)
Theorem C106_colors : forall clk est total k,
  strip false (line_at clk true est total k) = line_at clk false est total k /\
  ~ In (ascii_of_nat 27) (line_at clk false est total k).
Proof. intros. split; [apply strip_line|apply line_plain]. Qed.
Print Assumptions C106_colors.

(** With a clock that is not set back: times are not negative, the time since the
    beginning never decreases, and the times between lines add up to no more than the time
    since the beginning on the next line. *)
Theorem C106_times : forall clk est k, forward clk -> (1 <= k)%nat ->
  0 <= since_line clk est k /\ 0 <= since_start clk est k <= since_start clk est (S k) /\
  fold_right Z.add 0 (map (since_line clk est) (seq 1 k)) <= since_start clk est (S k).
Proof.
  intros clk est k F Hk. pose proof (first_reading_two est k) as Two. pose proof (first_reading_gap est k Hk) as G.
  split; [apply ms_nonneg; [exact F|lia]|]. split; [split; [apply ms_nonneg; [exact F|lia]|apply ms_mono; [exact F|lia|lia]]|].
  pose proof (relative_sum clk est F k) as RS. unfold since_start.
  pose proof (ms_nonneg clk 0 1 F ltac:(lia)) as N01.
  pose proof (ms_add clk 0 1 (first_reading est (S k) - 1) F ltac:(lia) ltac:(lia)) as AD.
  pose proof (ms_mono clk 0 (first_reading est (S k) - 1) (first_reading est (S k)) F ltac:(lia) ltac:(lia)) as MO. lia.
Qed.
Print Assumptions C106_times.

(** The expected remaining time. *)
Theorem C106_expected : forall clk total k, forward clk -> (1 <= k)%nat -> Z.of_nat k <= total ->
  0 <= expected clk total k /\ (Z.of_nat k = total -> expected clk total k = 0) /\
  (k = 1%nat \/ block clk k <= block clk (k - 1) -> expected clk total k = (total - Z.of_nat k) * block clk k) /\
  ((2 <= k)%nat -> block clk (k - 1) < block clk k ->
     expected clk total k = steps_sum (block clk k) (block clk k - block clk (k - 1)) (Z.to_nat (total - Z.of_nat k))).
Proof.
  intros clk total k F Hk Ht.
  assert (Bk : forall j, 0 <= block clk j).
  { intro j. unfold block. apply ms_nonneg; [exact F|]. pose proof (first_reading_two true j). lia. }
  set (m := total - Z.of_nat k). assert (Hm : 0 <= m) by lia.
  assert (Sum : (2 <= k)%nat -> block clk (k - 1) < block clk k ->
     expected clk total k = steps_sum (block clk k) (block clk k - block clk (k - 1)) (Z.to_nat m)).
  { intros H2 L. unfold expected. fold m. cbv zeta. rewrite (proj2 (Nat.leb_gt k 1)) by lia.
    set (d := block clk k - block clk (k - 1)). pose proof (Bk (k - 1)%nat). rewrite (proj2 (Z.ltb_lt 0 (d * block clk k))) by (unfold d; nia).
    pose proof (steps_sum_formula (block clk k) d (Z.to_nat m)) as FS. rewrite Z2Nat.id in FS by lia.
    assert (EvN : m * (m + 1) = 2 * (m * (m + 1) / 2)).
    { rewrite <- half_product. pose proof (Z.quot_rem' m 2) as E. pose proof (Z.quot_rem' (m + 1) 2) as E1.
      destruct (Z.eqb_spec (Z.rem m 2) 0) as [R0|R0]; [nia|].
      assert (Z.rem (m + 1) 2 = 0). { pose proof (Z.rem_bound_pos m 2 Hm ltac:(lia)). pose proof (Z.rem_bound_pos (m + 1) 2 ltac:(lia) ltac:(lia)). lia. }
      nia. }
    nia. }
  assert (Flat : k = 1%nat \/ block clk k <= block clk (k - 1) -> expected clk total k = m * block clk k).
  { intros O. unfold expected. fold m. cbv zeta. destruct (Nat.leb_spec k 1) as [L|L].
    - rewrite Z.mul_0_l. change (0 <? 0) with false. cbv iota. lia.
    - destruct O as [O|O]; [lia|]. pose proof (Bk k). rewrite (proj2 (Z.ltb_ge 0 _)) by nia. lia. }
  split; [|split; [|split; [exact Flat|exact Sum]]].
  - pose proof (Bk k). destruct (Nat.eq_dec k 1) as [O|O]; [rewrite Flat by (left; exact O); nia|].
    destruct (Z_lt_ge_dec (block clk (k - 1)) (block clk k)) as [L|L].
    + rewrite Sum by (try exact L; lia). pose proof (steps_sum_formula (block clk k) (block clk k - block clk (k - 1)) (Z.to_nat m)) as FS.
      rewrite Z2Nat.id in FS by lia. pose proof (Z.mul_nonneg_nonneg m (m + 1) Hm ltac:(lia)). nia.
    + rewrite Flat by (right; lia). nia.
  - intro E. unfold expected. fold m. replace m with 0 by (unfold m; lia). cbv zeta. rewrite !Z.mul_0_l. destruct (0 <? _); reflexivity.
Qed.
Print Assumptions C106_expected.

(** Items beyond the total: the numbers of the lines exceed the number of lines, and the
    remaining time is negative. *)
Definition ex_clock (l : list Z) : nat -> Z := fun i => nth i l (last l 0) * 1000000.
Theorem C106_overrun_refuted : exists clk items g g', forward clk /\ new_progress clk 1 1 false true = Ok g /\
  report_all clk g items = Ok ([str_of "PROGRESS (1/1) :: 7ms / 7ms passed, 0ms remaining (7ms total)" ++ [ascii_of_nat 10];
                                str_of "PROGRESS (2/1) :: 12ms / 5ms passed, -5ms remaining (7ms total)" ++ [ascii_of_nat 10]], g').
Proof.
  exists (ex_clock [0; 0; 7; 7; 7; 7; 12; 12; 12; 12]), [1; 2]. eexists. eexists. split; [|split; [reflexivity|vm_compute; reflexivity]].
  intro i. unfold ex_clock. do 11 (destruct i as [|i]; [vm_compute; discriminate|]). cbn [nth]. destruct i; lia.
Qed.
Print Assumptions C106_overrun_refuted.
(** A clock that is set back: the text of a negative time leaves out whole seconds. *)
Theorem C106_backwards_refuted : exists clk items g g', new_progress clk 1 1 false false = Ok g /\
  (clk 2%nat - clk 0%nat = -1500 * 1000000) /\
  report_all clk g items = Ok ([str_of "PROGRESS (1/1) :: -500ms / -500ms passed" ++ [ascii_of_nat 10]], g').
Proof.
  exists (ex_clock [1500; 1500; 0; 0]), [1]. eexists. eexists. split; [reflexivity|]. split; [reflexivity|]. vm_compute. reflexivity.
Qed.
Print Assumptions C106_backwards_refuted.
(** The clock is read once for each time shown, so that the first line may show more time
    since the line before than since the beginning. *)
Theorem C106_relative_refuted : exists clk, forward clk /\ forall est, since_start clk est 1 < since_line clk est 1.
Proof.
  exists (ex_clock [0; 0; 0; 1]). split; [|intros []; vm_compute; reflexivity].
  intro i. unfold ex_clock. do 5 (destruct i as [|i]; [vm_compute; discriminate|]). cbn [nth]. destruct i; lia.
Qed.
Print Assumptions C106_relative_refuted.

(** Two lines of three in colour, with estimates. *)
Example C106_example :
  let clk := ex_clock [0; 0; 2000; 2000; 2000; 2000; 65000; 65001; 65002; 65002] in
  exists g g', new_progress clk 6 3 true true = Ok g /\ 
  report_all clk g [1; 2; 3; 4] = Ok (map (line_at clk true true 3) [1; 2]%nat, g') /\
  line_at clk false true 3 1 = str_of "PROGRESS (1/3) :: 2s000ms / 2s000ms passed, 4s000ms remaining (6s000ms total)" ++ [ascii_of_nat 10] /\
  line_at clk false true 3 2 = str_of "PROGRESS (2/3) :: 1m05s / 1m03s passed, 2m04s remaining (3m09s total)" ++ [ascii_of_nat 10] /\
  clock true 65000 = ascii_of_nat 27 :: str_of "[1;33m1" ++ ascii_of_nat 27 :: str_of "[0mm" ++
                     ascii_of_nat 27 :: str_of "[1;33m05" ++ ascii_of_nat 27 :: str_of "[0ms".
Proof. eexists. eexists. split; [reflexivity|]. split; [vm_compute; reflexivity|]. repeat split; vm_compute; reflexivity. Qed.
