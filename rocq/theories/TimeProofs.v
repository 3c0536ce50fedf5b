(** Facts about the progress tracker, the timer, the time strings and exception messages. *)
From Verif Require Import Base SettingsModel SettingsProofs SdtModel NumText SFileModel SFileProofs TimeModel.
From Coq Require Import ZArith Znumtheory Lia.
Local Open Scope Z_scope.

(** * Progress schedule *)
(** Specification: the item at which the [k]-th message is due when [n] items are divided
    into [m] blocks whose sizes differ by at most one, larger blocks first. *)
Definition due (n m k : Z) : Z := k * (n / m) + Z.min k (n mod m).

(** The tracker after [k] updates. *)
Definition at_step (n m k : Z) (t : tracker) : Prop :=
  p_nprint t = m /\ p_dprint t = n / m /\ p_modlevel t = (n mod m) * (n / m + 1) /\
  p_next t = due n m k /\ p_index t = k.

Lemma update_at n m k t : 0 <= n -> 0 < m -> 0 <= k -> at_step n m k t -> at_step n m (k + 1) (update_next t).
Proof.
  intros Hn Hm Hk (E1 & E2 & E3 & E4 & E5). unfold at_step, update_next. cbn [p_nprint p_dprint p_modlevel p_next p_index].
  rewrite E1, E2, E3, E4, E5. repeat split.
  unfold due. pose proof (Z.mod_pos_bound n m Hm) as B. pose proof (Z.div_pos n m Hn Hm) as D.
  set (q := n / m) in *. set (r := n mod m) in *.
  destruct (Z.ltb_spec (k * q + Z.min k r) (r * (q + 1))) as [L|L].
  - assert (k < r) by nia. rewrite !Z.min_l by lia. lia.
  - destruct (Z_lt_ge_dec k r) as [A|A].
    + rewrite Z.min_l in L by lia. assert (k * (q+1) >= r * (q+1)) by lia. nia.
    + rewrite !Z.min_r by lia. lia.
Qed.
Lemma new_tracker_at n m : 0 <= n -> 0 < m -> exists t, new_tracker n m = Ok t /\ at_step n m 1 t /\ p_dt1 t = None.
Proof.
  intros Hn Hm. unfold new_tracker. rewrite (proj2 (Z.eqb_neq m 0)) by lia.
  eexists. split; [reflexivity|]. split; [|reflexivity].
  replace 1 with (0 + 1) by lia. apply update_at; try lia.
  unfold at_step. cbn [p_nprint p_dprint p_modlevel p_next p_index].
  rewrite Z.quot_div_nonneg, Z.rem_mod_nonneg by lia. repeat split.
  unfold due. pose proof (Z.mod_pos_bound n m Hm). lia.
Qed.
Lemma due_mono n m k : 0 <= n -> 0 < m -> due n m k <= due n m (k + 1).
Proof. intros Hn Hm. unfold due. pose proof (Z.div_pos n m Hn Hm). nia. Qed.
Lemma due_last n m : 0 < m -> due n m m = n.
Proof.
  intro Hm. unfold due. pose proof (Z.mod_pos_bound n m Hm). rewrite Z.min_r by lia.
  pose proof (Z.div_mod n m ltac:(lia)). lia.
Qed.
Lemma due_strict n m k : 0 < m -> m <= n -> due n m k + 1 <= due n m (k + 1).
Proof.
  intros Hm Hn. unfold due. assert (1 <= n / m). { apply Z.div_le_lower_bound; lia. } nia.
Qed.
Lemma due_mono_le n m : 0 <= n -> 0 < m -> forall k d, 0 <= d -> due n m k <= due n m (k + d).
Proof.
  intros Hn Hm k d Hd. revert d Hd. apply natlike_ind; [replace (k + 0) with k by lia; lia|].
  intros d Hd IH. pose proof (due_mono n m (k + d) Hn Hm). replace (k + Z.succ d) with (k + d + 1) by lia. lia.
Qed.
Lemma block_size n m k : 0 < m -> 0 <= k -> due n m (k + 1) - due n m k = (if k <? n mod m then n / m + 1 else n / m).
Proof.
  intros Hm Hk. unfold due. pose proof (Z.mod_pos_bound n m Hm). destruct (Z.ltb_spec k (n mod m)).
  - rewrite !Z.min_l by lia. lia.
  - rewrite !Z.min_r by lia. lia.
Qed.

Lemma print_progress_at n m k t i : 0 <= n -> 0 < m -> 0 <= k -> at_step n m k t ->
  let '(o, t') := print_progress t i in
  if due n m k <=? i then o = Some k /\ at_step n m (k + 1) t' else o = None /\ t' = t.
Proof.
  intros Hn Hm Hk H. pose proof H as (E1 & E2 & E3 & E4 & E5). unfold print_progress, critical. rewrite E4, E5.
  destruct (Z.ltb_spec i (due n m k)) as [L|L]; destruct (Z.leb_spec (due n m k) i); try lia.
  - split; reflexivity.
  - split; [reflexivity|]. now apply update_at.
Qed.

(** Items [a, a+1, ..., a+c-1]. *)
Fixpoint upto (a : Z) (c : nat) : list Z := match c with O => [] | S k => a :: upto (a + 1) k end.
(** Messages number k, k+1, ..., k+c-1 at the items at which they are due. *)
Fixpoint messages (n m k : Z) (c : nat) : list (Z * Z) :=
  match c with O => [] | S c' => (due n m k, k) :: messages n m (k + 1) c' end.

Lemma reports_cons t i r : reports t (i :: r) =
  let '(o, t1) := print_progress t i in let '(l, t2) := reports t1 r in
  ((match o with Some k => [(i, k)] | None => [] end) ++ l, t2).
Proof. reflexivity. Qed.
(** Reporting a..a+c-1 when message k is due at or after item a. *)
Lemma reports_run n m : 0 < m -> m <= n -> forall (c : nat) a k t, 0 <= k -> at_step n m k t -> a <= due n m k ->
  exists (d : nat), (forall j, 0 <= j < Z.of_nat d -> due n m (k + j) < a + Z.of_nat c) /\
    a + Z.of_nat c <= due n m (k + Z.of_nat d) /\
    fst (reports t (upto a c)) = messages n m k d /\ at_step n m (k + Z.of_nat d) (snd (reports t (upto a c))).
Proof.
  intros Hm Hn. induction c as [|c IH]; intros a k t Hk Hat Ha.
  - exists 0%nat. cbn [upto reports fst snd messages].
    replace (k + Z.of_nat 0) with k by lia. replace (a + Z.of_nat 0) with a by lia.
    split; [intros j Hj; lia|]. split; [exact Ha|]. split; [reflexivity|exact Hat].
  - cbn [upto]. rewrite reports_cons.
    pose proof (print_progress_at n m k t a ltac:(lia) Hm Hk Hat) as HP.
    destruct (print_progress t a) as [o t1] eqn:EP. destruct (Z.leb_spec (due n m k) a) as [L|L].
    + destruct HP as [-> Hat1]. assert (Ea : due n m k = a) by lia.
      destruct (IH (a + 1) (k + 1) t1 ltac:(lia) Hat1) as (d & D1 & D2 & D3 & D4).
      { pose proof (due_strict n m k Hm Hn). lia. }
      destruct (reports t1 (upto (a + 1) c)) as [l t2] eqn:ER. cbn [fst snd] in *.
      exists (S d). split; [|split; [|split]].
      * intros j Hj. destruct (Z.eq_dec j 0) as [->|J]; [rewrite Z.add_0_r; lia|].
        specialize (D1 (j - 1) ltac:(lia)). replace (k + 1 + (j - 1)) with (k + j) in D1 by lia. lia.
      * replace (k + Z.of_nat (S d)) with (k + 1 + Z.of_nat d) by lia. lia.
      * cbn [messages app]. rewrite Ea, D3. reflexivity.
      * replace (k + Z.of_nat (S d)) with (k + 1 + Z.of_nat d) by lia. apply D4.
    + destruct HP as [-> ->].
      destruct (IH (a + 1) k t Hk Hat ltac:(lia)) as (d & D1 & D2 & D3 & D4).
      destruct (reports t (upto (a + 1) c)) as [l t2] eqn:ER. cbn [fst snd] in *.
      exists d. cbn [app]. split; [|split; [|split; assumption]].
      * intros j Hj. specialize (D1 j Hj). lia.
      * lia.
Qed.
(** One-based loop: exactly m messages, at the due items. *)
Lemma schedule_one_based n m : 0 < m -> m <= n -> exists t, new_tracker n m = Ok t /\
  fst (reports t (upto 1 (Z.to_nat n))) = messages n m 1 (Z.to_nat m).
Proof.
  intros Hm Hn. destruct (new_tracker_at n m ltac:(lia) Hm) as (t & Et & Hat & _). exists t. split; [exact Et|].
  assert (H1 : 1 <= due n m 1). { pose proof (due_strict n m 0 Hm Hn). unfold due in *. cbn in *. pose proof (Z.mod_pos_bound n m Hm). lia. }
  destruct (reports_run n m Hm Hn (Z.to_nat n) 1 1 t ltac:(lia) Hat H1) as (d & D1 & D2 & D3 & _).
  rewrite D3. f_equal. rewrite Z2Nat.id in * by lia.
  destruct (Z.lt_trichotomy (Z.of_nat d) m) as [L|[E|G]].
  - exfalso. pose proof (due_mono_le n m ltac:(lia) Hm (1 + Z.of_nat d) (m - 1 - Z.of_nat d) ltac:(lia)) as M.
    replace (1 + Z.of_nat d + (m - 1 - Z.of_nat d)) with m in M by lia. rewrite due_last in M by lia. lia.
  - lia.
  - exfalso. specialize (D1 m ltac:(lia)). pose proof (due_strict n m m Hm Hn). rewrite due_last in H by lia.
    replace (1 + m) with (m + 1) in D1 by lia. lia.
Qed.
(** Zero-based loop: the last message never appears. *)
Lemma schedule_zero_based n m : 0 < m -> m <= n -> exists t, new_tracker n m = Ok t /\
  fst (reports t (upto 0 (Z.to_nat n))) = messages n m 1 (Z.to_nat (m - 1)).
Proof.
  intros Hm Hn. destruct (new_tracker_at n m ltac:(lia) Hm) as (t & Et & Hat & _). exists t. split; [exact Et|].
  assert (H1 : 0 <= due n m 1). { pose proof (due_strict n m 0 Hm Hn). unfold due in *. cbn in *. pose proof (Z.mod_pos_bound n m Hm). lia. }
  destruct (reports_run n m Hm Hn (Z.to_nat n) 0 1 t ltac:(lia) Hat H1) as (d & D1 & D2 & D3 & _).
  rewrite D3. f_equal. rewrite Z2Nat.id in * by lia.
  destruct (Z.lt_trichotomy (Z.of_nat d) (m - 1)) as [L|[E|G]].
  - exfalso. pose proof (due_strict n m (1 + Z.of_nat d) Hm Hn) as S1.
    pose proof (due_mono_le n m ltac:(lia) Hm (1 + Z.of_nat d + 1) (m - 2 - Z.of_nat d) ltac:(lia)) as M.
    replace (1 + Z.of_nat d + 1 + (m - 2 - Z.of_nat d)) with m in M by lia. rewrite due_last in M by lia. lia.
  - lia.
  - exfalso. specialize (D1 (m - 1) ltac:(lia)). replace (1 + (m - 1)) with m in D1 by lia.
    rewrite due_last in D1 by lia. lia.
Qed.
(** Any reports whatsoever: labels are 1, 2, 3, ... in order, each at an item not before its due item. *)
Lemma reports_any n m : 0 <= n -> 0 < m -> forall items k t, 0 <= k -> at_step n m k t ->
  exists d : nat, map snd (fst (reports t items)) = upto k d /\
    (forall i lbl, In (i, lbl) (fst (reports t items)) -> due n m lbl <= i) /\
    at_step n m (k + Z.of_nat d) (snd (reports t items)).
Proof.
  intros Hn Hm. induction items as [|i r IH]; intros k t Hk Hat.
  - exists 0%nat. cbn [reports fst snd map upto]. replace (k + Z.of_nat 0) with k by lia.
    split; [reflexivity|]. split; [intros ? ? []|exact Hat].
  - rewrite reports_cons. pose proof (print_progress_at n m k t i Hn Hm Hk Hat) as HP.
    destruct (print_progress t i) as [o t1] eqn:EP. destruct (Z.leb_spec (due n m k) i) as [L|L].
    + destruct HP as [-> Hat1]. destruct (IH (k + 1) t1 ltac:(lia) Hat1) as (d & D1 & D2 & D3).
      destruct (reports t1 r) as [l t2] eqn:ER. cbn [fst snd app map] in *. exists (S d).
      replace (k + Z.of_nat (S d)) with (k + 1 + Z.of_nat d) by lia.
      split; [|split]; [cbn [upto]; now rewrite D1| |exact D3].
      intros i' lbl [E|H]; [injection E as <- <-; exact L|now apply D2].
    + destruct HP as [-> ->]. destruct (IH k t Hk Hat) as (d & D1 & D2 & D3).
      destruct (reports t r) as [l t2] eqn:ER. cbn [fst snd app] in *. exists d. split; [exact D1|split; assumption].
Qed.
(** More messages than items: one message per item. *)
Lemma schedule_more_messages n m : 0 < n -> n < m -> exists t, new_tracker n m = Ok t /\
  fst (reports t (upto 1 (Z.to_nat n))) = map (fun k => (k, k)) (upto 1 (Z.to_nat n)).
Proof.
  intros Hn Hm. destruct (new_tracker_at n m ltac:(lia) ltac:(lia)) as (t & Et & Hat & _). exists t. split; [exact Et|].
  assert (D : forall k, 0 <= k <= n -> due n m k = k).
  { intros k Hk. unfold due. rewrite Z.div_small, Z.mod_small by lia. lia. }
  assert (G : forall c a t, 1 <= a -> a + Z.of_nat c <= n + 1 -> at_step n m a t ->
    fst (reports t (upto a c)) = map (fun k => (k, k)) (upto a c)).
  { induction c as [|c IH]; intros a t0 Ha Hc H0; [reflexivity|]. cbn [upto]. rewrite reports_cons.
    pose proof (print_progress_at n m a t0 a ltac:(lia) ltac:(lia) ltac:(lia) H0) as HP.
    destruct (print_progress t0 a) as [o t1]. rewrite D in HP by lia. rewrite Z.leb_refl in HP. destruct HP as [-> H1].
    specialize (IH (a + 1) t1 ltac:(lia) ltac:(lia) H1).
    destruct (reports t1 (upto (a + 1) c)) as [l t2]. cbn [fst app map] in *. now rewrite IH. }
  apply G; [lia|rewrite Z2Nat.id by lia; lia|exact Hat].
Qed.

(** * Threads *)
Definition pending (th : thread) : nat := match th_phase th with Printing _ => 1 | _ => 0 end.
Fixpoint total_pending (l : list thread) : nat := match l with [] => O | th :: r => (pending th + total_pending r)%nat end.
Definition label_ok (k : Z) (th : thread) : Prop :=
  match th_phase th with Idle => True | HasIndex _ x => 1 <= x <= k | Printing x => 1 <= x < k end.
Definition world_inv (n m : Z) (w : world) : Prop :=
  exists k, 1 <= k /\ at_step n m k (w_tracker w) /\
    Z.of_nat (length (w_printed w)) + Z.of_nat (total_pending (w_threads w)) = k - 1 /\
    (forall x, In x (w_printed w) -> 1 <= x < k) /\ Forall (label_ok k) (w_threads w).
Lemma total_set_nth : forall l k th th', nth_error l k = Some th ->
  (total_pending (set_nth k th' l) + pending th = total_pending l + pending th')%nat.
Proof.
  induction l as [|y l IH]; intros [|k] th th' H; cbn in H; try discriminate.
  - injection H as ->. cbn [set_nth total_pending]. lia.
  - specialize (IH k th th' H). cbn [set_nth total_pending]. lia.
Qed.
Lemma Forall_set_nth {A} (P : A -> Prop) : forall l k x, Forall P l -> P x -> Forall P (set_nth k x l).
Proof.
  induction l as [|y l IH]; intros [|k] x H Hx; cbn [set_nth]; try constructor; try assumption;
    inversion H; subst; try assumption. now apply IH.
Qed.
Lemma label_ok_mono k th : label_ok k th -> label_ok (k + 1) th.
Proof. unfold label_ok. destruct (th_phase th); lia. Qed.
Lemma world_step_inv n m w k : 0 <= n -> 0 < m -> world_inv n m w -> world_inv n m (world_step w k).
Proof.
  intros Hn Hm (c & Hc & Hat & Hcnt & Hin & Hall). unfold world_step.
  destruct (nth_error (w_threads w) k) as [th|] eqn:En; [|now exists c; auto].
  assert (Hth : label_ok c th). { rewrite Forall_forall in Hall. apply Hall. now apply nth_error_In with k. }
  unfold thread_step. destruct (th_phase th) as [|i x|x] eqn:Ep.
  - destruct (th_todo th) as [|i r]; [now exists c; auto|].
    exists c. cbn [w_tracker w_threads w_printed]. rewrite app_nil_r.
    pose proof (total_set_nth (w_threads w) k th (Thread r (HasIndex i (p_index (w_tracker w)))) En) as T.
    unfold pending in T at 1 2. rewrite Ep in T. cbn [th_phase] in T.
    split; [exact Hc|]. split; [exact Hat|]. split; [lia|]. split; [exact Hin|].
    apply Forall_set_nth; [exact Hall|]. unfold label_ok. cbn [th_phase]. destruct Hat as (_ & _ & _ & _ & ->). lia.
  - unfold label_ok in Hth. rewrite Ep in Hth. unfold critical. destruct (Z.ltb_spec i (p_next (w_tracker w))).
    + exists c. cbn [w_tracker w_threads w_printed]. rewrite app_nil_r.
      pose proof (total_set_nth (w_threads w) k th (Thread (th_todo th) Idle) En) as T.
      unfold pending in T at 1 2. rewrite Ep in T. cbn [th_phase] in T.
      split; [exact Hc|]. split; [exact Hat|]. split; [lia|]. split; [exact Hin|].
      apply Forall_set_nth; [exact Hall|exact I].
    + exists (c + 1). cbn [w_tracker w_threads w_printed]. rewrite app_nil_r.
      pose proof (total_set_nth (w_threads w) k th (Thread (th_todo th) (Printing x)) En) as T.
      unfold pending in T at 1 2. rewrite Ep in T. cbn [th_phase] in T.
      split; [lia|]. split; [apply update_at; lia || assumption|]. split; [lia|].
      split; [intros y Hy; specialize (Hin y Hy); lia|].
      apply Forall_set_nth; [|unfold label_ok; cbn [th_phase]; lia].
      eapply Forall_impl; [intros a; apply label_ok_mono|exact Hall].
  - unfold label_ok in Hth. rewrite Ep in Hth. exists c. cbn [w_tracker w_threads w_printed].
    pose proof (total_set_nth (w_threads w) k th (Thread (th_todo th) Idle) En) as T.
    unfold pending in T at 1 2. rewrite Ep in T. cbn [th_phase] in T.
    split; [exact Hc|]. split; [exact Hat|]. split; [rewrite app_length; cbn [length]; lia|]. split.
    + intros y Hy. apply in_app_or in Hy. destruct Hy as [Hy|[<-|[]]]; [now apply Hin|lia].
    + apply Forall_set_nth; [exact Hall|exact I].
Qed.
Lemma run_schedule_inv n m sched : 0 <= n -> 0 < m -> forall w, world_inv n m w -> world_inv n m (run_schedule w sched).
Proof.
  intros Hn Hm. induction sched as [|k s IH]; intros w H; [exact H|].
  cbn [run_schedule fold_left]. apply IH. now apply world_step_inv.
Qed.
Lemma start_world_inv n m t todo : at_step n m 1 t -> world_inv n m (start_world t todo).
Proof.
  intro H. exists 1. cbn [start_world w_tracker w_threads w_printed length]. split; [lia|]. split; [exact H|].
  assert (E : total_pending (map (fun l => Thread l Idle) todo) = 0%nat) by (induction todo; cbn in *; auto).
  rewrite E. split; [reflexivity|]. split; [intros x []|]. rewrite Forall_forall. intros th Hth.
  apply in_map_iff in Hth. destruct Hth as (l & <- & _). exact I.
Qed.

(** * Time estimates *)
Fixpoint steps_sum (dt d2 : Z) (c : nat) : Z := match c with O => 0 | S k => steps_sum dt d2 k + (dt + Z.of_nat (S k) * d2) end.
Lemma gauss_formula N : 0 <= N -> 2 * (if Z.rem N 2 =? 0 then Z.quot N 2 * (N + 1) else N * Z.quot (N + 1) 2) = N * (N + 1).
Proof.
  intro HN. rewrite Z.rem_mod_nonneg, !Z.quot_div_nonneg by lia.
  pose proof (Z.div_mod N 2 ltac:(lia)). pose proof (Z.mod_pos_bound N 2 ltac:(lia)).
  destruct (Z.eqb_spec (N mod 2) 0).
  - assert (N = 2 * (N / 2)) by lia. nia.
  - assert (M : N mod 2 = 1) by lia. assert (E : (N + 1) / 2 = N / 2 + 1).
    { replace (N + 1) with (2 * (N / 2 + 1)) by lia. rewrite Z.mul_comm, Z.div_mul; lia. }
    rewrite E. nia.
Qed.
Lemma steps_sum_formula dt d2 : forall c, 2 * steps_sum dt d2 c = 2 * (Z.of_nat c * dt) + Z.of_nat c * (Z.of_nat c + 1) * d2.
Proof. induction c as [|c IH]; [reflexivity|]. cbn [steps_sum]. rewrite Z.mul_add_distr_l, IH. nia. Qed.

(** * Time strings *)
Lemma time_fields_recompose msec tu : 0 <= msec ->
  let f := time_fields msec tu in
  86400000 * f_days f + 3600000 * f_hours f + 60000 * f_mins f + 1000 * f_secs f + f_msecs f = msec /\
  0 <= f_days f /\ 0 <= f_hours f /\ 0 <= f_mins f /\ 0 <= f_secs f /\ 0 <= f_msecs f.
Proof.
  intros H. unfold time_fields. cbn zeta.
  change (24 * (60 * (60 * 1000))) with 86400000. change (60 * (60 * 1000)) with 3600000. change (60 * 1000) with 60000.
  destruct tu; cbn [unit_code f_days f_hours f_mins f_secs f_msecs Z.leb Z.ltb Z.compare Pos.compare Pos.compare_cont];
    rewrite ?Z.sub_0_r, ?Z.mul_0_l, ?Z.sub_0_r.
  - assert (A := Z.quot_rem' msec 86400000). assert (A1 := Z.rem_bound_pos msec 86400000 H ltac:(lia)).
    assert (A0 : 0 <= Z.quot msec 86400000) by (apply Z.quot_pos; lia).
    set (d := Z.quot msec 86400000) in *.
    set (r1 := msec - d * 86400000) in *. assert (R1 : 0 <= r1) by (unfold r1; lia).
    assert (B := Z.quot_rem' r1 3600000). assert (B1 := Z.rem_bound_pos r1 3600000 R1 ltac:(lia)).
    assert (B0 : 0 <= Z.quot r1 3600000) by (apply Z.quot_pos; lia). set (h := Z.quot r1 3600000) in *.
    set (r2 := r1 - h * 3600000) in *. assert (R2 : 0 <= r2) by (unfold r2; lia).
    assert (C := Z.quot_rem' r2 60000). assert (C1 := Z.rem_bound_pos r2 60000 R2 ltac:(lia)).
    assert (C0 : 0 <= Z.quot r2 60000) by (apply Z.quot_pos; lia). set (mi := Z.quot r2 60000) in *.
    set (r3 := r2 - mi * 60000) in *. assert (R3 : 0 <= r3) by (unfold r3; lia).
    assert (D := Z.quot_rem' r3 1000). assert (D1 := Z.rem_bound_pos r3 1000 R3 ltac:(lia)).
    assert (D0 : 0 <= Z.quot r3 1000) by (apply Z.quot_pos; lia). set (se := Z.quot r3 1000) in *.
    unfold r3, r2, r1 in *. lia.
  - assert (B := Z.quot_rem' msec 3600000). assert (B1 := Z.rem_bound_pos msec 3600000 H ltac:(lia)).
    assert (B0 : 0 <= Z.quot msec 3600000) by (apply Z.quot_pos; lia). set (h := Z.quot msec 3600000) in *.
    set (r2 := msec - h * 3600000) in *. assert (R2 : 0 <= r2) by (unfold r2; lia).
    assert (C := Z.quot_rem' r2 60000). assert (C1 := Z.rem_bound_pos r2 60000 R2 ltac:(lia)).
    assert (C0 : 0 <= Z.quot r2 60000) by (apply Z.quot_pos; lia). set (mi := Z.quot r2 60000) in *.
    set (r3 := r2 - mi * 60000) in *. assert (R3 : 0 <= r3) by (unfold r3; lia).
    assert (D := Z.quot_rem' r3 1000). assert (D1 := Z.rem_bound_pos r3 1000 R3 ltac:(lia)).
    assert (D0 : 0 <= Z.quot r3 1000) by (apply Z.quot_pos; lia). set (se := Z.quot r3 1000) in *.
    unfold r3, r2 in *. lia.
  - assert (C := Z.quot_rem' msec 60000). assert (C1 := Z.rem_bound_pos msec 60000 H ltac:(lia)).
    assert (C0 : 0 <= Z.quot msec 60000) by (apply Z.quot_pos; lia). set (mi := Z.quot msec 60000) in *.
    set (r3 := msec - mi * 60000) in *. assert (R3 : 0 <= r3) by (unfold r3; lia).
    assert (D := Z.quot_rem' r3 1000). assert (D1 := Z.rem_bound_pos r3 1000 R3 ltac:(lia)).
    assert (D0 : 0 <= Z.quot r3 1000) by (apply Z.quot_pos; lia). set (se := Z.quot r3 1000) in *.
    unfold r3 in *. lia.
  - assert (D := Z.quot_rem' msec 1000). assert (D1 := Z.rem_bound_pos msec 1000 H ltac:(lia)).
    assert (D0 : 0 <= Z.quot msec 1000) by (apply Z.quot_pos; lia). set (se := Z.quot msec 1000) in *. lia.
  - lia.
Qed.
(** The fields below the largest allowed unit are reduced, expressed with div and mod. *)
Definition days_of (ms : Z) : Z := ms / 86400000.
Lemma sub_mod a b : 0 < b -> a - a / b * b = a mod b.
Proof. intro. pose proof (Z.div_mod a b ltac:(lia)). lia. Qed.
Lemma quot_nn a b : 0 <= a -> 0 < b -> Z.quot a b = a / b.
Proof. intros. now apply Z.quot_div_nonneg. Qed.
Lemma time_fields_spec ms tu : 0 <= ms -> time_fields ms tu =
  match tu with
  | DAYS => Fields (ms / 86400000) (ms mod 86400000 / 3600000) (ms mod 3600000 / 60000) (ms mod 60000 / 1000) (ms mod 1000)
  | HOURS => Fields 0 (ms / 3600000) (ms mod 3600000 / 60000) (ms mod 60000 / 1000) (ms mod 1000)
  | MINUTES => Fields 0 0 (ms / 60000) (ms mod 60000 / 1000) (ms mod 1000)
  | SECONDS => Fields 0 0 0 (ms / 1000) (ms mod 1000)
  | MILLISECONDS => Fields 0 0 0 0 ms
  end.
Proof.
  intro H. unfold time_fields. cbn zeta.
  change (24 * (60 * (60 * 1000))) with 86400000. change (60 * (60 * 1000)) with 3600000. change (60 * 1000) with 60000.
  assert (M : forall a b c, 0 < b -> 0 < c -> (a mod (b * c)) mod c = a mod c).
  { intros a b c Hb Hc. symmetry. apply Znumtheory.Zmod_div_mod; try lia. now exists b. }
  assert (M1 : forall a, (a mod 86400000) mod 3600000 = a mod 3600000) by (intro a; apply (M a 24 3600000); lia).
  assert (M2 : forall a, (a mod 3600000) mod 60000 = a mod 60000) by (intro a; apply (M a 60 60000); lia).
  assert (M3 : forall a, (a mod 60000) mod 1000 = a mod 1000) by (intro a; apply (M a 60 1000); lia).
  assert (P : forall a b, 0 < b -> 0 <= a mod b) by (intros; apply Z.mod_pos_bound; lia).
  destruct tu; cbn [unit_code Z.leb Z.ltb Z.compare Pos.compare Pos.compare_cont];
    rewrite ?Z.mul_0_l, ?Z.sub_0_r.
  - rewrite (quot_nn ms 86400000) by lia. rewrite (sub_mod ms 86400000) by lia.
    rewrite (quot_nn (ms mod 86400000)) by (try apply P; lia). rewrite sub_mod by lia. rewrite M1.
    rewrite (quot_nn (ms mod 3600000)) by (try apply P; lia). rewrite sub_mod by lia. rewrite M2.
    rewrite (quot_nn (ms mod 60000)) by (try apply P; lia). rewrite sub_mod by lia. rewrite M3. reflexivity.
  - rewrite (quot_nn ms 3600000) by lia. rewrite (sub_mod ms 3600000) by lia.
    rewrite (quot_nn (ms mod 3600000)) by (try apply P; lia). rewrite sub_mod by lia. rewrite M2.
    rewrite (quot_nn (ms mod 60000)) by (try apply P; lia). rewrite sub_mod by lia. rewrite M3. reflexivity.
  - rewrite (quot_nn ms 60000) by lia. rewrite (sub_mod ms 60000) by lia.
    rewrite (quot_nn (ms mod 60000)) by (try apply P; lia). rewrite sub_mod by lia. rewrite M3. reflexivity.
  - rewrite (quot_nn ms 1000) by lia. rewrite (sub_mod ms 1000) by lia. reflexivity.
  - reflexivity.
Qed.

(** ** The printed text *)
(** Specification: numbers padded with zeros to two or three digits. *)
Definition pad2 (v : Z) : str := (if v <? 10 then str_of "0" else []) ++ show_int v.
Definition pad3 (v : Z) : str := (if v <? 10 then str_of "00" else if v <? 100 then str_of "0" else []) ++ show_int v.
Definition at_least (tu u : tunit) : bool := unit_code u <=? unit_code tu.
(** Specification of the text for [ms] milliseconds when no unit larger than [tu] is wanted. *)
Definition clock_text (ms : Z) (tu : tunit) : str :=
  if ((ms <? 1000) || at_least tu MILLISECONDS)%bool then show_int ms ++ str_of "ms"
  else if ms <? 10000 then show_int (ms / 1000) ++ str_of "s" ++ pad3 (ms mod 1000) ++ str_of "ms"
  else if ((ms <? 60000) || at_least tu SECONDS)%bool then show_int (ms / 1000) ++ str_of "s"
  else if ((ms <? 3600000) || at_least tu MINUTES)%bool then
    show_int (ms / 60000) ++ str_of "m" ++ pad2 (ms mod 60000 / 1000) ++ str_of "s"
  else if ((ms <? 86400000) || at_least tu HOURS)%bool then
    show_int (ms / 3600000) ++ str_of "h" ++ pad2 (ms mod 3600000 / 60000) ++ str_of "m" ++ pad2 (ms mod 60000 / 1000) ++ str_of "s"
  else show_int (ms / 86400000) ++ str_of "d" ++ pad2 (ms mod 86400000 / 3600000) ++ str_of "h" ++
       pad2 (ms mod 3600000 / 60000) ++ str_of "m" ++ pad2 (ms mod 60000 / 1000) ++ str_of "s".

Lemma format_time_days f c : 0 < f_days f ->
  format_time f c = show_int (f_days f) ++ str_of "d" ++ show_field c true (f_hours f) (str_of "h") ++
    show_field c true (f_mins f) (str_of "m") ++ show_field c true (f_secs f) (str_of "s").
Proof.
  intro H. unfold format_time. rewrite (proj2 (Z.ltb_lt _ _) H). cbn [orb negb andb]. rewrite app_nil_r, <- app_assoc. reflexivity.
Qed.
Lemma format_time_hours f c : f_days f = 0 -> 0 < f_hours f ->
  format_time f c = show_field c false (f_hours f) (str_of "h") ++
    show_field c true (f_mins f) (str_of "m") ++ show_field c true (f_secs f) (str_of "s").
Proof.
  intros D H. unfold format_time. rewrite D. change (0 <? 0) with false. cbn iota. rewrite (proj2 (Z.ltb_lt _ _) H). cbn [orb negb andb app]. rewrite app_nil_r. reflexivity.
Qed.
Lemma format_time_mins f c : f_days f = 0 -> f_hours f = 0 -> 0 < f_mins f ->
  format_time f c = show_field c false (f_mins f) (str_of "m") ++ show_field c true (f_secs f) (str_of "s").
Proof.
  intros D D2 H. unfold format_time. rewrite D, D2. change (0 <? 0) with false. cbn [orb]. cbn iota. rewrite (proj2 (Z.ltb_lt _ _) H). cbn [orb negb andb app]. rewrite app_nil_r. reflexivity.
Qed.
Lemma format_time_secs f c : f_days f = 0 -> f_hours f = 0 -> f_mins f = 0 -> 10 <= f_secs f ->
  format_time f c = show_field c false (f_secs f) (str_of "s").
Proof.
  intros D D2 D3 H. unfold format_time. rewrite D, D2, D3. change (0 <? 0) with false. cbn [orb]. cbn iota.
  rewrite (proj2 (Z.ltb_lt 0 (f_secs f))) by lia. rewrite (proj2 (Z.ltb_ge (f_secs f) 10)) by lia. cbn [orb negb andb app]. rewrite app_nil_r. reflexivity.
Qed.
Lemma format_time_small f c : f_days f = 0 -> f_hours f = 0 -> f_mins f = 0 -> 0 < f_secs f < 10 ->
  format_time f c = show_field c false (f_secs f) (str_of "s") ++ color_on c ++ pad3 (f_msecs f) ++ color_off c ++ str_of "ms".
Proof.
  intros D D2 D3 H. unfold format_time. rewrite D, D2, D3. change (0 <? 0) with false. cbn [orb]. cbn iota.
  rewrite (proj2 (Z.ltb_lt 0 (f_secs f))) by lia. rewrite (proj2 (Z.ltb_lt (f_secs f) 10)) by lia. cbn [orb negb andb app].
  unfold pad3. rewrite <- !app_assoc. reflexivity.
Qed.
Lemma format_time_ms f c : f_days f = 0 -> f_hours f = 0 -> f_mins f = 0 -> f_secs f = 0 ->
  format_time f c = color_on c ++ show_int (f_msecs f) ++ color_off c ++ str_of "ms".
Proof.
  intros D D2 D3 H. unfold format_time. rewrite D, D2, D3, H. reflexivity.
Qed.

(** Removing the terminal escape sequences (ESC up to the letter m). *)
Fixpoint strip (esc : bool) (s : str) : str :=
  match s with
  | [] => []
  | c :: r => if esc then strip (negb (Ascii.eqb c "m"%char)) r
              else if Ascii.eqb c cESC then strip true r else c :: strip false r
  end.
Definition plain (s : str) : Prop := ~ In cESC s.
Lemma strip_plain : forall s t, plain s -> strip false (s ++ t) = s ++ strip false t.
Proof.
  induction s as [|c s IH]; intros t H; [reflexivity|]. cbn [app strip].
  destruct (Ascii.eqb_spec c cESC) as [->|N]; [exfalso; apply H; now left|].
  rewrite IH; [reflexivity|]. intro I. apply H. now right.
Qed.
Lemma strip_on c t : strip false (color_on c ++ t) = strip false t.
Proof. destruct c; reflexivity. Qed.
Lemma strip_off c t : strip false (color_off c ++ t) = strip false t.
Proof. destruct c; reflexivity. Qed.
Lemma show_int_plain z : 0 <= z -> plain (show_int z).
Proof.
  intros H I. unfold show_int in I. rewrite (proj2 (Z.ltb_ge z 0)) in I by lia.
  destruct (show_nat_spec z H) as (D & _). specialize (D _ I). unfold digit in D. vm_compute in D. lia.
Qed.
Lemma plain_app s t : plain s -> plain t -> plain (s ++ t).
Proof. intros A B I. apply in_app_or in I. destruct I; auto. Qed.
Lemma plain_lit (s : str) : forallb (fun c => negb (Ascii.eqb c cESC)) s = true -> plain s.
Proof.
  intros H I. rewrite forallb_forall in H. specialize (H _ I). now rewrite Ascii.eqb_refl in H.
Qed.
Lemma strip_field c b v u t : 0 <= v -> plain u ->
  strip false (show_field c b v u ++ t) = (if ((v <? 10) && b)%bool then str_of "0" else []) ++ show_int v ++ u ++ strip false t.
Proof.
  intros Hv Hu. unfold show_field. rewrite <- !app_assoc. rewrite strip_on.
  assert (Hz : plain (if ((v <? 10) && b)%bool then str_of "0" else [])).
  { destruct ((v <? 10) && b)%bool; apply plain_lit; reflexivity. }
  rewrite (strip_plain _ _ Hz). rewrite (strip_plain _ _ (show_int_plain v Hv)). rewrite strip_off.
  now rewrite (strip_plain _ _ Hu).
Qed.
Lemma strip_nil : strip false [] = [].
Proof. reflexivity. Qed.
Lemma plain_pad3 v : 0 <= v -> plain (pad3 v).
Proof.
  intro H. unfold pad3. apply plain_app; [|now apply show_int_plain].
  destruct (v <? 10); [|destruct (v <? 100)]; apply plain_lit; reflexivity.
Qed.
Lemma pad2_true v : (if ((v <? 10) && true)%bool then str_of "0" else []) ++ show_int v = pad2 v.
Proof. unfold pad2. now rewrite andb_true_r. Qed.

Lemma time_string_text ms color tu : 0 <= ms -> strip false (time_string ms color tu) = clock_text ms tu.
Proof.
  intro H. unfold time_string.
  destruct (time_fields_recompose ms tu H) as (_ & F1 & F2 & F3 & F4 & F5).
  assert (S2 : forall b v (u : str), 0 <= v -> forallb (fun c => negb (Ascii.eqb c cESC)) u = true ->
     strip false (show_field color b v u) = (if ((v <? 10) && b)%bool then str_of "0" else []) ++ show_int v ++ u).
  { intros b v u Hv Hu. rewrite <- (app_nil_r (show_field color b v u)). rewrite strip_field by (try apply plain_lit; assumption).
    rewrite strip_nil, app_nil_r. reflexivity. }
  assert (E := time_fields_spec ms tu H).
  assert (Q : forall a b, 0 < b -> a < b -> 0 <= a -> a / b = 0) by (intros; apply Z.div_small; lia).
  unfold clock_text, at_least.
  (* millisecond range *)
  destruct (Z.ltb_spec ms 1000) as [A1|A1].
  { cbn [orb]. rewrite format_time_ms.
    - rewrite E. replace (f_msecs _) with ms.
      + rewrite strip_on. rewrite (strip_plain _ _ (show_int_plain ms H)). rewrite strip_off. reflexivity.
      + destruct tu; cbn [f_msecs]; rewrite ?Z.mod_small by lia; reflexivity.
    - rewrite E. destruct tu; cbn [f_days]; try reflexivity; apply Q; lia.
    - rewrite E. destruct tu; cbn [f_hours]; try reflexivity; rewrite ?Z.mod_small by lia; apply Q; lia.
    - rewrite E. destruct tu; cbn [f_mins]; try reflexivity; rewrite ?Z.mod_small by lia; apply Q; lia.
    - rewrite E. destruct tu; cbn [f_secs]; try reflexivity; rewrite ?Z.mod_small by lia; apply Q; lia. }
  destruct tu eqn:Etu; cbn [unit_code Z.leb Z.compare Pos.compare Pos.compare_cont orb].
  5:{ rewrite format_time_ms by (rewrite E; reflexivity). rewrite E. cbn [f_msecs].
      rewrite strip_on. rewrite (strip_plain _ _ (show_int_plain ms H)). rewrite strip_off. reflexivity. }
  all: assert (D1 : 1 <= ms / 1000) by (apply Z.div_le_lower_bound; lia).
  all: destruct (Z.ltb_spec ms 10000) as [A2|A2];
    [rewrite format_time_small by (rewrite E; cbn [f_days f_hours f_mins f_secs]; rewrite ?Z.mod_small by lia;
       rewrite ?(Q ms 86400000), ?(Q ms 3600000), ?(Q ms 60000) by lia;
       first [reflexivity | split; [lia|apply Z.div_lt_upper_bound; lia]]);
     rewrite E; cbn [f_secs f_msecs]; rewrite ?(Z.mod_small ms 60000) by lia;
     pose proof (Z.mod_pos_bound ms 1000 ltac:(lia));
     rewrite strip_field by (try apply plain_lit; try reflexivity; lia); rewrite andb_false_r; cbn [app];
     rewrite strip_on, (strip_plain _ _ (plain_pad3 (ms mod 1000) ltac:(lia))), strip_off; reflexivity|].
  all: assert (D2 : 10 <= ms / 1000) by (apply Z.div_le_lower_bound; lia).
  (* SECONDS first *)
  4:{ rewrite orb_true_r. rewrite format_time_secs by (rewrite E; cbn; try reflexivity; lia).
      rewrite E. cbn [f_secs]. rewrite S2 by (try reflexivity; lia). now rewrite andb_false_r. }
  all: rewrite orb_false_r.
  all: destruct (Z.ltb_spec ms 60000) as [A3|A3];
    [rewrite format_time_secs by (rewrite E; cbn [f_days f_hours f_mins f_secs]; rewrite ?Z.mod_small by lia;
       rewrite ?(Q ms 86400000), ?(Q ms 3600000), ?(Q ms 60000) by lia;
       try reflexivity; lia);
     rewrite E; cbn [f_secs]; rewrite ?(Z.mod_small ms 60000) by lia;
     rewrite S2 by (try reflexivity; lia); rewrite andb_false_r; reflexivity|].
  all: assert (D3 : 1 <= ms / 60000) by (apply Z.div_le_lower_bound; lia).
  all: pose proof (Z.mod_pos_bound ms 60000 ltac:(lia)) as B60; pose proof (Z.div_pos (ms mod 60000) 1000 ltac:(lia) ltac:(lia)) as P60.
  3:{ rewrite orb_true_r. rewrite format_time_mins by (rewrite E; cbn; try reflexivity; lia).
      rewrite E. cbn [f_mins f_secs]. rewrite strip_field by (try apply plain_lit; try reflexivity; lia).
      rewrite S2 by (try reflexivity; lia). rewrite andb_false_r. cbn [app]. unfold pad2. rewrite andb_true_r, <- app_assoc. reflexivity. }
  all: rewrite orb_false_r.
  all: destruct (Z.ltb_spec ms 3600000) as [A4|A4];
    [rewrite format_time_mins by (rewrite E; cbn [f_days f_hours f_mins f_secs]; rewrite ?Z.mod_small by lia;
       rewrite ?(Q ms 86400000), ?(Q ms 3600000) by lia;
       try reflexivity; lia);
     rewrite E; cbn [f_secs f_mins]; rewrite ?(Z.mod_small ms 3600000) by lia;
     rewrite strip_field by (try apply plain_lit; try reflexivity; lia);
     rewrite S2 by (try reflexivity; lia); rewrite andb_false_r; cbn [app]; unfold pad2; rewrite andb_true_r, <- app_assoc; reflexivity|].
  all: assert (D4 : 1 <= ms / 3600000) by (apply Z.div_le_lower_bound; lia).
  all: pose proof (Z.mod_pos_bound ms 3600000 ltac:(lia)) as B36; pose proof (Z.div_pos (ms mod 3600000) 60000 ltac:(lia) ltac:(lia)) as P36.
  2:{ rewrite orb_true_r. rewrite format_time_hours by (rewrite E; cbn; try reflexivity; lia).
      rewrite E. cbn [f_hours f_mins f_secs]. rewrite !strip_field by (try apply plain_lit; try reflexivity; lia).
      rewrite S2 by (try reflexivity; lia). rewrite andb_false_r. cbn [app]. unfold pad2. rewrite !andb_true_r, <- !app_assoc. reflexivity. }
  rewrite orb_false_r.
  pose proof (Z.mod_pos_bound ms 86400000 ltac:(lia)) as B86. pose proof (Z.div_pos (ms mod 86400000) 3600000 ltac:(lia) ltac:(lia)) as P86.
  destruct (Z.ltb_spec ms 86400000) as [A5|A5].
  - rewrite format_time_hours by (rewrite E; cbn [f_days f_hours]; rewrite ?Z.mod_small by lia; try (apply Q; lia); lia).
    rewrite E. cbn [f_hours f_mins f_secs]. rewrite (Z.mod_small ms 86400000) by lia.
    rewrite !strip_field by (try apply plain_lit; try reflexivity; lia).
    rewrite S2 by (try reflexivity; lia). rewrite andb_false_r. cbn [app]. unfold pad2. rewrite !andb_true_r, <- !app_assoc. reflexivity.
  - assert (D5 : 1 <= ms / 86400000) by (apply Z.div_le_lower_bound; lia).
    rewrite format_time_days by (rewrite E; cbn [f_days]; lia).
    rewrite E. cbn [f_days f_hours f_mins f_secs].
    rewrite (strip_plain _ _ (show_int_plain (ms / 86400000) ltac:(lia))).
    rewrite (strip_plain (str_of "d")) by (apply plain_lit; reflexivity).
    rewrite !strip_field by (try apply plain_lit; try reflexivity; lia).
    rewrite S2 by (try reflexivity; lia). unfold pad2. rewrite !andb_true_r, <- !app_assoc. reflexivity.
Qed.
Lemma color_sequences ms tu : 0 <= ms -> plain (time_string ms false tu).
Proof.
  intro H. destruct (time_fields_recompose ms tu H) as (_ & F1 & F2 & F3 & F4 & F5). unfold time_string.
  assert (P : forall b v (u : str), 0 <= v -> forallb (fun c => negb (Ascii.eqb c cESC)) u = true -> plain (show_field false b v u)).
  { intros b v u Hv Hu. unfold show_field. cbn [color_on color_off app].
    apply plain_app; [destruct ((v <? 10) && b)%bool; apply plain_lit; reflexivity|].
    apply plain_app; [now apply show_int_plain|now apply plain_lit]. }
  assert (P0 : plain []) by (intros []).
  unfold format_time. set (f := time_fields ms tu) in *.
  assert (P2 : plain ((if 0 <? f_secs f then if f_msecs f <? 10 then str_of "00" else if f_msecs f <? 100 then str_of "0" else [] else []) ++
            show_int (f_msecs f) ++ [] ++ str_of "ms")).
  { apply plain_app; [|apply plain_app; [now apply show_int_plain|apply plain_lit; reflexivity]].
    destruct (0 <? f_secs f); [|exact P0]. destruct (f_msecs f <? 10); [|destruct (f_msecs f <? 100)]; apply plain_lit; reflexivity. }
  assert (PD : plain (show_int (f_days f) ++ str_of "d")).
  { apply plain_app; [now apply show_int_plain|apply plain_lit; reflexivity]. }
  assert (PH : forall b, plain (show_field false b (f_hours f) (str_of "h"))) by (intro b; apply P; [assumption|reflexivity]).
  assert (PM : forall b, plain (show_field false b (f_mins f) (str_of "m"))) by (intro b; apply P; [assumption|reflexivity]).
  assert (PS : forall b, plain (show_field false b (f_secs f) (str_of "s"))) by (intro b; apply P; [assumption|reflexivity]).
  change (color_on false) with (@nil ascii). change (color_off false) with (@nil ascii).
  change ([] ++ ?x) with x in P2 |- *.
  set (tail := (if 0 <? f_secs f then _ else []) ++ show_int (f_msecs f) ++ str_of "ms") in *.
  assert (PT : forall c : bool, plain (if c then tail else [])) by (intros []; assumption).
  assert (PS' : forall c b : bool, plain (if c then show_field false b (f_secs f) (str_of "s") else [])) by (intros [] b; auto).
  destruct (0 <? f_days f); destruct (0 <? f_hours f); destruct (0 <? f_mins f); cbn [orb];
    repeat first [exact P0 | exact PD | apply PH | apply PM | apply PS' | apply PS | apply PT | apply plain_app].
Qed.

(** * Timer *)
Lemma time_struct_fields d : 0 <= d ->
  let s := time_struct d in
  s_days s = d / ns_hour / 24 /\
  s_hours s = d / ns_hour - d / ns_hour / 24 /\
  s_mins s = d mod ns_hour / ns_min /\
  s_secs s = d mod ns_min / ns_sec /\
  s_msecs s = d mod ns_sec / ns_ms /\
  s_usecs s = d mod ns_ms / ns_us /\ s_tp s = d / ns_us.
Proof.
  intro H. unfold time_struct. cbn zeta. cbn [s_days s_hours s_mins s_secs s_msecs s_usecs s_tp].
  unfold ns_hour, ns_min, ns_sec, ns_ms, ns_us.
  assert (M : forall a b c, 0 < b -> 0 < c -> (a mod (b * c)) mod c = a mod c).
  { intros a b c Hb Hc. symmetry. apply Zmod_div_mod; try lia. now exists b. }
  assert (M1 : forall a, (a mod 3600000000000) mod 60000000000 = a mod 60000000000) by (intro a; apply (M a 60 60000000000); lia).
  assert (M2 : forall a, (a mod 60000000000) mod 1000000000 = a mod 1000000000) by (intro a; apply (M a 60 1000000000); lia).
  assert (M3 : forall a, (a mod 1000000000) mod 1000000 = a mod 1000000) by (intro a; apply (M a 1000 1000000); lia).
  assert (P : forall a b, 0 < b -> 0 <= a mod b) by (intros; apply Z.mod_pos_bound; lia).
  set (Hh := 3600000000000) in *.
  rewrite (quot_nn d Hh) by (unfold Hh; lia).
  assert (Dp : 0 <= d / Hh) by (apply Z.div_pos; unfold Hh; lia).
  rewrite (quot_nn (d / Hh) 24) by lia. set (dd := d / Hh / 24).
  assert (Dd : 0 <= dd <= d / Hh).
  { unfold dd. split; [apply Z.div_pos; lia|]. apply Z.div_le_upper_bound; lia. }
  assert (Eh : Z.quot (d - dd * Hh) Hh = d / Hh - dd).
  { assert (0 <= d - dd * Hh). { pose proof (Z.mul_div_le d Hh ltac:(unfold Hh; lia)). nia. }
    rewrite quot_nn by (try assumption; unfold Hh; lia).
    replace (d - dd * Hh) with (d + (- dd) * Hh) by lia. rewrite Z.div_add by (unfold Hh; lia). lia. }
  rewrite Eh. replace (d - dd * Hh - (d / Hh - dd) * Hh) with (d - d / Hh * Hh) by lia.
  rewrite (sub_mod d Hh) by (unfold Hh; lia).
  rewrite (quot_nn (d mod Hh)) by (try apply P; unfold Hh; lia). rewrite (sub_mod (d mod Hh)) by lia. rewrite M1.
  rewrite (quot_nn (d mod 60000000000)) by (try apply P; lia). rewrite (sub_mod (d mod _)) by lia. rewrite M2.
  rewrite (quot_nn (d mod 1000000000)) by (try apply P; lia). rewrite (sub_mod (d mod _)) by lia. rewrite M3.
  rewrite (quot_nn (d mod 1000000)) by (try apply P; lia). rewrite (quot_nn d 1000) by lia.
  repeat split.
Qed.
Lemma get_milliseconds_floor d : 0 <= d -> get_milliseconds d = d / ns_ms.
Proof.
  intro H. unfold get_milliseconds. destruct (time_struct_fields d H) as (_ & _ & _ & _ & _ & _ & ->).
  assert (0 <= d / ns_us) by (apply Z.div_pos; unfold ns_us; lia).
  rewrite quot_nn by lia. unfold ns_us, ns_ms. rewrite Z.div_div by lia. reflexivity.
Qed.

Inductive top : Type := TReset (now : Z) | TStop (now : Z) | TContinue (now : Z).
Definition timer_op (t : timer) (o : top) : timer :=
  match o with TReset n => timer_reset t n | TStop n => timer_stop t n | TContinue n => timer_continue t n end.
Definition timer_ops (t : timer) (l : list top) : timer := fold_left timer_op l t.
(** Run, pause, run, ...: the intervals during which the timer is meant to run. *)
Definition stop_watch (l : list (Z * Z)) : list top :=
  flat_map (fun iv => [TContinue (fst iv); TStop (snd iv)]) l.
Fixpoint total (l : list (Z * Z)) : Z := match l with [] => 0 | (a, b) :: r => (b - a) + total r end.
Lemma stop_watch_ok : forall l t, t_stopped t = true ->
  t_stopped (timer_ops t (stop_watch l)) = true /\
  forall now, elapsed (timer_ops t (stop_watch l)) now = elapsed t now + total l.
Proof.
  induction l as [|[a b] l IH]; intros t Ht; cbn [stop_watch flat_map app total].
  - split; [exact Ht|]. intro now. cbn. lia.
  - cbn [timer_ops fold_left timer_op fst snd]. change (fold_left timer_op ?x ?y) with (timer_ops y x).
    destruct (IH (timer_stop (timer_continue t a) b) eq_refl) as [I1 I2]. split; [exact I1|].
    intro now. change (flat_map (fun iv => [TContinue (fst iv); TStop (snd iv)]) l) with (stop_watch l). rewrite I2.
    unfold elapsed, timer_stop, timer_continue. cbn [t_stopped t_toc t_tic t_offset]. rewrite Ht. lia.
Qed.
