(** Properties C26-C30, C33 and C71: progress tracker, time strings, timer, exception messages. *)
From Verif Require Import Base SettingsModel SdtModel SFileModel TimeModel TimeProofs.
From Coq Require Import ZArith Lia.
Local Open Scope Z_scope.

(** C26.  [n] items, [m] messages.  A loop that reports 1..n prints exactly the messages
    1..m, message k at item k*(n/m) + min(k, n mod m). *)
Theorem C26_one_based : forall n m, 1 <= m <= n -> exists t, new_tracker n m = Ok t /\
  fst (reports t (upto 1 (Z.to_nat n))) =
  map (fun k => (k * (n / m) + Z.min k (n mod m), k)) (upto 1 (Z.to_nat m)).
Proof.
  intros n m H. destruct (schedule_one_based n m ltac:(lia) ltac:(lia)) as (t & E & R). exists t. split; [exact E|].
  rewrite R. assert (G : forall c k, messages n m k c = map (fun k => (due n m k, k)) (upto k c)).
  { induction c as [|c IH]; intro k; [reflexivity|]. cbn [messages upto map]. now rewrite IH. }
  exact (G _ _).
Qed.
Print Assumptions C26_one_based.
(** The last message comes with the last item, and the blocks between messages have
    n/m or n/m+1 items, the larger ones first. *)
Theorem C26_blocks : forall n m k, 1 <= m -> 0 <= k ->
  let due k := k * (n / m) + Z.min k (n mod m) in
  due m = n /\ due (k + 1) - due k = (if k <? n mod m then n / m + 1 else n / m).
Proof. intros n m k Hm Hk. split; [apply (due_last n m); lia|apply (block_size n m k); lia]. Qed.
Print Assumptions C26_blocks.
(** A loop that reports 0..n-1 never prints the last message. *)
Theorem C26_zero_based : forall n m, 1 <= m <= n -> exists t, new_tracker n m = Ok t /\
  fst (reports t (upto 0 (Z.to_nat n))) =
  map (fun k => (k * (n / m) + Z.min k (n mod m), k)) (upto 1 (Z.to_nat (m - 1))).
Proof.
  intros n m H. destruct (schedule_zero_based n m ltac:(lia) ltac:(lia)) as (t & E & R). exists t. split; [exact E|].
  rewrite R. assert (G : forall c k, messages n m k c = map (fun k => (due n m k, k)) (upto k c)).
  { induction c as [|c IH]; intro k; [reflexivity|]. cbn [messages upto map]. now rewrite IH. }
  exact (G _ _).
Qed.
Print Assumptions C26_zero_based.
(** More messages than items: one message per item, so fewer than asked for. *)
Theorem C26_more_messages : forall n m, 1 <= n < m -> exists t, new_tracker n m = Ok t /\
  fst (reports t (upto 1 (Z.to_nat n))) = map (fun k => (k, k)) (upto 1 (Z.to_nat n)).
Proof. intros n m H. apply schedule_more_messages; lia. Qed.
Print Assumptions C26_more_messages.
(** Whatever is reported, in whatever order: the labels are 1, 2, 3, ... and none comes
    before the item at which it is due. *)
Theorem C26_any_reports : forall n m items t, 0 <= n -> 1 <= m -> new_tracker n m = Ok t ->
  exists d, map snd (fst (reports t items)) = upto 1 d /\
    forall i k, In (i, k) (fst (reports t items)) -> k * (n / m) + Z.min k (n mod m) <= i.
Proof.
  intros n m items t Hn Hm E. destruct (new_tracker_at n m Hn ltac:(lia)) as (t' & E' & A & _).
  rewrite E in E'. injection E' as <-.
  destruct (reports_any n m Hn ltac:(lia) items 1 t ltac:(lia) A) as (d & D1 & D2 & _). exists d. split; [exact D1|exact D2].
Qed.
Print Assumptions C26_any_reports.
(** No messages at all: division by zero. *)
Theorem C26_zero_messages : forall n, new_tracker n 0 = UB.
Proof. reflexivity. Qed.
Print Assumptions C26_zero_messages.
Example C26_example : exists t, new_tracker 10 4 = Ok t /\
  fst (reports t (upto 1 10)) = [(3, 1); (6, 2); (8, 3); (10, 4)] /\
  fst (reports t (upto 0 10)) = [(3, 1); (6, 2); (8, 3)] /\
  fst (reports t [1; 9; 2; 9; 9]) = [(9, 1); (9, 2); (9, 3)].
Proof. eexists. split; [reflexivity|]. vm_compute. repeat split. Qed.

(** C27.  Any number of threads, any interleaving of their steps: the messages printed or
    about to be printed are as many as the advances of the schedule, the schedule is always on
    the list of due items, and no label is printed before its turn. *)
Theorem C27_schedule_advances : forall n m t todo sched, 0 <= n -> 1 <= m -> new_tracker n m = Ok t ->
  let w := run_schedule (start_world t todo) sched in
  exists k, 1 <= k /\
    p_index (w_tracker w) = k /\ p_next (w_tracker w) = k * (n / m) + Z.min k (n mod m) /\
    Z.of_nat (length (w_printed w) + length (filter (fun th => match th_phase th with Printing _ => true | _ => false end) (w_threads w))) = k - 1 /\
    (forall x, In x (w_printed w) -> 1 <= x < k).
Proof.
  intros n m t todo sched Hn Hm E. destruct (new_tracker_at n m Hn ltac:(lia)) as (t' & E' & A & _).
  rewrite E in E'. injection E' as <-.
  destruct (run_schedule_inv n m sched Hn ltac:(lia) _ (start_world_inv n m t todo A)) as (k & K1 & (_ & _ & _ & K2 & K3) & K4 & K5 & _).
  exists k. split; [exact K1|]. split; [exact K3|]. split; [exact K2|]. split; [|exact K5].
  rewrite <- K4, Nat2Z.inj_add. f_equal. f_equal. clear K4.
  induction (w_threads (run_schedule (start_world t todo) sched)) as [|th l IH]; [reflexivity|].
  cbn [filter total_pending]. unfold pending. destruct (th_phase th); cbn [length]; rewrite ?IH; reflexivity.
Qed.
Print Assumptions C27_schedule_advances.
(** But the label is read before the critical section: two threads can print the same
    label, and label 2 is then never printed. *)
Theorem C27_label_once_refuted : exists t sched, new_tracker 4 4 = Ok t /\
  let w := run_schedule (start_world t [[1; 3]; [2; 4]]) sched in
  w_printed w = [1; 1; 3; 4] /\ p_index (w_tracker w) = 5 /\ w_threads w = [Thread [] Idle; Thread [] Idle].
Proof.
  eexists. exists [0; 1; 0; 1; 0; 1; 0; 0; 0; 1; 1; 1]%nat. split; [reflexivity|]. vm_compute. repeat split.
Qed.
Print Assumptions C27_label_once_refuted.
Example C27_example : exists t, new_tracker 4 2 = Ok t /\
  w_printed (run_schedule (start_world t [[1; 3]; [2; 4]]) [0; 0; 1; 1; 1; 0; 0; 1; 1; 1]%nat) = [1; 2].
Proof. eexists. split; [reflexivity|]. vm_compute. reflexivity. Qed.

(** C28.  The five numbers recompose to the duration, none negative. *)
Theorem C28_recompose : forall ms tu, 0 <= ms ->
  let f := time_fields ms tu in
  24 * 60 * 60 * 1000 * f_days f + 60 * 60 * 1000 * f_hours f + 60 * 1000 * f_mins f + 1000 * f_secs f + f_msecs f = ms /\
  0 <= f_days f /\ 0 <= f_hours f /\ 0 <= f_mins f /\ 0 <= f_secs f /\ 0 <= f_msecs f.
Proof. exact time_fields_recompose. Qed.
Print Assumptions C28_recompose.
(** The text, for every duration, largest unit and colour setting ([strip] removes the
    terminal escape sequences; without colour there are none). *)
Theorem C28_text : forall ms color tu, 0 <= ms -> strip false (time_string ms color tu) = clock_text ms tu.
Proof. exact time_string_text. Qed.
Print Assumptions C28_text.
Theorem C28_no_colour : forall ms tu, 0 <= ms -> time_string ms false tu = clock_text ms tu /\ ~ In (ascii_of_nat 27) (time_string ms false tu).
Proof.
  intros ms tu H. pose proof (color_sequences ms tu H) as P. split; [|exact P].
  rewrite <- (time_string_text ms false tu H). rewrite <- (app_nil_r (time_string ms false tu)) at 2.
  rewrite (strip_plain _ _ P). now rewrite app_nil_r.
Qed.
Print Assumptions C28_no_colour.
Example C28_example : time_string 3723004 false HOURS = str_of "1h02m03s" /\ time_string 9007 false HOURS = str_of "9s007ms" /\
  time_string 59999 false HOURS = str_of "59s" /\ time_string 90061000 false DAYS = str_of "1d01h01m01s" /\
  time_string 7 true HOURS = cESC :: str_of "[1;33m7" ++ cESC :: str_of "[0mms".
Proof. vm_compute. repeat split. Qed.

(** C29.  [d] is the measured time in nanoseconds.  Minutes to microseconds are right for
    every duration; the hours are too large by the number of whole days that the days
    field already counts (less one hour for each). *)
Theorem C29_fields : forall d, 0 <= d ->
  let s := time_struct d in
  let hour := 3600 * 1000000000 in
  s_days s = d / (24 * hour) /\
  s_hours s = d / hour - d / (24 * hour) /\
  s_mins s = d mod hour / (60 * 1000000000) /\
  s_secs s = d mod (60 * 1000000000) / 1000000000 /\
  s_msecs s = d mod 1000000000 / 1000000 /\
  s_usecs s = d mod 1000000 / 1000.
Proof.
  intros d H. destruct (time_struct_fields d H) as (A & B & C & D & E & F & _). cbn zeta in *.
  rewrite A, B, C, D, E, F. change ns_hour with (3600 * 1000000000).
  rewrite !Z.div_div by lia. rewrite (Z.mul_comm 24). repeat split.
Qed.
Print Assumptions C29_fields.
Theorem C29_recompose : forall d, 0 <= d ->
  let s := time_struct d in let hour := 3600 * 1000000 in
  24 * hour * s_days s + hour * s_hours s + 60 * 1000000 * s_mins s + 1000000 * s_secs s + 1000 * s_msecs s + s_usecs s
  = d / 1000 + 23 * hour * s_days s.
Proof.
  intros d H. destruct (time_struct_fields d H) as (A & B & C & D & E & F & _). cbn zeta in *.
  rewrite A, B, C, D, E, F. unfold ns_hour, ns_min, ns_sec, ns_ms, ns_us. clear A B C D E F.
  set (q := d / 3600000000000 / 24).
  assert (S : forall a b c, 0 < b -> 0 < c -> a / c = b * (a / (b * c)) + a mod (b * c) / c).
  { intros a b c Hb Hc. rewrite (Z.div_mod a (b * c)) at 1 by lia.
    replace (b * c * (a / (b * c)) + a mod (b * c)) with (a mod (b * c) + (b * (a / (b * c))) * c) by ring.
    rewrite Z.div_add by lia. lia. }
  assert (M : forall a b c, 0 < b -> 0 < c -> (a mod (b * c)) mod c = a mod c).
  { intros a b c Hb Hc. symmetry. apply Znumtheory.Zmod_div_mod; try lia. now exists b. }
  assert (S1 := S d 1000 1000 ltac:(lia) ltac:(lia)). change (1000 * 1000) with 1000000 in S1.
  assert (S2 := S d 1000 1000000 ltac:(lia) ltac:(lia)). change (1000 * 1000000) with 1000000000 in S2.
  assert (S3 := S d 60 1000000000 ltac:(lia) ltac:(lia)). change (60 * 1000000000) with 60000000000 in S3.
  assert (S4 := S d 60 60000000000 ltac:(lia) ltac:(lia)). change (60 * 60000000000) with 3600000000000 in S4.
  lia.
Qed.
Print Assumptions C29_recompose.
(** Below 24 hours the fields are the usual decomposition, from 24 hours on they are not. *)
Theorem C29_below_a_day : forall d, 0 <= d < 24 * 3600 * 1000000000 ->
  let s := time_struct d in
  s_days s = 0 /\ 0 <= s_hours s < 24 /\ 0 <= s_mins s < 60 /\ 0 <= s_secs s < 60 /\ 0 <= s_msecs s < 1000 /\ 0 <= s_usecs s < 1000 /\
  3600 * 1000000 * s_hours s + 60 * 1000000 * s_mins s + 1000000 * s_secs s + 1000 * s_msecs s + s_usecs s = d / 1000.
Proof.
  intros d H. pose proof (C29_recompose d ltac:(lia)) as R. destruct (C29_fields d ltac:(lia)) as (A & B & C & D & E & F). cbn zeta in *.
  assert (Z0 : s_days (time_struct d) = 0) by (rewrite A; apply Z.div_small; lia).
  rewrite Z0 in R.
  assert (G : forall a b c, 0 < b -> 0 < c -> 0 <= a mod (b * c) / c < b).
  { intros a b c Hb Hc. pose proof (Z.mod_pos_bound a (b * c) ltac:(nia)). split; [apply Z.div_pos; lia|]. apply Z.div_lt_upper_bound; nia. }
  split; [exact Z0|]. split.
  { rewrite B, <- A, Z0, Z.sub_0_r. split; [apply Z.div_pos; lia|apply Z.div_lt_upper_bound; lia]. }
  split; [rewrite C; apply (G d 60 60000000000); lia|]. split; [rewrite D; apply (G d 60 1000000000); lia|].
  split; [rewrite E; apply (G d 1000 1000000); lia|]. split; [rewrite F; apply (G d 1000 1000); lia|]. lia.
Qed.
Print Assumptions C29_below_a_day.
Theorem C29_from_a_day_refuted : forall d, 24 * 3600 * 1000000000 <= d ->
  let s := time_struct d in
  24 * (3600 * 1000000) * s_days s + 3600 * 1000000 * s_hours s + 60 * 1000000 * s_mins s + 1000000 * s_secs s + 1000 * s_msecs s + s_usecs s > d / 1000.
Proof.
  intros d H. pose proof (C29_recompose d ltac:(lia)) as R. destruct (C29_fields d ltac:(lia)) as (A & _). cbn zeta in *.
  assert (1 <= s_days (time_struct d)) by (rewrite A; apply Z.div_le_lower_bound; lia). lia.
Qed.
Print Assumptions C29_from_a_day_refuted.
Theorem C29_totals : forall d, 0 <= d -> get_milliseconds d = d / 1000000 /\ get_microseconds d = d / 1000.
Proof.
  intros d H. split; [exact (get_milliseconds_floor d H)|]. unfold get_microseconds.
  destruct (time_struct_fields d H) as (_ & _ & _ & _ & _ & _ & E). exact E.
Qed.
Print Assumptions C29_totals.
(** The text: every unit that is not zero, with its number, from the largest to the smallest,
    separated by commas; the microseconds always. *)
Fixpoint joined (sep : str) (l : list str) : str :=
  match l with [] => [] | [x] => x | x :: r => x ++ sep ++ joined sep r end.
Theorem C29_text : forall d, 0 <= d ->
  let s := time_struct d in
  let units := [(s_days s, "days"); (s_hours s, "hours"); (s_mins s, "minutes"); (s_secs s, "seconds"); (s_msecs s, "milliseconds")]%string in
  let shown := filter (fun x => negb (fst x =? 0)) units ++ [(s_usecs s, "microseconds")]%string in
  timer_text s = joined (str_of ", ") (map (fun x => show_int (fst x) ++ str_of " " ++ str_of (snd x)) shown).
Proof.
  intros d H s units shown. subst units shown.
  assert (P : 0 <= s_days s /\ 0 <= s_hours s /\ 0 <= s_mins s /\ 0 <= s_secs s /\ 0 <= s_msecs s).
  { destruct (C29_fields d H) as (A & B & C & D & E & _). fold s in A, B, C, D, E. cbn zeta in *. rewrite A, B, C, D, E.
    assert (Q : d / (24 * (3600 * 1000000000)) <= d / (3600 * 1000000000)) by (apply Z.div_le_compat_l; lia).
    repeat split; try (apply Z.div_pos; [first [assumption|apply Z.mod_pos_bound; lia]|lia]). lia. }
  destruct P as (P1 & P2 & P3 & P4 & P5). unfold timer_text. cbv beta zeta.
  assert (K : forall v, 0 <= v -> (0 <? v) = negb (v =? 0)) by (intros v V; destruct (Z.ltb_spec 0 v), (Z.eqb_spec v 0); try reflexivity; lia).
  rewrite !K by assumption.
  assert (J : forall v (u w : string) r, str_of w = str_of " " ++ str_of u ++ str_of ", " -> r <> [] ->
     forall b : bool, (if b then show_int v ++ str_of w else []) ++ joined (str_of ", ") (map (fun x => show_int (fst x) ++ str_of " " ++ str_of (snd x)) r)
     = joined (str_of ", ") (map (fun x => show_int (fst x) ++ str_of " " ++ str_of (snd x)) (if b then (v, u) :: r else r))).
  { intros v u w r W N [|]; [|reflexivity]. destruct r as [|y r]; [contradiction|]. rewrite W. cbn [map]. change (joined ?c (?x :: ?y :: ?l)) with (x ++ c ++ joined c (y :: l)). cbn [fst snd]. rewrite <- !app_assoc. reflexivity. }
  assert (F : forall x l, filter (fun x : Z * string => negb (fst x =? 0)) (x :: l) ++ [(s_usecs s, "microseconds"%string)] =
     if negb (fst x =? 0) then x :: (filter (fun x => negb (fst x =? 0)) l ++ [(s_usecs s, "microseconds"%string)]) else filter (fun x => negb (fst x =? 0)) l ++ [(s_usecs s, "microseconds"%string)]).
  { intros x l. cbn [filter]. destruct (negb (fst x =? 0)); reflexivity. }
  assert (NE : forall l, filter (fun x : Z * string => negb (fst x =? 0)) l ++ [(s_usecs s, "microseconds"%string)] <> []) by (intros l E; apply app_eq_nil in E; destruct E; discriminate).
  rewrite F. cbn [fst]. rewrite <- (J (s_days s) "days"%string " days, "%string) by first [reflexivity|apply NE]. f_equal.
  rewrite F. cbn [fst]. rewrite <- (J (s_hours s) "hours"%string " hours, "%string) by first [reflexivity|apply NE]. f_equal.
  rewrite F. cbn [fst]. rewrite <- (J (s_mins s) "minutes"%string " minutes, "%string) by first [reflexivity|apply NE]. f_equal.
  rewrite F. cbn [fst]. rewrite <- (J (s_secs s) "seconds"%string " seconds, "%string) by first [reflexivity|apply NE]. f_equal.
  rewrite F. cbn [fst]. rewrite <- (J (s_msecs s) "milliseconds"%string " milliseconds, "%string) by first [reflexivity|apply NE]. f_equal.
Qed.
Print Assumptions C29_text.
Example C29_example : time_struct (25 * 3600 * 1000000000 + 61 * 1000000000 + 2003000) = TStruct 1 24 1 1 2 3 90061002003 /\
  timer_text (time_struct 61002003000) = str_of "1 minutes, 1 seconds, 2 milliseconds, 3 microseconds".
Proof. vm_compute. repeat split. Qed.

(** C30.  A timer that is reset at [a], stopped at [b], then continued and stopped again any
    number of times shows exactly the sum of the running intervals, whenever it is read. *)
Theorem C30_accumulates : forall t a b l now,
  elapsed (timer_ops t (TReset a :: TStop b :: flat_map (fun iv => [TContinue (fst iv); TStop (snd iv)]) l)) now
  = fold_right Z.add 0 (map (fun iv => snd iv - fst iv) ((a, b) :: l)).
Proof.
  intros t a b l now. cbn [timer_ops fold_left timer_op]. change (fold_left timer_op ?x ?y) with (timer_ops y x).
  destruct (stop_watch_ok l (timer_stop (timer_reset t a) b) eq_refl) as [_ E]. unfold stop_watch in E. rewrite E.
  unfold elapsed, timer_stop, timer_reset. cbn [t_stopped t_toc t_tic t_offset map fold_right fst snd].
  assert (T : total l = fold_right Z.add 0 (map (fun iv => snd iv - fst iv) l)).
  { clear E. induction l as [|[x y] l IH]; [reflexivity|]. cbn [total map fold_right fst snd]. now rewrite IH. }
  rewrite T. lia.
Qed.
Print Assumptions C30_accumulates.
(** A timer that is created or reset runs, whatever was done with it before. *)
Theorem C30_reset : forall t l a now, elapsed (timer_ops t (l ++ [TReset a])) now = now - a.
Proof. intros t l a now. unfold timer_ops. rewrite fold_left_app. unfold elapsed. cbn. lia. Qed.
Print Assumptions C30_reset.
(** While it runs: the sum of the finished intervals plus the time since the last continue. *)
Theorem C30_running : forall t a b l c now,
  elapsed (timer_ops t ((TReset a :: TStop b :: flat_map (fun iv => [TContinue (fst iv); TStop (snd iv)]) l) ++ [TContinue c])) now
  = fold_right Z.add 0 (map (fun iv => snd iv - fst iv) ((a, b) :: l)) + (now - c).
Proof.
  intros t a b l c now. pose proof (C30_accumulates t a b l 0) as H. unfold timer_ops in *. rewrite fold_left_app.
  set (u := fold_left timer_op (TReset a :: _) t) in *.
  assert (S : t_stopped u = true).
  { unfold u. cbn [fold_left timer_op]. destruct (stop_watch_ok l (timer_stop (timer_reset t a) b) eq_refl) as [S _]. exact S. }
  cbn [fold_left timer_op]. rewrite <- H. unfold elapsed, timer_continue. cbn [t_stopped t_toc t_tic t_offset]. rewrite S. lia.
Qed.
Print Assumptions C30_running.
(** Stopping a stopped timer counts the pause; continuing a running one forgets everything
    measured so far. *)
Theorem C30_double_stop_refuted : forall t a b c now, b < c ->
  elapsed (timer_ops t [TReset a; TStop b; TStop c]) now = (b - a) + (c - b) /\
  elapsed (timer_ops t [TReset a; TStop b; TStop c]) now <> b - a.
Proof. intros. unfold elapsed. cbn. lia. Qed.
Print Assumptions C30_double_stop_refuted.
Theorem C30_double_continue_refuted : forall t a b c d now,
  elapsed (timer_ops t [TReset a; TStop b; TContinue c; TContinue d]) now = now - d.
Proof. intros. unfold elapsed. cbn. lia. Qed.
Print Assumptions C30_double_continue_refuted.
Example C30_example : elapsed (timer_ops (Timer 0 0 0 false) [TReset 5; TStop 9; TContinue 20; TStop 21; TContinue 30]) 33 = 8.
Proof. reflexivity. Qed.

(** C33.  [text] is the complete formatted message. *)
Theorem C33_short : forall msg text, (length text < 1000)%nat -> ~ In (ascii_of_nat 0) text -> error_message msg (Some text) = text.
Proof.
  intros msg text L N. unfold error_message, snprintf. destruct (Z.leb_spec 1000 (Z.of_nat (length text))); [lia|].
  rewrite firstn_all2 by lia. now apply SFileProofs.until_nul_spec.
Qed.
Print Assumptions C33_short.
(** A thousand characters or more: the last one is lost. *)
Theorem C33_long_refuted : forall msg body c, (999 <= length body)%nat -> ~ In (ascii_of_nat 0) body ->
  error_message msg (Some (body ++ [c])) = body.
Proof.
  intros msg body c L N. unfold error_message, snprintf. rewrite app_length. cbn [length].
  destruct (Z.leb_spec 1000 (Z.of_nat (length body + 1))); [|lia]. rewrite Nat2Z.id. cbn [fst].
  replace (length body + 1 - 1)%nat with (length body) by lia.
  rewrite firstn_app, Nat.sub_diag, firstn_all, firstn_O, app_nil_r. now apply SFileProofs.until_nul_spec.
Qed.
Print Assumptions C33_long_refuted.
Theorem C33_encoding_error : forall msg, error_message msg None = msg.
Proof. reflexivity. Qed.
Print Assumptions C33_encoding_error.
Example C33_example : error_message [] (Some (repeat "x"%char 1500)) = repeat "x"%char 1499.
Proof. vm_compute. reflexivity. Qed.

(** C71.  Estimates after message [i] of [m], when the last block took [dt] and the one
    before it [dt1]: growing block times are extrapolated as an arithmetic progression,
    otherwise all remaining blocks are assumed to take [dt]. *)
Theorem C71_first_estimate : forall t dt i, i < 2 ->
  exists t', estimate t dt i = Ok ((p_nprint t - i) * dt, t') /\ p_dt1 t' = Some dt.
Proof.
  intros t dt i H. unfold estimate. rewrite (proj2 (Z.leb_gt 2 i)) by lia. eexists. split; reflexivity.
Qed.
Print Assumptions C71_first_estimate.
Theorem C71_growing : forall t dt dt1 i, 2 <= i <= p_nprint t -> p_dt1 t = Some dt1 -> 0 < dt1 < dt ->
  exists t', estimate t dt i = Ok (steps_sum dt (dt - dt1) (Z.to_nat (p_nprint t - i)), t') /\ p_dt1 t' = Some dt.
Proof.
  intros t dt dt1 i H E G. unfold estimate. rewrite (proj2 (Z.leb_le 2 i)) by lia. rewrite E.
  rewrite (proj2 (Z.ltb_lt 0 ((dt - dt1) * dt))) by nia.
  exists (Tracker (p_nprint t) (p_dprint t) (p_modlevel t) (p_next t) (p_index t) (Some dt)).
  split; [|reflexivity]. f_equal. f_equal.
  pose proof (gauss_formula (p_nprint t - i) ltac:(lia)) as GF.
  pose proof (steps_sum_formula dt (dt - dt1) (Z.to_nat (p_nprint t - i))) as SF. rewrite Z2Nat.id in SF by lia.
  set (g := if Z.rem (p_nprint t - i) 2 =? 0 then _ else _) in *. nia.
Qed.
Print Assumptions C71_growing.
Theorem C71_not_growing : forall t dt dt1 i, 2 <= i <= p_nprint t -> p_dt1 t = Some dt1 -> 0 <= dt <= dt1 ->
  exists t', estimate t dt i = Ok ((p_nprint t - i) * dt, t') /\ p_dt1 t' = Some dt.
Proof.
  intros t dt dt1 i H E G. unfold estimate. rewrite (proj2 (Z.leb_le 2 i)) by lia. rewrite E.
  rewrite (proj2 (Z.ltb_ge 0 ((dt - dt1) * dt))) by nia. eexists. split; reflexivity.
Qed.
Print Assumptions C71_not_growing.
(** After the last message nothing remains. *)
Theorem C71_finished : forall t dt v t', estimate t dt (p_nprint t) = Ok (v, t') -> v = 0.
Proof.
  intros t dt v t' H. unfold estimate in H. rewrite Z.sub_diag in H. cbn [Z.rem Z.eqb Z.mul Z.quot Z.add] in H.
  change (Z.rem 0 2 =? 0) with true in H. change (Z.quot 0 2) with 0 in H. rewrite ?Z.mul_0_l in H.
  destruct (2 <=? p_nprint t); [destruct (p_dt1 t)|]; try discriminate; try (injection H as <- _; reflexivity).
  destruct (0 <? _); injection H as <- _; reflexivity.
Qed.
Print Assumptions C71_finished.
(** A tracker whose first estimate is for message 2 or later (possible with two threads, see
    C27) reads a block time that was never stored. *)
Theorem C71_uninitialised_refuted : forall n m dt i, 0 <= n -> 1 <= m -> 2 <= i ->
  exists t, new_tracker n m = Ok t /\ estimate t dt i = UB.
Proof.
  intros n m dt i Hn Hm Hi. destruct (new_tracker_at n m Hn ltac:(lia)) as (t & E & _ & D). exists t. split; [exact E|].
  unfold estimate. rewrite (proj2 (Z.leb_le 2 i)) by lia. now rewrite D.
Qed.
Print Assumptions C71_uninitialised_refuted.
Theorem C71_average : forall t ti i, 0 < i <= p_nprint t -> 0 <= ti ->
  estimate_average t ti i = Ok ((p_nprint t - i) * ti / i).
Proof.
  intros t ti i H T. unfold estimate_average. rewrite (proj2 (Z.eqb_neq i 0)) by lia.
  rewrite Z.quot_div_nonneg by nia. reflexivity.
Qed.
Print Assumptions C71_average.
Example C71_example : exists t t1 t2, new_tracker 100 10 = Ok t /\ estimate t 1000 1 = Ok (9000, t1) /\
  estimate t1 1100 2 = Ok (steps_sum 1100 100 8, t2) /\ steps_sum 1100 100 8 = 12400.
Proof. eexists. eexists. eexists. split; [reflexivity|]. split; [reflexivity|]. split; vm_compute; reflexivity. Qed.
