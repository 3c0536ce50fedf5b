(** Model of what the progress tracker prints (one thread).
    Sources: src/General/ProgressTracker.cpp:34-53, 78-143, 205-222, src/General/Timer.cpp:20-22, 99-103.
    [clk i] is the [i]-th value (in nanoseconds) the program reads from the clock.  The
    clock of the library may be set back, so nothing is assumed about the values. *)
From Verif Require Import Base SettingsModel SdtModel SFileModel TimeModel.
From Coq Require Import ZArith.
Local Open Scope Z_scope.

(** ProgressTracker.h:22-46: the counters, the two timers, the two options, and the number
    of values read from the clock so far. *)
Record progress : Type := Progress
  { g_tracker : tracker; g_start : timer; g_last : timer; g_colors : bool; g_estimate : bool; g_reads : nat }.

(** [new Timer()] (Timer.cpp:20-22). *)
Definition new_timer (now : Z) : timer := timer_reset (Timer 0 0 0 false) now.
(** ProgressTracker.cpp:34-53, constructor. *)
Definition new_progress (clk : nat -> Z) (n nprint : Z) (colors est : bool) : outcome progress :=
  obind (new_tracker n nprint) (fun t =>
    Ok (Progress t (new_timer (clk 0%nat)) (new_timer (clk 1%nat)) colors est 2)).

(** ProgressTracker.cpp:217-222 [PassedTime]; duration_cast truncates. *)
Definition passed_time (tim : timer) (now : Z) : Z := Z.quot (now - t_tic tim) ns_ms.

(** The printf calls (ProgressTracker.cpp:118-142); %lld of an integer, %s of a text. *)
Definition progress_text (colors est : bool) (index nprint : Z) (absolute relative remaining totalrem : str) : str :=
  if colors then
    if est then
      cESC :: str_of "[1;32mPROGRESS" ++ cESC :: str_of "[0m (" ++ show_int index ++ str_of "/" ++ show_int nprint ++
      str_of ") :: " ++ absolute ++ str_of " / " ++ relative ++ str_of " passed, " ++ remaining ++
      str_of " remaining (" ++ totalrem ++ str_of " total)" ++ [cNL]
    else
      cESC :: str_of "[1;32mPROGRESS" ++ cESC :: str_of "[0m (" ++ show_int index ++ str_of "/" ++ show_int nprint ++
      str_of ") :: " ++ absolute ++ str_of " / " ++ relative ++ str_of " passed" ++ [cNL]
  else
    if est then
      str_of "PROGRESS (" ++ show_int index ++ str_of "/" ++ show_int nprint ++
      str_of ") :: " ++ absolute ++ str_of " / " ++ relative ++ str_of " passed, " ++ remaining ++
      str_of " remaining (" ++ totalrem ++ str_of " total)" ++ [cNL]
    else
      str_of "PROGRESS (" ++ show_int index ++ str_of "/" ++ show_int nprint ++
      str_of ") :: " ++ absolute ++ str_of " / " ++ relative ++ str_of " passed" ++ [cNL].

(** ProgressTracker.cpp:105-143 [PrintProgressLines].  Copying [dt1] to [dt2] (194) has no
    effect on anything that is used and is left out. *)
Definition print_lines (clk : nat -> Z) (g : progress) (index : Z) : outcome (str * progress) :=
  let n := g_reads g in
  let totalpassed := passed_time (g_start g) (clk n) in
  let absolute := time_string totalpassed (g_colors g) HOURS in
  let relative := time_string (passed_time (g_last g) (clk (S n))) (g_colors g) HOURS in
  if g_estimate g then
    obind (estimate (g_tracker g) (passed_time (g_last g) (clk (S (S n)))) index) (fun '(est, t) =>
      Ok (progress_text (g_colors g) true index (p_nprint t) absolute relative
            (time_string est (g_colors g) HOURS) (time_string (est + totalpassed) (g_colors g) HOURS),
          Progress t (g_start g) (g_last g) (g_colors g) (g_estimate g) (S (S (S n)))))
  else
    Ok (progress_text (g_colors g) false index (p_nprint (g_tracker g)) absolute relative [] [],
        Progress (g_tracker g) (g_start g) (g_last g) (g_colors g) (g_estimate g) (S (S n))).

(** ProgressTracker.cpp:78-101 [PrintProgress]: the line printed, if any. *)
Definition report (clk : nat -> Z) (g : progress) (i : Z) : outcome (option str * progress) :=
  let index := p_index (g_tracker g) in
  let '(p, t) := critical (g_tracker g) i in
  let g1 := Progress t (g_start g) (g_last g) (g_colors g) (g_estimate g) (g_reads g) in
  if p then
    obind (print_lines clk g1 index) (fun '(line, g2) =>
      Ok (Some line, Progress (g_tracker g2) (g_start g2) (timer_reset (g_last g2) (clk (g_reads g2)))
                              (g_colors g2) (g_estimate g2) (S (g_reads g2))))
  else Ok (None, g1).

(** A sequence of reports; the lines printed (ProgressTracker.cpp:78-101). *)
Fixpoint report_all (clk : nat -> Z) (g : progress) (items : list Z) : outcome (list str * progress) :=
  match items with
  | [] => Ok ([], g)
  | i :: r =>
      obind (report clk g i) (fun '(o, g1) =>
        obind (report_all clk g1 r) (fun '(l, g2) =>
          Ok (match o with Some x => x :: l | None => l end, g2)))
  end.
