(** Model of the progress tracker, the timer and the exception messages.
    Sources: src/General/ProgressTracker.cpp, src/General/Timer.cpp,
    include/softlib/SOFTLibException.h.  [long long int] is modelled by [Z] (no overflow). *)
From Verif Require Import Base SettingsModel SdtModel SFileModel.
From Coq Require Import ZArith.
Local Open Scope Z_scope.

(** * Progress tracker *)
(** ProgressTracker.h:24-40: the counters that decide when to print.  [p_dt1] is the
    duration of the previous block, not initialised by the constructor. *)
Record tracker : Type := Tracker
  { p_nprint : Z; p_dprint : Z; p_modlevel : Z; p_next : Z; p_index : Z; p_dt1 : option Z }.

(** ProgressTracker.cpp:66-73 [UpdateNext]. *)
Definition update_next (t : tracker) : tracker :=
  let next := if p_next t <? p_modlevel t then p_next t + (p_dprint t + 1) else p_next t + p_dprint t in
  Tracker (p_nprint t) (p_dprint t) (p_modlevel t) next (p_index t + 1) (p_dt1 t).
(** ProgressTracker.cpp:34-53, constructor; C++ division truncates. *)
Definition new_tracker (n nprint : Z) : outcome tracker :=
  if nprint =? 0 then UB
  else let dprint := Z.quot n nprint in
       Ok (update_next (Tracker nprint dprint (Z.rem n nprint * (dprint + 1)) 0 0 None)).
(** ProgressTracker.cpp:86-89, the critical section: whether to print, and the new state. *)
Definition critical (t : tracker) (i : Z) : bool * tracker :=
  if i <? p_next t then (false, t) else (true, update_next t).
(** ProgressTracker.cpp:78-101 [PrintProgress] called by a single thread: the printed
    label, if any. *)
Definition print_progress (t : tracker) (i : Z) : option Z * tracker :=
  let index := p_index t in
  let '(p, t') := critical t i in ((if p then Some index else None), t').
(** Reports in order; the result lists the items at which something is printed, with the label
    (ProgressTracker.cpp:78-101). *)
Fixpoint reports (t : tracker) (items : list Z) : list (Z * Z) * tracker :=
  match items with
  | [] => ([], t)
  | i :: r => let '(o, t1) := print_progress t i in
              let '(l, t2) := reports t1 r in
              ((match o with Some k => [(i, k)] | None => [] end) ++ l, t2)
  end.

(** ** Several threads.  Line 79 is outside the critical section. *)
(** ProgressTracker.cpp:78-101. *)
Inductive phase : Type :=
| Idle                              (* about to read nextindex for the next item *)
| HasIndex (i index : Z)            (* line 79 done, critical section not entered *)
| Printing (index : Z).             (* critical section left, line not yet printed *)
(** ProgressTracker.cpp:78-101. *)
Record thread : Type := Thread { th_todo : list Z; th_phase : phase }.
(** ProgressTracker.cpp:78-101. *)
Record world : Type := World { w_tracker : tracker; w_threads : list thread; w_printed : list Z }.

(** One step of one thread; [None] when it has nothing to do (ProgressTracker.cpp:78-101). *)
Definition thread_step (t : tracker) (th : thread) : option (tracker * thread * list Z) :=
  match th_phase th with
  | Idle => match th_todo th with
            | [] => None
            | i :: r => Some (t, Thread r (HasIndex i (p_index t)), [])
            end
  | HasIndex i index => let '(p, t') := critical t i in
                        Some (t', Thread (th_todo th) (if p then Printing index else Idle), [])
  | Printing index => Some (t, Thread (th_todo th) Idle, [index])
  end.
(** ProgressTracker.cpp:78-101. *)
Fixpoint set_nth {A} (n : nat) (x : A) (l : list A) : list A :=
  match l, n with
  | [], _ => []
  | _ :: r, O => x :: r
  | y :: r, S k => y :: set_nth k x r
  end.
(** ProgressTracker.cpp:78-101. *)
Definition world_step (w : world) (k : nat) : world :=
  match nth_error (w_threads w) k with
  | None => w
  | Some th => match thread_step (w_tracker w) th with
               | None => w
               | Some (t', th', out) => World t' (set_nth k th' (w_threads w)) (w_printed w ++ out)
               end
  end.
(** A schedule names the thread that makes each step (ProgressTracker.cpp:78-101). *)
Definition run_schedule (w : world) (sched : list nat) : world := fold_left world_step sched w.
(** ProgressTracker.cpp:34-53. *)
Definition start_world (t : tracker) (todo : list (list Z)) : world :=
  World t (map (fun l => Thread l Idle) todo) [].

(** ProgressTracker.cpp:163-198 [EstimateRemainingTimeDeterministic]; [dt] is the value of
    DiffPassedTime.  An uninitialised [dt1] is UB. *)
Definition estimate (t : tracker) (dt i : Z) : outcome (Z * tracker) :=
  let Ni := p_nprint t - i in
  let eT := Ni * dt in
  let t' := Tracker (p_nprint t) (p_dprint t) (p_modlevel t) (p_next t) (p_index t) (Some dt) in
  if 2 <=? i then
    match p_dt1 t with
    | None => UB
    | Some dt1 =>
        let d2t := dt - dt1 in
        let NNp12 := if Z.rem Ni 2 =? 0 then Z.quot Ni 2 * (Ni + 1) else Ni * Z.quot (Ni + 1) 2 in
        Ok ((if 0 <? d2t * dt then eT + NNp12 * d2t else eT), t')
    end
  else Ok (eT, t').
(** ProgressTracker.cpp:151-156 [EstimateRemainingTimeAverage]; [ti] is TotalPassedTime. *)
Definition estimate_average (t : tracker) (ti i : Z) : outcome Z :=
  if i =? 0 then UB else Ok (Z.quot ((p_nprint t - i) * ti) i).

(** * Time strings *)
(** ProgressTracker.h:14-20 [TimeUnit]. *)
Inductive tunit : Type := DAYS | HOURS | MINUTES | SECONDS | MILLISECONDS.
Definition unit_code (u : tunit) : Z :=
  match u with DAYS => 1 | HOURS => 2 | MINUTES => 3 | SECONDS => 4 | MILLISECONDS => 5 end.
Record fields : Type := Fields { f_days : Z; f_hours : Z; f_mins : Z; f_secs : Z; f_msecs : Z }.
(** ProgressTracker.cpp:247-269 [TimeString], the five numbers. *)
Definition time_fields (msec : Z) (tu : tunit) : fields :=
  let SECOND := 1000 in
  let MINUTE := 60 * SECOND in
  let HOUR := 60 * MINUTE in
  let DAY := 24 * HOUR in
  let days := if unit_code tu <=? 1 then Z.quot msec DAY else 0 in
  let hours := if unit_code tu <=? 2 then Z.quot (msec - days * DAY) HOUR else 0 in
  let mins := if unit_code tu <=? 3 then Z.quot (msec - days * DAY - hours * HOUR) MINUTE else 0 in
  let secs := if unit_code tu <=? 4 then Z.quot (msec - days * DAY - hours * HOUR - mins * MINUTE) SECOND else 0 in
  let msecs := if unit_code tu <? 5 then msec - days * DAY - hours * HOUR - mins * MINUTE - secs * SECOND else msec in
  Fields days hours mins secs msecs.

Definition cESC : ascii := ascii_of_nat 27.
(** ProgressTracker.cpp:282 and 296: the escape sequences around a number. *)
Definition color_on (color : bool) : str := if color then cESC :: str_of "[1;33m" else [].
Definition color_off (color : bool) : str := if color then cESC :: str_of "[0m" else [].
(** ProgressTracker.cpp:289-301 and the same lines for minutes and seconds. *)
Definition show_field (color force : bool) (v : Z) (unit : str) : str :=
  color_on color ++ (if ((v <? 10) && force)%bool then str_of "0" else []) ++ show_int v ++ color_off color ++ unit.
(** ProgressTracker.cpp:276-349 [FormattedTimeString]. *)
Definition format_time (f : fields) (color : bool) : str :=
  let '(o1, force) := if 0 <? f_days f then (show_int (f_days f) ++ str_of "d", true) else ([], false) in
  let '(o2, force) := if (force || (0 <? f_hours f))%bool then (show_field color force (f_hours f) (str_of "h"), true)
                      else ([], force) in
  let '(o3, force) := if (force || (0 <? f_mins f))%bool then (show_field color force (f_mins f) (str_of "m"), true)
                      else ([], force) in
  let o4 := if (force || (0 <? f_secs f))%bool then show_field color force (f_secs f) (str_of "s") else [] in
  let o5 := if (negb force && (f_secs f <? 10))%bool then
              color_on color ++
              (if 0 <? f_secs f then
                 if f_msecs f <? 10 then str_of "00" else if f_msecs f <? 100 then str_of "0" else []
               else []) ++
              show_int (f_msecs f) ++ color_off color ++ str_of "ms"
            else [] in
  o1 ++ o2 ++ o3 ++ o4 ++ o5.
Definition time_string (msec : Z) (color : bool) (tu : tunit) : str := format_time (time_fields msec tu) color.

(** * Timer *)
(** Timer.h:8-16; clock readings and durations are in nanoseconds. *)
Record timer : Type := Timer { t_tic : Z; t_toc : Z; t_offset : Z; t_stopped : bool }.
(** Timer.cpp:99-103 [Reset] (also the constructor, 20-22). *)
Definition timer_reset (t : timer) (now : Z) : timer := Timer now (t_toc t) 0 false.
(** Timer.cpp:108-111 [Stop]. *)
Definition timer_stop (t : timer) (now : Z) : timer := Timer (t_tic t) now (t_offset t) true.
(** Timer.cpp:86-94 [Continue]. *)
Definition timer_continue (t : timer) (now : Z) : timer :=
  Timer now (t_toc t) (if t_stopped t then t_offset t + (t_toc t - t_tic t) else 0) false.
(** The duration [toc-tic+offset] of GetTimeStruct (Timer.cpp:28-52). *)
Definition elapsed (t : timer) (now : Z) : Z := (if t_stopped t then t_toc t else now) - t_tic t + t_offset t.

(** Timer.h:20-29 [struct time]: the stored counts. *)
Record tstruct : Type := TStruct
  { s_days : Z; s_hours : Z; s_mins : Z; s_secs : Z; s_msecs : Z; s_usecs : Z; s_tp : Z }.
Definition ns_hour : Z := 3600000000000.
Definition ns_min : Z := 60000000000.
Definition ns_sec : Z := 1000000000.
Definition ns_ms : Z := 1000000.
Definition ns_us : Z := 1000.
(** Timer.cpp:59-81 [GetTimeStruct] for the duration [d]; duration_cast truncates, and
    the days are subtracted as if they were hours (their type is std::chrono::hours). *)
Definition time_struct (d : Z) : tstruct :=
  let days := Z.quot (Z.quot d ns_hour) 24 in
  let hours := Z.quot (d - days * ns_hour) ns_hour in
  let mins := Z.quot (d - days * ns_hour - hours * ns_hour) ns_min in
  let secs := Z.quot (d - days * ns_hour - hours * ns_hour - mins * ns_min) ns_sec in
  let ms := Z.quot (d - days * ns_hour - hours * ns_hour - mins * ns_min - secs * ns_sec) ns_ms in
  let us := Z.quot (d - days * ns_hour - hours * ns_hour - mins * ns_min - secs * ns_sec - ms * ns_ms) ns_us in
  TStruct days hours mins secs ms us (Z.quot d ns_us).
(** Timer.cpp:28-37, 43-52. *)
Definition get_milliseconds (d : Z) : Z := Z.quot (s_tp (time_struct d)) 1000.
Definition get_microseconds (d : Z) : Z := s_tp (time_struct d).
(** Timer.cpp:120-137 [ToString]. *)
Definition timer_text (t : tstruct) : str :=
  let part v (name : str) := if 0 <? v then show_int v ++ name else [] in
  part (s_days t) (str_of " days, ") ++ part (s_hours t) (str_of " hours, ") ++ part (s_mins t) (str_of " minutes, ") ++
  part (s_secs t) (str_of " seconds, ") ++ part (s_msecs t) (str_of " milliseconds, ") ++
  show_int (s_usecs t) ++ str_of " microseconds".

(** * Exception messages *)
(** C library [snprintf(buffer, size, ...)] when the complete text is [text]: the
    characters stored before the terminating NUL, and the return value.  [size] is not 0
    (SOFTLibException.h:28-35). *)
Definition snprintf (size : nat) (text : str) : str * Z := (firstn (size - 1) text, Z.of_nat (length text)).
(** SOFTLibException.h:20-36 [ConstructErrorMessage]; [text] is the complete formatted
    text, [None] an encoding error.  Assigning the buffer stops at the first NUL. *)
Definition error_message (msg : str) (text : option str) : str :=
  match text with
  | None => msg
  | Some x => let '(buf, n) := snprintf 1000 x in
              if 1000 <=? n then until_nul (fst (snprintf (Z.to_nat n) x)) else until_nul buf
  end.
