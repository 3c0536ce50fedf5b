(** Vocabulary for the lines printed by the progress tracker. *)
From Verif Require Import Base SettingsModel SdtModel SFileModel TimeModel TimeProofs.
From Coq Require Import ZArith.
Local Open Scope Z_scope.

(** A duration in milliseconds as numbers with units. *)
Definition clock_parts (ms : Z) : list (str * str) :=
  if ms <? 0 then [(show_int (Z.rem ms 1000), str_of "ms")]
  else if ms <? 1000 then [(show_int ms, str_of "ms")]
  else if ms <? 10000 then [(show_int (ms / 1000), str_of "s"); (pad3 (ms mod 1000), str_of "ms")]
  else if ms <? 60000 then [(show_int (ms / 1000), str_of "s")]
  else if ms <? 3600000 then [(show_int (ms / 60000), str_of "m"); (pad2 (ms mod 60000 / 1000), str_of "s")]
  else [(show_int (ms / 3600000), str_of "h"); (pad2 (ms mod 3600000 / 60000), str_of "m"); (pad2 (ms mod 60000 / 1000), str_of "s")].
(** Text in a colour of the terminal. *)
Definition painted (colors : bool) (code : str) (s : str) : str :=
  if colors then ascii_of_nat 27 :: str_of "[1;" ++ code ++ str_of "m" ++ s ++ ascii_of_nat 27 :: str_of "[0m" else s.
(** Numbers are yellow. *)
Definition clock (colors : bool) (ms : Z) : str :=
  flat_map (fun p => painted colors (str_of "33") (fst p) ++ snd p) (clock_parts ms).

(** Line number [k] of [total]: the time since the beginning, the time since the line
    before and, if wanted, the expected remaining time. *)
Definition progress_line (colors : bool) (k total ab rel : Z) (remaining : option Z) : str :=
  painted colors (str_of "32") (str_of "PROGRESS") ++ str_of " (" ++ show_int k ++ str_of "/" ++ show_int total ++ str_of ") :: " ++
  clock colors ab ++ str_of " / " ++ clock colors rel ++ str_of " passed" ++
  match remaining with
  | Some e => str_of ", " ++ clock colors e ++ str_of " remaining (" ++ clock colors (e + ab) ++ str_of " total)"
  | None => []
  end ++ [ascii_of_nat 10].

(** Readings of the clock: two at the beginning; per line the time since the beginning, the
    time since the line before, with estimates that time again, and the new beginning. *)
Definition per_line (est : bool) : nat := if est then 4%nat else 3%nat.
Definition first_reading (est : bool) (k : nat) : nat := (2 + per_line est * (k - 1))%nat.
(** Milliseconds, rounded toward zero. *)
Definition ms_between (clk : nat -> Z) (i j : nat) : Z := Z.quot (clk j - clk i) 1000000.
Definition since_start (clk : nat -> Z) (est : bool) (k : nat) : Z := ms_between clk 0 (first_reading est k).
Definition since_line (clk : nat -> Z) (est : bool) (k : nat) : Z :=
  ms_between clk (first_reading est k - 1) (first_reading est k + 1).
(** The length of the block before line [k] as the estimate sees it. *)
Definition block (clk : nat -> Z) (k : nat) : Z := ms_between clk (first_reading true k - 1) (first_reading true k + 2).
(** The remaining blocks take as long as the last one; if that took longer than the one
    before, each takes longer again by the same amount. *)
Definition expected (clk : nat -> Z) (total : Z) (k : nat) : Z :=
  let left := total - Z.of_nat k in
  let growth := if Nat.leb k 1 then 0 else block clk k - block clk (k - 1) in
  left * block clk k + (if 0 <? growth * block clk k then left * (left + 1) / 2 * growth else 0).

(** Line number [k]. *)
Definition line_at (clk : nat -> Z) (colors est : bool) (total : Z) (k : nat) : str :=
  progress_line colors (Z.of_nat k) total (since_start clk est k) (since_line clk est k)
    (if est then Some (expected clk total k) else None).

(** A clock that is not set back. *)
Definition forward (clk : nat -> Z) : Prop := forall i, clk i <= clk (S i).
(** How many of the lines from [k] on are printed when these items are reported: line [k] is
    printed at the first item that is not below k/total of the [n] items (rounded up for
    the first blocks, see C26). *)
Fixpoint lines_due (n total k : Z) (items : list Z) : nat :=
  match items with
  | [] => O
  | i :: r => if k * (n / total) + Z.min k (n mod total) <=? i then S (lines_due n total (k + 1) r) else lines_due n total k r
  end.
