(** Model of which arrays and momentum-space functions numeric distribution functions share.
    src/DistributionFunction/NumericMomentumSpaceDistributionFunction.cpp and
    src/DistributionFunction/NumericDistributionFunction.cpp, with their headers.

    Arrays are blocks of memory holding numbers of type [A]; an address is never used again after
    the block has been released.  Momentum-space functions are known by their place in a list, and
    a distribution function holds places (pointers), not functions.  The radial grid is the one of
    DistributionModel.v.  What [Eval] of a momentum-space function computes from its fields is
    C57's subject; here it is any function [val] of the fields it reads.  Grids
    that the GSL does not accept (any test [fit]; C57 is about the real one) end the program.  Memory that is lost without any pointer to it is left out, and the product np*nxi
    is taken to fit. *)
From Coq Require Import Reals.
From Verif Require Import Base DomainModel DistributionModel.

Section Share.
Variable A : Type.
(** Comparison of numbers (NumericMomentumSpaceDistributionFunction.cpp 80, 83). *)
Variable gt : A -> A -> bool.
(** Does the GSL accept a grid, for cubic or linear interpolation
    (NumericMomentumSpaceDistributionFunction.cpp 89-97)? *)
Variable fit : bool -> list A -> bool.
(** Is a number negative (NumericMomentumSpaceDistributionFunction.cpp 123)? *)
Variable neg : A -> bool.
(** [log] (NumericMomentumSpaceDistributionFunction.cpp 125). *)
Variable lg : A -> A.
(** [log], or minus infinity (NumericDistributionFunction.cpp 204-209, 288-293). *)
Variable slog : A -> A.

(** Blocks; None once released (NumericMomentumSpaceDistributionFunction.cpp 120). *)
Definition heap := list (option (list A)).

(** A pointer into a block: which one, and where (NumericDistributionFunction.cpp 163). *)
Definition ptr : Type := (nat * nat)%type.

(** The numbers from a pointer to the end of its block; none if it has been released
    (NumericMomentumSpaceDistributionFunction.cpp 75-78). *)
Definition cells (h : heap) (q : ptr) : list A :=
  match nth_error h (fst q) with Some (Some l) => skipn (snd q) l | _ => [] end.

(** Reading [n] numbers (NumericMomentumSpaceDistributionFunction.cpp 75-78, 97). *)
Definition read (h : heap) (q : ptr) (n : nat) : outcome (list A) :=
  if (length (cells h q) <? n)%nat then UB else Ok (firstn n (cells h q)).

(** Replacing an element of a list (NumericDistributionFunction.cpp 206, 208). *)
Fixpoint put_at {T : Type} (l : list T) (i : nat) (x : T) : list T :=
  match l, i with
  | [], _ => []
  | _ :: r, O => x :: r
  | y :: r, S i' => y :: put_at r i' x
  end.

(** Writing numbers from a pointer on (NumericDistributionFunction.cpp 204-209, 288-293). *)
Definition write (h : heap) (q : ptr) (v : list A) : heap :=
  match nth_error h (fst q) with
  | Some (Some l) => put_at h (fst q) (Some (firstn (snd q) l ++ v ++ skipn (snd q + length v) l))
  | _ => h
  end.

(** The arguments of [Initialize] that are kept: sizes and pointers
    (NumericMomentumSpaceDistributionFunction.cpp 69-73). *)
Record given : Type := mkGiven { g_np : nat; g_nxi : nat; g_p : ptr; g_xi : ptr; g_f : ptr }.

(** A momentum-space function (NumericMomentumSpaceDistributionFunction.h 21-37): what it was
    given, pmin, pmax, ximin and ximax, what its spline copied (interpolation method, grids,
    table), and the flags.  None: not set. *)
Record mom : Type := mkMom
  { m_given : option given;
    m_range : option (A * A * A * A);
    m_spline : option (bool * list A * list A * list A);
    m_flip : bool;
    m_log : bool;
    m_cubic : bool }.

(** NumericMomentumSpaceDistributionFunction.h 21-37. *)
Definition new_mom : mom := mkMom None None None false false false.

(** NumericMomentumSpaceDistributionFunction.cpp 63-98 [Initialize].  The object after the call,
    and whether it returned (false: it threw).  The flags are not touched; method 0 is the linear
    one. *)
Definition initialize (h : heap) (m : mom) (g : given) (it : Z) : outcome (mom * bool) :=
  obind (read h (g_p g) (g_np g)) (fun p => obind (read h (g_xi g) (g_nxi g)) (fun xi =>
  obind (dget p 0) (fun pmin => obind (dget p (g_np g - 1)) (fun pmax =>
  obind (dget xi 0) (fun ximin => obind (dget xi (g_nxi g - 1)) (fun ximax =>
  let range := Some (pmin, pmax, ximin, ximax) in
  if (gt pmin pmax || gt ximin ximax)%bool
  then Ok (mkMom (Some g) range (m_spline m) (m_flip m) (m_log m) (m_cubic m), false)
  else let c := negb (it =? 0)%Z in
       if negb (fit c p && fit c xi) then UB else
       obind (read h (g_f g) (g_np g * g_nxi g)) (fun f =>
       Ok (mkMom (Some g) range (Some (c, p, xi, f)) (m_flip m) (m_log m) c, true)))))))).

(** NumericMomentumSpaceDistributionFunction.h 53, 55. *)
Definition set_log (b : bool) (m : mom) : mom := mkMom (m_given m) (m_range m) (m_spline m) (m_flip m) b (m_cubic m).
(** NumericMomentumSpaceDistributionFunction.h 55 [FlipPitchSign]. *)
Definition set_flip (b : bool) (m : mom) : mom := mkMom (m_given m) (m_range m) (m_spline m) b (m_log m) (m_cubic m).

(** NumericMomentumSpaceDistributionFunction.cpp 114-130 [InitializeLog]: the logarithms go to a
    new block. *)
Definition initialize_log (h : heap) (m : mom) (g : given) (it : Z) : outcome (heap * mom * bool) :=
  let f := firstn (g_np g * g_nxi g) (cells h (g_f g)) in
  if existsb neg f then Ok (h, m, false)
  else if (length f <? g_np g * g_nxi g)%nat then UB
  else let h' := h ++ [Some (map lg f)] in
       obind (initialize h' (set_log true m) (mkGiven (g_np g) (g_nxi g) (g_p g) (g_xi g) (length h, O)) it) (fun r =>
       Ok (h', fst r, snd r)).

(** NumericMomentumSpaceDistributionFunction.cpp 136-142 [MinClone]; the second component is
    false if it threw.  A function that was never given anything has null pointers. *)
Definition clone_mom (h : heap) (m : mom) : outcome (mom * bool) :=
  match m_given m with
  | None => UB
  | Some g => obind (initialize h new_mom g (if m_cubic m then 1 else 0)%Z) (fun r => Ok (set_flip (m_flip m) (fst r), snd r))
  end.

(** Memory, momentum-space functions and distribution functions; None once deleted (there are
    no destructors: NumericMomentumSpaceDistributionFunction.h 20-63,
    NumericDistributionFunction.h 20-91). *)
Record world : Type := mkWorld
  { w_heap : heap;
    w_moms : list (option mom);
    w_dists : list (option (radial nat)) }.

(** A caller: arrays are made, overwritten and released; momentum-space functions are made,
    initialised (NumericMomentumSpaceDistributionFunction.cpp 63-130), cloned (136-142), flipped
    and marked logarithmic (NumericMomentumSpaceDistributionFunction.h 53-55), deleted and
    evaluated (26-49); distribution functions are made, initialised
    (NumericDistributionFunction.cpp 130-215; [InitLogD] is the logarithmic one that overwrites
    the table, its default), get momentum-space functions or tables (231-302),
    are cloned (308-318), flipped (NumericDistributionFunction.h 78-82), deleted and evaluated
    (28-72). *)
Inductive call : Type :=
| NewArray (l : list A)
| WriteArray (b : nat) (l : list A)
| FreeArray (b : nat)
| NewM
| InitM (j : nat) (g : given) (it : Z)
| InitLogM (j : nat) (g : given) (it : Z)
| CloneM (j : nat)
| FlipM (j : nat) (v : bool)
| SetLogM (j : nat) (v : bool)
| DeleteM (j : nat)
| EvalM (j : nat) (p xi : R)
| NewD
| InitD (d : nat) (rs : list R) (g : given) (it : Z)
| InitLogD (d : nat) (rs : list R) (g : given) (it : Z)
| InsertM (d : nat) (r : R) (j : nat)
| InsertT (d : nat) (r : R) (g : given) (it : Z)
| InsertLogT (d : nat) (r : R) (g : given) (it : Z) (alloc : bool)
| CloneD (d : nat)
| FlipD (d : nat) (v : bool)
| DeleteD (d : nat)
| EvalD (d : nat) (r p xi shift : R).

(** What a call returns (NumericDistributionFunction.cpp 28-318): nothing, an exception, a new
    array, momentum-space or distribution function, the index of an inserted function, or a
    value. *)
Inductive result : Type :=
| RUnit
| RThrow
| RArr (b : nat)
| RMom (j : nat)
| RDist (d : nat)
| RIndex (i : Z)
| RVal (v : option R).

(** Use of an object that is there (NumericMomentumSpaceDistributionFunction.cpp 26-142). *)
Definition mom_at (ms : list (option mom)) (j : nat) : outcome mom :=
  match nth_error ms j with Some (Some m) => Ok m | _ => UB end.
(** NumericDistributionFunction.cpp 28-318. *)
Definition dist_at (w : world) (d : nat) : outcome (radial nat) :=
  match nth_error (w_dists w) d with Some (Some o) => Ok o | _ => UB end.

(** What [Eval] of a momentum-space function reads
    (NumericMomentumSpaceDistributionFunction.cpp 26-49). *)
Record view : Type := mkView
  { v_range : A * A * A * A; v_spline : option (bool * list A * list A * list A); v_flip : bool; v_log : bool }.
(** NumericMomentumSpaceDistributionFunction.cpp 28: the ranges are read first. *)
Definition view_of (m : mom) : outcome view :=
  match m_range m with Some r => Ok (mkView r (m_spline m) (m_flip m) (m_log m)) | None => UB end.

(** [Eval] of a momentum-space function as a function of what it reads
    (NumericMomentumSpaceDistributionFunction.cpp 26-49). *)
Variable val : view -> R -> R -> outcome (option R).

(** NumericMomentumSpaceDistributionFunction.cpp 26-49, through a pointer. *)
Definition eval_mom (ms : list (option mom)) (j : nat) (p xi : R) : outcome (option R) :=
  obind (mom_at ms j) (fun m => obind (view_of m) (fun v => val v p xi)).

(** NumericDistributionFunction.h 78-82: every function the distribution has is flipped. *)
Fixpoint flip_all (ms : list (option mom)) (js : list nat) (v : bool) : outcome (list (option mom)) :=
  match js with
  | [] => Ok ms
  | j :: r => obind (mom_at ms j) (fun m => flip_all (put_at ms j (Some (set_flip v m))) r v)
  end.

(** NumericDistributionFunction.cpp 214-215: the first [n] functions the distribution has. *)
Fixpoint log_all (ms : list (option mom)) (js : list nat) : outcome (list (option mom)) :=
  match js with
  | [] => Ok ms
  | j :: r => obind (mom_at ms j) (fun m => log_all (put_at ms j (Some (set_log true m))) r)
  end.

(** NumericDistributionFunction.cpp 311-315: clones of the functions at the radii [rs], the
    [i]-th of which is next.  None: a clone threw. *)
Fixpoint clone_all (h : heap) (ms : list (option mom)) (o : radial nat) (rs : list R) (i : nat) (df : radial nat) : outcome (option (list (option mom) * radial nat)) :=
  match rs with
  | [] => Ok (Some (ms, df))
  | x :: rest =>
      obind (dget (rd_ms o) i) (fun j => obind (mom_at ms j) (fun m => obind (clone_mom h m) (fun c =>
      if snd c then obind (rd_insert df x (length ms)) (fun r => clone_all h (ms ++ [Some (fst c)]) o rest (S i) (fst r))
      else Ok None)))
  end.

(** NumericDistributionFunction.cpp 141-147: the radii that have been copied, and whether all
    were in order. *)
Fixpoint push_radii (asc : bool) (a : R) (l : list R) : list R * bool :=
  match l with
  | [] => ([], true)
  | b :: r => if (if asc then Rleb b a else Rleb a b) then ([], false)
              else let (l', ok) := push_radii asc b r in (b :: l', ok)
  end.

(** The table of radius [i] (NumericDistributionFunction.cpp 163). *)
Definition part (g : given) (i : nat) : given :=
  mkGiven (g_np g) (g_nxi g) (g_p g) (g_xi g) (fst (g_f g), (snd (g_f g) + i * (g_np g * g_nxi g))%nat).

(** NumericDistributionFunction.cpp 159-166: a new function is appended, and the [i]-th of all
    is initialised.  The last component: did it return? *)
Fixpoint init_all (h : heap) (ms : list (option mom)) (js : list nat) (g : given) (it : Z) (k i : nat) : outcome (list (option mom) * list nat * bool) :=
  match k with
  | O => Ok (ms, js, true)
  | S k' =>
      let ms1 := ms ++ [Some new_mom] in
      let js1 := js ++ [length ms] in
      obind (dget js1 i) (fun j => obind (mom_at ms1 j) (fun m => obind (initialize h m (part g i) it) (fun r =>
      let ms2 := put_at ms1 j (Some (fst r)) in
      if snd r then init_all h ms2 js1 g it k' (S i) else Ok (ms2, js1, false))))
  end.

(** NumericDistributionFunction.cpp 130-167 [Initialize] of the distribution [o]. *)
Definition init_dist (h : heap) (ms : list (option mom)) (o : radial nat) (rs : list R) (g : given) (it : Z) : outcome (list (option mom) * radial nat * bool) :=
  let asc := match rs with a :: b :: _ :: _ => Rleb a b | _ => true end in
  let (new, ok) := match rs with a :: l => push_radii asc a l | [] => ([], true) end in
  if ok then
    obind (dget rs 0) (fun lo => obind (dget rs (length rs - 1)) (fun hi =>
    obind (init_all h ms (rd_ms o) g it (length rs) 0) (fun r =>
    Ok (fst (fst r), Radial (rd_r o ++ new) (snd (fst r)) (Some (if Rltb hi lo then (hi, lo) else (lo, hi))) (rd_extra o), snd r))))
  else Ok (ms, Radial (rd_r o ++ new) (rd_ms o) (rd_lim o) (rd_extra o), false).

(** The result of a call that may have thrown (NumericDistributionFunction.cpp 130-302). *)
Definition done (ok : bool) (r : result) : result := if ok then r else RThrow.

(** NumericDistributionFunction.cpp 253-265: a table is inserted as a new function. *)
Definition insert_table (w : world) (d : nat) (o : radial nat) (x : R) (g : given) (it : Z) : outcome (world * option Z) :=
  let n := length (w_moms w) in
  obind (rd_insert o x n) (fun r => obind (initialize (w_heap w) new_mom g it) (fun c =>
  Ok (mkWorld (w_heap w) (w_moms w ++ [Some (fst c)]) (put_at (w_dists w) d (Some (fst r))),
      if snd c then Some (snd r) else None))).

(** One call (NumericMomentumSpaceDistributionFunction.cpp 26-142,
    NumericDistributionFunction.cpp 28-318).  Logarithmic insertion overwrites the table, or, with
    [alloc], fills a block that is then lost (282-293); the table that is inserted is the
    caller's (295-297). *)
Definition step (w : world) (c : call) : outcome (world * result) :=
  let h := w_heap w in
  let ms := w_moms w in
  let ds := w_dists w in
  match c with
  | NewArray l => Ok (mkWorld (h ++ [Some l]) ms ds, RArr (length h))
  | WriteArray b l => match nth_error h b with
                      | Some (Some l0) => if (length l =? length l0)%nat then Ok (mkWorld (put_at h b (Some l)) ms ds, RUnit) else UB
                      | _ => UB
                      end
  | FreeArray b => match nth_error h b with
                   | Some (Some _) => Ok (mkWorld (put_at h b None) ms ds, RUnit)
                   | _ => UB
                   end
  | NewM => Ok (mkWorld h (ms ++ [Some new_mom]) ds, RMom (length ms))
  | InitM j g it => obind (mom_at ms j) (fun m => obind (initialize h m g it) (fun r =>
      Ok (mkWorld h (put_at ms j (Some (fst r))) ds, done (snd r) RUnit)))
  | InitLogM j g it => obind (mom_at ms j) (fun m => obind (initialize_log h m g it) (fun r =>
      Ok (mkWorld (fst (fst r)) (put_at ms j (Some (snd (fst r)))) ds, done (snd r) RUnit)))
  | CloneM j => obind (mom_at ms j) (fun m => obind (clone_mom h m) (fun r =>
      Ok (if snd r then (mkWorld h (ms ++ [Some (fst r)]) ds, RMom (length ms)) else (w, RThrow))))
  | FlipM j v => obind (mom_at ms j) (fun m => Ok (mkWorld h (put_at ms j (Some (set_flip v m))) ds, RUnit))
  | SetLogM j v => obind (mom_at ms j) (fun m => Ok (mkWorld h (put_at ms j (Some (set_log v m))) ds, RUnit))
  | DeleteM j => obind (mom_at ms j) (fun _ => Ok (mkWorld h (put_at ms j None) ds, RUnit))
  | EvalM j p xi => obind (eval_mom ms j p xi) (fun v => Ok (w, RVal v))
  | NewD => Ok (mkWorld h ms (ds ++ [Some rd_new]), RDist (length ds))
  | InitD d rs g it => obind (dist_at w d) (fun o => obind (init_dist h ms o rs g it) (fun r =>
      Ok (mkWorld h (fst (fst r)) (put_at ds d (Some (snd (fst r)))), done (snd r) RUnit)))
  | InitLogD d rs g it => obind (dist_at w d) (fun o =>
      obind (read h (g_f g) (length rs * g_np g * g_nxi g)) (fun f =>
      let h' := write h (g_f g) (map slog f) in
      obind (init_dist h' ms o rs g it) (fun r =>
      if snd r
      then obind (log_all (fst (fst r)) (firstn (length rs) (rd_ms (snd (fst r))))) (fun ms' =>
           Ok (mkWorld h' ms' (put_at ds d (Some (snd (fst r)))), RUnit))
      else Ok (mkWorld h' (fst (fst r)) (put_at ds d (Some (snd (fst r)))), RThrow))))
  | InsertM d x j => obind (dist_at w d) (fun o => obind (mom_at ms j) (fun _ => obind (rd_insert o x j) (fun r =>
      Ok (mkWorld h ms (put_at ds d (Some (fst r))), RIndex (snd r)))))
  | InsertT d x g it => obind (dist_at w d) (fun o => obind (insert_table w d o x g it) (fun r =>
      Ok (fst r, match snd r with Some i => RIndex i | None => RThrow end)))
  | InsertLogT d x g it alloc => obind (dist_at w d) (fun o =>
      obind (read h (g_f g) (g_np g * g_nxi g)) (fun f =>
      let h' := if alloc then h else write h (g_f g) (map slog f) in
      obind (insert_table (mkWorld h' ms ds) d o x g it) (fun r =>
      match snd r with
      | None => Ok (fst r, RThrow)
      | Some i => obind (mom_at (w_moms (fst r)) (length ms)) (fun m =>
                  Ok (mkWorld h' (put_at (w_moms (fst r)) (length ms) (Some (set_log true m))) (w_dists (fst r)), RIndex i))
      end)))
  | CloneD d => obind (dist_at w d) (fun o => obind (clone_all h ms o (rd_r o) 0 rd_new) (fun r =>
      match r with
      | Some (ms', o') => Ok (mkWorld h ms' (ds ++ [Some o']), RDist (length ds))
      | None => Ok (w, RThrow)
      end))
  | FlipD d v => obind (dist_at w d) (fun o => obind (flip_all ms (rd_ms o) v) (fun ms' => Ok (mkWorld h ms' ds, RUnit)))
  | DeleteD d => obind (dist_at w d) (fun _ => Ok (mkWorld h ms (put_at ds d None), RUnit))
  | EvalD d r p xi s => obind (dist_at w d) (fun o => obind (rd_eval (eval_mom ms) o r p xi s) (fun v => Ok (w, RVal v)))
  end.

(** A program; it goes on after an exception (NumericDistributionFunction.cpp 28-318). *)
Fixpoint run (w : world) (cs : list call) : outcome world :=
  match cs with [] => Ok w | c :: r => obind (step w c) (fun p => run (fst p) r) end.

(** Nothing made yet (NumericDistributionFunction.cpp 28-318). *)
Definition start : world := mkWorld [] [] [].

End Share.
Arguments cells {A}. Arguments read {A}. Arguments write {A}.
Arguments mkMom {A}. Arguments m_given {A}. Arguments m_range {A}. Arguments m_spline {A}. Arguments m_flip {A}.
Arguments m_log {A}. Arguments m_cubic {A}. Arguments new_mom {A}. Arguments initialize {A}. Arguments set_log {A}.
Arguments set_flip {A}. Arguments initialize_log {A}. Arguments clone_mom {A}. Arguments mkWorld {A}. Arguments w_heap {A}.
Arguments w_moms {A}. Arguments w_dists {A}. Arguments NewArray {A}. Arguments WriteArray {A}. Arguments FreeArray {A}.
Arguments NewM {A}. Arguments InitM {A}. Arguments InitLogM {A}. Arguments CloneM {A}. Arguments FlipM {A}. Arguments SetLogM {A}.
Arguments DeleteM {A}. Arguments EvalM {A}. Arguments NewD {A}. Arguments InitD {A}. Arguments InitLogD {A}. Arguments InsertM {A}.
Arguments InsertT {A}. Arguments InsertLogT {A}. Arguments CloneD {A}. Arguments FlipD {A}. Arguments DeleteD {A}. Arguments EvalD {A}.
Arguments mom_at {A}. Arguments dist_at {A}. Arguments mkView {A}. Arguments v_range {A}. Arguments v_spline {A}. Arguments v_flip {A}.
Arguments v_log {A}. Arguments view_of {A}. Arguments eval_mom {A}. Arguments flip_all {A}. Arguments log_all {A}.
Arguments clone_all {A}. Arguments init_all {A}. Arguments init_dist {A}. Arguments insert_table {A}. Arguments step {A}. Arguments run {A}.
Arguments start {A}.
