(** Vocabulary for the statements about shared arrays and momentum-space functions (C109). *)
From Coq Require Import Reals.
From Verif Require Import Base DomainModel DistributionModel DistShareModel.

Section Spec.
Variable A : Type.

(** The distribution [d] exists and points to the momentum-space functions [js]. *)
Definition points (w : world A) (d : nat) (js : list nat) : Prop :=
  exists o, nth_error (w_dists w) d = Some (Some o) /\ rd_ms o = js.

(** A call that names the momentum-space function [j] to change or delete it, or changes all
    functions of a distribution that points to it. *)
Definition touches (w : world A) (c : call A) (j : nat) : Prop :=
  match c with
  | InitM i _ _ | InitLogM i _ _ | FlipM i _ | SetLogM i _ | DeleteM i => i = j
  | InitD d _ _ _ | InitLogD d _ _ _ | FlipD d _ => exists js, points w d js /\ In j js
  | _ => False
  end.

(** A call that changes or deletes the distribution [d] itself. *)
Definition changes (c : call A) (d : nat) : Prop :=
  match c with
  | InitD e _ _ _ | InitLogD e _ _ _ | InsertM e _ _ | InsertT e _ _ _ | InsertLogT e _ _ _ _ | DeleteD e => e = d
  | _ => False
  end.

(** A call that writes to the array [b] or releases it. *)
Definition writes (c : call A) (b : nat) : Prop :=
  match c with
  | WriteArray a _ | FreeArray a => a = b
  | InitLogD _ _ g _ | InsertLogT _ _ g _ false => fst (g_f g) = b
  | _ => False
  end.

(** The arrays [g] names hold the grids [p] and [xi] and the table [f], of the sizes [g] says. *)
Definition contents (w : world A) (g : given) (p xi f : list A) : Prop :=
  length p = g_np g /\ length xi = g_nxi g /\ length f = (g_np g * g_nxi g)%nat /\
  (exists r, cells (w_heap w) (g_p g) = p ++ r) /\ (exists r, cells (w_heap w) (g_xi g) = xi ++ r) /\
  (exists r, cells (w_heap w) (g_f g) = f ++ r).

(** The arrays [g] names hold the grids [p] and [xi] and the tables [fs], one after the other. *)
Definition tables (w : world A) (g : given) (p xi : list A) (fs : list (list A)) : Prop :=
  length p = g_np g /\ length xi = g_nxi g /\ Forall (fun f => length f = (g_np g * g_nxi g)%nat) fs /\
  (exists r, cells (w_heap w) (g_p g) = p ++ r) /\ (exists r, cells (w_heap w) (g_xi g) = xi ++ r) /\
  (exists r, cells (w_heap w) (g_f g) = concat fs ++ r).

(** The momentum-space function [j] interpolates the table [f] on [p] and [xi]. *)
Definition interpolates (w : world A) (j : nat) (cubic flip log : bool) (p xi f : list A) : Prop :=
  exists a b c d m, nth_error p 0 = Some a /\ nth_error p (length p - 1) = Some b /\ nth_error xi 0 = Some c /\ nth_error xi (length xi - 1) = Some d /\
    nth_error (w_moms w) j = Some (Some m) /\ view_of m = Ok (mkView (a, b, c, d) (Some (cubic, p, xi, f)) flip log).

(** The calls that use the distribution function [d] and
    those that use the momentum-space function [j]. *)
Definition uses_dist (c : call A) (d : nat) : Prop :=
  match c with
  | InitD e _ _ _ | InitLogD e _ _ _ | InsertM e _ _ | InsertT e _ _ _ | InsertLogT e _ _ _ _ | DeleteD e | CloneD e | FlipD e _ | EvalD e _ _ _ _ => e = d
  | _ => False
  end.
Definition uses_mom (c : call A) (j : nat) : Prop :=
  match c with
  | InitM i _ _ | InitLogM i _ _ | FlipM i _ | SetLogM i _ | DeleteM i | CloneM i | EvalM i _ _ => i = j
  | _ => False
  end.

(** Every pointer of a distribution points to a function that was made. *)
Definition sound (w : world A) : Prop :=
  forall d js j, points w d js -> In j js -> (j < length (w_moms w))%nat.

End Spec.
Arguments points {A}. Arguments touches {A}. Arguments changes {A}. Arguments writes {A}. Arguments contents {A}. Arguments tables {A}. Arguments interpolates {A}. Arguments uses_dist {A}. Arguments uses_mom {A}. Arguments sound {A}.

Section Programs.
Variable A : Type.
Variables (gt : A -> A -> bool) (fit : bool -> list A -> bool) (neg : A -> bool) (lg slog : A -> A) (val : view A -> R -> R -> outcome (option R)).

(** No call of the program satisfies [P] in the world in which it is made. *)
Fixpoint never (P : world A -> call A -> Prop) (w : world A) (cs : list (call A)) : Prop :=
  match cs with
  | [] => True
  | c :: r => ~ P w c /\ match step gt fit neg lg slog val w c with Ok (w', _) => never P w' r | _ => True end
  end.

End Programs.
Arguments never {A}.

(** * Real numbers *)
(** Comparison, sign and logarithm of real numbers. *)
Definition rgt (x y : R) : bool := Rltb y x.
Definition rneg (x : R) : bool := Rltb x 0.

(** An interpolation that is right for constant tables: inside its grid such a function has the
    value of the table, or its exponential if it is logarithmic, and zero outside.  A flipped
    function is looked up at the opposite pitch. *)
Definition flat (val : view R -> R -> R -> outcome (option R)) : Prop :=
  forall a b c d cubic ps xis y n fl lg p xi,
    val (mkView (a, b, c, d) (Some (cubic, ps, xis, repeat y (S n))) fl lg) p xi =
    Ok (Some (if (Rleb a p && Rleb p b && Rleb c (if fl then - xi else xi) && Rleb (if fl then - xi else xi) d)%bool
              then if lg then exp y else y else 0))%R.

(** Arrays for a 2 by 2 table with the value [y] on the unit square: blocks 0 (both grids) and 1. *)
Definition unit_arrays (y : R) : list (call R) := [NewArray [0; 1]; NewArray [y; y; y; y]]%R.
(** The table in those arrays. *)
Definition unit_table : given := mkGiven 2 2 (0, 0)%nat (0, 0)%nat (1, 0)%nat.
