(** Vocabulary for integer reads. *)
From Verif Require Import Base SdtModel SFileModel.
From Coq Require Import ZArith QArith Qround.
Local Open Scope Z_scope.

(** The integer next to [q] on the side of zero. *)
Definition toward_zero (q : Q) (z : Z) : Prop := ((0 <= q)%Q -> z = Qfloor q) /\ ((q <= 0)%Q -> z = Qceiling q).
(** Range of the results. *)
Definition int64 (z : Z) : Prop := - 2 ^ 63 <= z < 2 ^ 63.
(** The stored type for elements of type [t]. *)
Definition stored (t : ityp) : htype := match t with I32 => HI32 | I64 => HI64 | U32 => HU32 | U64 => HU64 end.
(** [n] elements arranged as [dims]. *)
Definition arranged (dims : list Z) (n : nat) : Prop :=
  (dims = [Z.of_nat n]) \/ exists r c, dims = [r; c] /\ 0 <= r /\ 0 <= c /\ r * c = Z.of_nat n.
(** Rows and columns reported for a data set. *)
Definition shape (dims : list Z) (r c : Z) : Prop := dims = [r; c] \/ (r = 1 /\ dims = [c]).
(** The integers a data set stands for: its elements, or the elements rounded toward zero. *)
Definition int_values (d : dataset) (vals : list Z) : Prop :=
  Forall int64 vals /\
  ((exists t, d_type d = stored t /\ d_data d = map inject_Z vals) \/ (d_type d = HDouble /\ Forall2 toward_zero (d_data d) vals)).
(** [rows] is [vals] cut into [r] rows of [c] elements. *)
Definition rows_of (r c : Z) (vals : list Z) (rows : list (list Z)) : Prop :=
  Z.of_nat (length rows) = r /\ (forall row, In row rows -> Z.of_nat (length row) = c) /\ concat rows = vals.
