(** What is expected of the loaders of numeric distribution functions. *)
From Coq Require Import Reals.
From Verif Require Import Base NumericModel NumericSpec DistributionModel DistributionSpec CodeModel CodeSpec LoaderModel.
Local Open Scope R_scope.

(** A grid with the limits [a] and [b] in order. *)
Definition spans (l : list R) (a b : R) : Prop := nth_error l 0 = Some a /\ nth_error l (length l - 1) = Some b /\ a <= b.
(** The momentum distribution [m] has the value [g i j] at momentum i and pitch j or, if [lg],
    its logarithm, minus infinity where [g i j] is not positive. *)
Definition holds_table (lg : bool) (it : Z) (m : msdf) (p xi : list R) (g : nat -> nat -> R) : Prop :=
  ms_p m = p /\ ms_xi m = xi /\ ms_log m = lg /\ ms_flip m = false /\ ms_cubic m = negb (it =? 0)%Z /\
  spans p (ms_pmin m) (ms_pmax m) /\ spans xi (ms_ximin m) (ms_ximax m) /\
  tabulates (ms_f m) (length p) (length xi) (fun i j => if lg then safe_log (g i j) else Fin (g i j)).
(** The distribution [o] has the radii [rs], in order, with the table [g k] on radius k. *)
Definition distribution (lg : bool) (it : Z) (o : ndf) (rs : list R) (p xi : nat -> list R) (g : nat -> nat -> nat -> R) : Prop :=
  rd_r o = rs /\ length (rd_ms o) = length rs /\ limits o /\ rd_extra o = true /\
  forall k, (k < length rs)%nat -> exists m, nth_error (rd_ms o) k = Some (Some m) /\ holds_table lg it m (p k) (xi k) (g k).

(** A group of a SOFT file with the table [g], one row for each pitch. *)
Definition group (s : sgroup) (p xi : list R) (g : nat -> nat -> R) : Prop :=
  p <> [] /\ xi <> [] /\ vector (sg_p s) p /\ vector (sg_xi s) xi /\ exists f, sg_f s = Some f /\ stored f (length xi) (length p) (fun j i => g i j).

(** A DREAM file with [nt] slices: momenta vary fastest, then pitches, radii and times. *)
Definition dream_file (d : dream) (name grid : string) (nt : nat) (r p xi : list R) (g : nat -> nat -> nat -> nat -> R) : Prop :=
  (exists t, dr_vec d "/grid/t" = Some t /\ length t = nt) /\ dr_vec d "/grid/r" = Some r /\
  dr_vec d (String.append grid "/p1") = Some p /\ dr_vec d (String.append grid "/p2") = Some xi /\
  exists f, dr_array d name = Some ([nt; length r; length xi; length p], f) /\ length f = (nt * (length r * (length xi * length p)))%nat /\
    forall t k j i, (t < nt)%nat -> (k < length r)%nat -> (j < length xi)%nat -> (i < length p)%nat ->
      nth_error f (((t * length r + k) * length xi + j) * length p + i) = Some (g t k i j).

(** A block of data for radii, pitches and momenta, the latter varying fastest. *)
Definition block_of (f : list R) (nr np nxi : nat) (g : nat -> nat -> nat -> R) : Prop :=
  length f = (nr * (nxi * np))%nat /\
  forall k j i, (k < nr)%nat -> (j < nxi)%nat -> (i < np)%nat -> nth_error f ((k * nxi + j) * np + i) = Some (g k i j).

(** Two numbers that agree as closely as double precision can tell; [x] is the reference. *)
Definition close (x y : R) : Prop := (x = 0 -> Rabs (x - y) <= / 2 ^ 52) /\ (x <> 0 -> Rabs (x - y) <= / 2 ^ 52 * Rabs x).

(** A variable that is missing or that is not a vector. *)
Definition no_vector (a : option (marray R)) : Prop := a = None \/ exists m, a = Some m /\ ma_rows m <> 1%nat /\ ma_cols m <> 1%nat.
(** A variable that is missing or does not have the size [rows] times [cols]. *)
Definition no_matrix (a : option (marray R)) (rows cols : nat) : Prop := forall m, a = Some m -> ma_rows m <> rows \/ ma_cols m <> cols.
(** A variable that is there but has no rows. *)
Definition no_rows (a : option (marray R)) : Prop := exists m, a = Some m /\ ma_rows m = 0%nat.
(** A group that cannot be used. *)
Definition bad_group (s : sgroup) : Prop :=
  no_vector (sg_p s) \/ exists p, vector (sg_p s) p /\ (no_vector (sg_xi s) \/ exists xi, vector (sg_xi s) xi /\ ~ no_rows (sg_f s) /\ no_matrix (sg_f s) (length xi) (length p)).
(** A SOFT file with radii [rs] and a group for each of them. *)
Definition soft_file (magic : option bool) (r : option (marray R)) (groups : nat -> sgroup) (rs : list R) (p xi : nat -> list R) (g : nat -> nat -> nat -> R) : Prop :=
  magic <> Some false /\ rs <> [] /\ vector r rs /\ forall k, (k < length rs)%nat -> group (groups k) (p k) (xi k) (g k).

(** The distribution of a DREAM file that a given name selects, and its momentum grid: without
    a name the runaways or, if there are none, the hot electrons. *)
Definition ends_with (s e : string) : Prop := exists a, s = String.append a e.
Definition full_name (distname : string) : string :=
  match distname with String "/" _ => distname | _ => String.append "/eqsys/" distname end.
Definition selects (d : dream) (distname name : string) : Prop :=
  has d name = true /\
  ((distname <> EmptyString /\ name = full_name distname) \/
   (distname = EmptyString /\ (name = "/eqsys/f_re"%string \/ (has d "/eqsys/f_re" = false /\ name = "/eqsys/f_hot"%string)))).
Definition grid_of (name grid : string) : Prop :=
  (ends_with name "f_re" /\ grid = "/grid/runaway"%string) \/ (ends_with name "f_hot" /\ grid = "/grid/hottail"%string).

(** A LUKE file. *)
Definition luke_file (l : luke) (x p : list R) (beta : R) (xi : list R) (g : nat -> nat -> nat -> R) : Prop :=
  x <> [] /\ p <> [] /\ xi <> [] /\ vector (lk_r l) x /\ vector (lk_p l) p /\ number (lk_beta l) beta /\ vector (lk_xi l) xi /\
  exists f, lk_f l = Some ([length x; length xi; length p], f) /\ block_of f (length x) (length p) (length xi) g.

(** Momenta of old SOFT files: in units of the electron mass in eV, of mass times the speed of
    light in SI units, or normalized. *)
Definition momentum_unit (u : string) (norm : R) : Prop :=
  (u = "normalized"%string /\ norm = 1) \/ (u = "ev"%string /\ norm = 510998.9461) \/ (u = "si"%string /\ norm = 9.10938356e-31 * 299792458).
(** An old SOFT file: the table as one row or column, or with one row for each radius. *)
Definition depr_file (d : depr) (r p xi : list R) (g : nat -> nat -> nat -> R) : Prop :=
  r <> [] /\ p <> [] /\ xi <> [] /\ vector (dp_r d) r /\ vector (dp_p d) p /\ vector (dp_xi d) xi /\
  exists f, dp_f d = Some f /\ block_of (ma_data f) (length r) (length p) (length xi) g /\
    ((ma_rows f = length r /\ ma_cols f = (length p * length xi)%nat) \/ (ma_rows f = 1%nat /\ ma_cols f = (length p * length xi * length r)%nat) \/
     (ma_cols f = 1%nat /\ ma_rows f = (length p * length xi * length r)%nat)).
(** A verification vector, if there is one, that agrees with the table [h]; one that differs. *)
Definition agrees (a : option (marray R)) (n : nat) (h : nat -> R) : Prop :=
  a = None \/ exists l, vector a l /\ (length l <= n)%nat /\ forall i x, nth_error l i = Some x -> close x (h i).
Definition differs (a : option (marray R)) (n : nat) (h : nat -> R) : Prop :=
  exists l, vector a l /\ (length l <= n)%nat /\ exists i x, nth_error l i = Some x /\ ~ close x (h i).
