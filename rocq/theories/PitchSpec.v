(** Integrals of distribution functions over the pitch. *)
From Coq Require Import Reals.
From Coquelicot Require Import Coquelicot.
From Verif Require Import Base CodeModel CodeSpec.
Local Open Scope R_scope.

(** [F] has a value for every pitch, and its Riemann integral over the pitch, from -1 to 1, is [v]. *)
Definition pitch_integral (F : R -> option R) (v : R) : Prop :=
  exists g, (forall xi, -1 <= xi <= 1 -> F xi = Some (g xi)) /\ is_RInt g (-1) 1 v.
(** What an evaluation of a CODE distribution at momentum [q] returns, times a weight. *)
Definition evaluated (itp : Z -> list R -> list R -> R -> R) (o : code) (q : R) (weight : R -> R) (xi : R) : option R :=
  match code_eval itp o q xi with Ok r => Some (snd r * weight xi) | _ => None end.
(** A momentum on the grid. *)
Definition on_grid (np : nat) (p : list R) (q : R) : Prop := nth 0 p 0 <= q <= nth (np - 1) p 0.
