(** Vocabulary for integrations during which the equation is replaced (C124). *)
From Coq Require Import ZArith Reals.
From Verif Require Import Base AlgebraModel IntegratorModel IntegratorSpec.
Local Open Scope R_scope.

(** Calls on the integrator object, SetEquation among them.  SetDerivative of the equation
    object the integrator holds (GeneralEquation.tcc:34-37) has the same effect. *)
Inductive ecall : Type := ECall (c : call) | ESet (g : R -> vec -> vec).
Definition do_ecall (N : nat) (eps : R) (fuel : nat) (s : rk) (c : ecall) : option (outcome rk) :=
  match c with ECall c => do_call N eps fuel s c | ESet g => Some (Ok (set_equation s g)) end.
Fixpoint do_ecalls (N : nat) (eps : R) (fuel : nat) (s : rk) (cs : list ecall) : option (outcome rk) :=
  match cs with
  | [] => Some (Ok s)
  | c :: r => match do_ecall N eps fuel s c with Some (Ok s') => do_ecalls N eps fuel s' r | o => o end
  end.
(** The parameters make sense, and the equations look at the N components only. *)
Definition good_ecall (N : nat) (c : ecall) : Prop :=
  match c with ECall c => good_call c | ESet g => reads_components N g end.
Definition fits_e (N : nat) (cs : list ecall) : Prop :=
  (1 <= N)%nat /\ (Z.of_nat N * (Z.of_nat (length cs) + 1002) < 2 ^ 32)%Z /\ forall c, In c cs -> good_ecall N c.
(** The equation set last. *)
Definition equation_after (f : R -> vec -> vec) (cs : list ecall) : R -> vec -> vec :=
  fold_left (fun f c => match c with ESet g => g | ECall _ => f end) cs f.
(** No new initial value. *)
Definition goes_on (c : ecall) : Prop := match c with ECall (CInit _) => False | _ => True end.

(** One Dormand-Prince step of [g] between two points.  The first stage is not computed: it is the
    derivative that is part of the point [p]. *)
Definition dp_step (N : nat) (g : R -> vec -> vec) (p q : point) : Prop :=
  let '(t, y, yp) := p in let '(t', y', yp') := q in
  t < t' /\ forall j, (j < N)%nat -> y' j = a_yout (inner_step g t (t' - t) y yp) j /\ yp' j = g t' y' j.
(** The derivative that is part of a point is that of [g]. *)
Definition derivative_of (N : nat) (g : R -> vec -> vec) (p : point) : Prop :=
  let '(t, y, yp) := p in forall j, (j < N)%nat -> yp j = g t y j.
(** The points [l] follow [p], each reached from its predecessor by a step of [g]. *)
Fixpoint steps_from (N : nat) (g : R -> vec -> vec) (p : point) (l : list point) : Prop :=
  match l with [] => True | q :: r => dp_step N g p q /\ steps_from N g q r end.
(** All points of an integration, if the equation may be any of [E] at any time. *)
Inductive switched (N : nat) (E : (R -> vec -> vec) -> Prop) : list point -> Prop :=
| sw_start : forall f y yp, E f -> derivative_of N f (0, y, yp) -> switched N E [(0, y, yp)]
| sw_step : forall g l p q, E g -> switched N E (l ++ [p]) -> dp_step N g p q -> switched N E (l ++ [p; q]).
