(** Vocabulary for the properties of the integrator (C34-C40, C73-C75). *)
From Coq Require Import ZArith Reals.
From Verif Require Import Base AlgebraModel IntegratorModel.
Local Open Scope R_scope.

(** A point of the solution: time, solution, derivative. *)
Notation point := (R * vec * vec)%type.

(** What a user sees of the storage: it holds exactly the points [l], in this order. *)
Definition represents (N : nat) (st : storage) (l : list point) : Prop :=
  steps_taken st = Z.of_nat (length l) /\
  forall i t y yp, nth_error l i = Some (t, y, yp) ->
    time_at st (Z.of_nat i) = Ok t /\
    forall j, (j < N)%nat ->
      solution_at N st (Z.of_nat i) j = Ok (y j) /\ derivative_at N st (Z.of_nat i) j = Ok (yp j).

(** Calls that change the storage. *)
Inductive scall : Type := SReset (y0 : vec) | SStore (t : R) (y yp : vec).
Definition do_scall (N : nat) (f : R -> vec -> vec) (st : storage) (c : scall) : outcome storage :=
  match c with
  | SReset y0 => initial_value N (Some f) st y0
  | SStore t y yp => store_solution N st t y yp
  end.
Fixpoint do_scalls (N : nat) (f : R -> vec -> vec) (st : storage) (cs : list scall) : outcome storage :=
  match cs with [] => Ok st | c :: r => obind (do_scall N f st c) (fun st' => do_scalls N f st' r) end.
(** The points that should be stored after these calls. *)
Definition points_of (f : R -> vec -> vec) (cs : list scall) : list point :=
  fold_left (fun l c => match c with SReset y0 => [(0, y0, f 0 y0)] | SStore t y yp => l ++ [(t, y, yp)] end) cs [].

(** Step size parameters for which the documentation makes sense. *)
Definition good_params (p : params) : Prop :=
  0 < g_safe p < 1 /\ 0 <= g_alpha p /\ 0 < g_minscale p < 1 /\ g_minscale p <= g_maxscale p.

(** The number in [lo, hi] closest to [x]. *)
Definition clamp (lo hi x : R) : R := Rmin hi (Rmax lo x).

(** Calls on the integrator object. *)
Inductive call : Type := CInit (y0 : vec) | CStep | CToggle (b : bool) | CParams (p : params).
Definition do_call (N : nat) (eps : R) (fuel : nat) (s : rk) (c : call) : option (outcome rk) :=
  match c with
  | CInit y0 => Some (rk_initial_value N s y0)
  | CStep => match rk_step N eps fuel s with
             | None => None
             | Some (UB, _) => Some UB
             | Some (_, s') => Some (Ok s')     (* returned, or threw and the exception was caught *)
             end
  | CToggle b => Some (Ok (toggle_dense s b))
  | CParams p => Some (Ok (set_params s p))
  end.
Fixpoint do_calls (N : nat) (eps : R) (fuel : nat) (s : rk) (cs : list call) : option (outcome rk) :=
  match cs with
  | [] => Some (Ok s)
  | c :: r => match do_call N eps fuel s c with
              | Some (Ok s') => do_calls N eps fuel s' r
              | o => o
              end
  end.
Definition good_call (c : call) : Prop := match c with CParams p => good_params p | _ => True end.

(** Dense output is not switched off. *)
Definition keeps_dense (c : call) : Prop := match c with CToggle b => b = true | _ => True end.
(** [s] is the object after SetEquation(f), InitialValue(y0) and the calls [cs] on a new
    integrator with both tolerances equal to [tol]. *)
Definition after (N : nat) (f : R -> vec -> vec) (eps : R) (fuel : nat) (tol : R) (y0 : vec) (cs : list call) (s : rk) : Prop :=
  do_calls N eps fuel (set_equation (new_rk tol) f) (CInit y0 :: cs) = Some (Ok s).
(** The storage does not exceed what [unsigned int] can index. *)
Definition fits (N : nat) (cs : list call) : Prop :=
  (1 <= N)%nat /\ (Z.of_nat N * (Z.of_nat (length cs) + 1002) < 2 ^ 32)%Z /\ forall c, In c cs -> good_call c.

(** The right-hand side looks at the N components of its argument only. *)
Definition reads_components (N : nat) (f : R -> vec -> vec) : Prop :=
  forall t v w, (forall j, (j < N)%nat -> v j = w j) -> forall j, (j < N)%nat -> f t v j = f t w j.

(** The points of one integration: the first is at time 0, every further one was reached
    from its predecessor by one Dormand-Prince step of positive length. *)
Inductive trajectory (N : nat) (f : R -> vec -> vec) : list point -> Prop :=
| traj_start : forall y yp, (forall j, (j < N)%nat -> yp j = f 0 y j) -> trajectory N f [(0, y, yp)]
| traj_step : forall l t y yp h y' yp',
    trajectory N f (l ++ [(t, y, yp)]) -> 0 < h ->
    (forall j, (j < N)%nat -> y' j = a_yout (inner_step f t h y yp) j) ->
    (forall j, (j < N)%nat -> yp' j = f (t + h) y' j) ->
    trajectory N f (l ++ [(t, y, yp); (t + h, y', yp')]).

(** The fourth-order interpolant of Dormand and Prince between two points: cubic Hermite
    interpolation plus a multiple of theta^2 (1-theta)^2 that vanishes at both ends. *)
Definition interpolant (f : R -> vec -> vec) (p p' : point) (j : nat) (T : R) : R :=
  let '(t, y, yp) := p in let '(t', y', yp') := p' in
  let h := t' - t in let th := (T - t) / h in
  let a := inner_step f t h y yp in
  (1 - th) * y j + th * y' j + th * (th - 1) * ((1 - 2 * th) * (y' j - y j) + (th - 1) * h * yp j + th * h * yp' j)
  + th * th * (1 - th) * (1 - th) *
    (h * (d1 * yp j + d3 * a_k3 a j + d4 * a_k4 a j + d5 * a_k5 a j + d6 * a_k6 a j + d7 * yp' j)).
Definition interpolant_row (N : nat) (f : R -> vec -> vec) (p p' : point) (T : R) : list R :=
  map (fun j => interpolant f p p' j T) (seq 0 N).

Definition time_of (p : point) : R := fst (fst p).
(** [T] belongs to the k-th interval of the stored times; everything up to the second point
    belongs to the first interval. *)
Definition in_interval (l : list point) (k : nat) (T : R) : Prop :=
  exists p p', nth_error l k = Some p /\ nth_error l (S k) = Some p' /\ T <= time_of p' /\ (k = O \/ time_of p < T).
(** The last stored time. *)
Definition end_time (l : list point) (e : R) : Prop := exists l' p, l = l' ++ [p] /\ time_of p = e.
Definition nondecreasing (ts : list R) : Prop :=
  forall i k a b, (i <= k)%nat -> nth_error ts i = Some a -> nth_error ts k = Some b -> a <= b.

(** Right-hand sides that depend on time only, as a polynomial of degree four. *)
Definition poly4 (c : nat -> R) (t : R) : R := c 0%nat + c 1%nat * t + c 2%nat * t^2 + c 3%nat * t^3 + c 4%nat * t^4.
Definition poly4_integral (c : nat -> R) (t : R) : R :=
  c 0%nat * t + c 1%nat * t^2 / 2 + c 2%nat * t^3 / 3 + c 3%nat * t^4 / 4 + c 4%nat * t^5 / 5.

(** Component [j] of the right-hand side is the polynomial with coefficients [cs j]. *)
Definition time_only (f : R -> vec -> vec) (cs : nat -> nat -> R) : Prop := forall t v j, f t v j = poly4 (cs j) t.

(** * Runge-Kutta methods in general *)
(** Rooted trees and the order conditions of Butcher: a method with coefficients [a], [b] is
    of order p if and only if, for every rooted tree with at most p nodes, the weight of the
    tree is 1/gamma. *)
Inductive tree : Type := Node (children : list tree).
Fixpoint order (t : tree) : nat := match t with Node l => S (list_sum (map order l)) end.
Fixpoint gamma (t : tree) : Z :=
  match t with Node l => (Z.of_nat (S (list_sum (map order l))) * fold_right Z.mul 1 (map gamma l))%Z end.
Definition rsum (n : nat) (g : nat -> R) : R := fold_right Rplus 0 (map g (seq 0 n)).
Fixpoint weight (n : nat) (a : nat -> nat -> R) (t : tree) (i : nat) : R :=
  match t with Node l => fold_right Rmult 1 (map (fun u => rsum n (fun j => a i j * weight n a u j)) l) end.
Definition has_order (p n : nat) (a : nat -> nat -> R) (b : nat -> R) : Prop :=
  forall t, (order t <= p)%nat -> rsum n (fun i => b i * weight n a t i) = / IZR (gamma t).

(** The coefficients of the class as a table: stages 0..6, the last one being the
    evaluation at the new point. *)
Definition dp_a (i j : nat) : R :=
  match i, j with
  | 1, 0 => a21
  | 2, 0 => a31 | 2, 1 => a32
  | 3, 0 => a41 | 3, 1 => a42 | 3, 2 => a43
  | 4, 0 => a51 | 4, 1 => a52 | 4, 2 => a53 | 4, 3 => a54
  | 5, 0 => a61 | 5, 1 => a62 | 5, 2 => a63 | 5, 3 => a64 | 5, 4 => a65
  | 6, 0 => a71 | 6, 2 => a73 | 6, 3 => a74 | 6, 4 => a75 | 6, 5 => a76
  | _, _ => 0%R
  end%nat.
Definition dp_b (i : nat) : R := dp_a 6 i.
Definition dp_c (i : nat) : R := match i with 0 => 0%R | 1 => c2 | 2 => c3 | 3 => c4 | 4 => c5 | _ => 1%R end%nat.
Definition dp_e (i : nat) : R := match i with 0 => e1 | 2 => e3 | 3 => e4 | 4 => e5 | 5 => e6 | 6 => e7 | _ => 0%R end%nat.
